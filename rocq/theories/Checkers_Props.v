(** * C24-C25: convergence checkers *)
From Verif Require Import Prelude Prelude_Proofs Core_Model Core_Spec Core_Proofs Checkers_Model Checkers_Spec Checkers_Proofs.

(** A run of five evaluations of the conditions: conv_counter 0,0,1,1,1 and 0,2,3,3,5 kills. *)
Definition ex_view (f conv kills : nat) : mview := mkV f 4 conv kills (Some (Fin 3)) 10 (Some 2%Q) 1.
Definition ex_run : list mview := [ex_view 10 0 0; ex_view 20 0 2; ex_view 30 1 3; ex_view 40 1 3; ex_view 50 1 5].
Definition ex_kinds (i : nat) : checker :=
  match i with 0 => KillsAfterConvergence 2 1 | 1 => MaxFuncCalls 45 | _ => MaxSeconds (Some 100%Q) None end.

(** C24: leftmost in a combination, i.e. always asked. *)
Theorem C24_leftmost : forall kinds c i k n run v,
  NoDup (objects c) -> first_member c = i -> kinds i = KillsAfterConvergence k n ->
  exists b, c_last (calls mview cpriv (check_behav kinds) c (run ++ [v]) check_init) i = Some b /\
            (b = true <-> kills_due k n (run ++ [v])).
Proof. exact kac_due. Qed.
Print Assumptions C24_leftmost.

Example C24_leftmost_ex :
  let c := core_or 10 (Leaf 0) (Leaf 1) in
  map (fun m => c_last (calls _ _ (check_behav ex_kinds) c (firstn m ex_run) check_init) 0) [1; 2; 3; 4; 5] =
  [Some false; Some false; Some false; Some false; Some true].
Proof. reflexivity. Qed.

(** C24: at any position the checker counts from the first moment it is asked with enough converged, and it sees only
    the moments it is asked. *)
Theorem C24_any_position_partial : forall kinds c i k n run v,
  NoDup (objects c) -> well_made kinds c -> In i (members c) -> kinds i = KillsAfterConvergence k n ->
  match c_last (calls mview cpriv (check_behav kinds) c (run ++ [v]) check_init) i with
  | None => moments kinds c i (run ++ [v]) check_init = moments kinds c i run check_init
  | Some b => (exists m, moments kinds c i (run ++ [v]) check_init = m ++ [v]) /\
              (b = true <-> kills_due k n (moments kinds c i (run ++ [v]) check_init))
  end.
Proof. exact kac_due_any. Qed.
Print Assumptions C24_any_position_partial.

Example C24_any_position_ex :
  let c := core_and 10 (Leaf 1) (Leaf 0) in
  moments ex_kinds c 0 ex_run check_init = [ex_view 50 1 5] /\
  c_last (calls _ _ (check_behav ex_kinds) c ex_run check_init) 0 = Some false.
Proof. split; reflexivity. Qed.

(** C24 fails to the right of a condition which is not always met: after the same run MaxFuncCalls(45) &
    KillsAfterConvergence(2, 1) is False though two kills followed the convergence. *)
Theorem C24_position_refuted : exists kinds c i k n run,
  NoDup (objects c) /\ well_made kinds c /\ In i (members c) /\ kinds i = KillsAfterConvergence k n /\
  kills_due k n run /\ c_last (calls mview cpriv (check_behav kinds) c run check_init) i = Some false.
Proof.
  exists ex_kinds, (core_and 10 (Leaf 1) (Leaf 0)), 0, 2%Z, 1%Z, ex_run. splits.
  - repeat (constructor; [cbn; intuition discriminate|]). constructor.
  - intros i s o [<-|[<-|[]]] H; discriminate H.
  - cbn. auto.
  - reflexivity.
  - exists [ex_view 10 0 0; ex_view 20 0 2], (ex_view 30 1 3), [ex_view 40 1 3; ex_view 50 1 5]. splits.
    + reflexivity.
    + intros v [<-|[<-|[]]]; reflexivity.
    + discriminate.
    + discriminate.
  - vm_compute. reflexivity.
Qed.
Print Assumptions C24_position_refuted.

(** C25: once True, True at every later moment of the session. *)
Theorem C25_stable : forall k v w p q,
  match k with KillsAfterConvergence _ _ => False | _ => True end ->
  later v w -> fst (check_call k v p) = Ok true -> fst (check_call k w q) = Ok true.
Proof. exact check_stable. Qed.
Print Assumptions C25_stable.

Example C25_stable_ex : later (ex_view 40 1 3) (ex_view 50 1 5) /\ fst (check_call (MaxKills 3) (ex_view 40 1 3) cpriv0) = Ok true.
Proof. split; [|reflexivity]. constructor; cbn; try lia; try reflexivity; [|discriminate]. intros a [= <-]. eexists. split; reflexivity. Qed.

(** C25: the thresholds. *)
Theorem C25_threshold : forall k v p,
  match k with
  | MaxFuncCalls n => fst (check_call k v p) = Ok true <-> (n <= Z.of_nat (v_f v))%Z
  | MaxOptsStarted n => fst (check_call k v p) = Ok true <-> (n <= Z.of_nat (v_o v))%Z
  | MaxKills n => fst (check_call k v p) = Ok true <-> (n <= Z.of_nat (v_kills v))%Z
  | NOptConverged n => fst (check_call k v p) = Ok true <-> (n <= Z.of_nat (v_conv v))%Z
  | TargetCost t a => fst (check_call k v p) = Ok true <-> exists fx, v_fx v = Some fx /\ nle fx (nplus t a) = true
  | MaxSeconds s o =>
      make_max_seconds s o = Ok k -> (forall t, v_start v = Some t -> ~ (t == 0)%Q) ->
      (forall m, s = Some m -> ~ (m == 0)%Q -> (fst (check_call k v p) = Ok true <-> (m <= session_time v)%Q)) /\
      (forall m, o = Some m -> ~ (m == 0)%Q -> (fst (check_call k v p) = Ok true <-> (m <= session_time v + v_used v)%Q))
  | KillsAfterConvergence _ _ => True
  end.
Proof. exact check_exact. Qed.
Print Assumptions C25_threshold.

Example C25_threshold_ex :
  map (fun k => fst (check_call k (ex_view 40 1 3) cpriv0))
    [MaxFuncCalls 40; MaxFuncCalls 41; TargetCost (Fin 2) (Fin 1); TargetCost (Fin 2) (Fin (1#2)); MaxSeconds (Some 8%Q) None;
     MaxSeconds None (Some 9%Q); MaxSeconds None (Some 10%Q)] =
  [Ok true; Ok false; Ok true; Ok false; Ok true; Ok true; Ok false].
Proof. reflexivity. Qed.

(** C25: the constructor of MaxSeconds admits exactly one non-zero limit. *)
Theorem C25_one_limit : forall s o,
  (exists k, make_max_seconds s o = Ok k) <->
  ((exists m, s = Some m /\ ~ (m == 0)%Q) /\ (o = None \/ exists z, o = Some z /\ (z == 0)%Q)) \/
  ((exists m, o = Some m /\ ~ (m == 0)%Q) /\ (s = None \/ exists z, s = Some z /\ (z == 0)%Q)).
Proof.
  assert (Ht : forall x, truthy x = true <-> exists m, x = Some m /\ ~ (m == 0)%Q).
  { intros [m|]; cbn; [|split; [discriminate| intros [m [H _]]; discriminate]].
    destruct (Qeq_bool m 0) eqn:E; cbn; split; try discriminate.
    - apply Qeq_bool_iff in E. intros [m' [[= <-] H]]. contradiction.
    - intros _. exists m. split; [reflexivity|]. intro H. apply Qeq_bool_iff in H. congruence.
    - reflexivity. }
  assert (Hf : forall x, truthy x = false <-> (x = None \/ exists z, x = Some z /\ (z == 0)%Q)).
  { intros [m|]; cbn; [|intuition]. destruct (Qeq_bool m 0) eqn:E; cbn; split; try discriminate; auto.
    - intros _. right. exists m. split; [reflexivity| apply Qeq_bool_iff, E].
    - intros [H|[z [[= <-] H]]]; [discriminate|]. apply Qeq_bool_iff in H. congruence. }
  intros s o. rewrite <- !Ht, <- !Hf. unfold make_max_seconds. destruct (truthy s), (truthy o); cbn; split; intuition eauto; try discriminate.
  all: destruct H; discriminate.
Qed.
Print Assumptions C25_one_limit.

Example C25_one_limit_ex : make_max_seconds (Some 3%Q) (Some 4%Q) = Err AssertionError /\ make_max_seconds None None = Err AssertionError /\
  make_max_seconds (Some 3%Q) None = Ok (MaxSeconds (Some 3%Q) None).
Proof. repeat split. Qed.
