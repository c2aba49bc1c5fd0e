(** * C41, C42 and the optimizer's side of C37 *)
From Coq Require Import Lqa.
From Verif Require Import Prelude Prelude_Proofs Logger_Model Optimizer_Model Optimizer_Spec Optimizer_Proofs.

(** ** C41: the wrapped task *)
(** Every use of the wrapped task, by whatever optimizer in whatever order, does exactly what it must. *)
Theorem C41_every_use : forall t cs s, let (rs, s') := uses t cs s in
  exists a, o_tr s' = o_tr s ++ a /\ faithfuls t (o_id s) (o_calls s) (o_detailed s) cs rs a.
Proof. intros t cs s. pose proof (uses_spec t cs s) as H. destruct (uses t cs s) as [rs s']. destruct H as [a [-> H]]. exists a. auto. Qed.
Print Assumptions C41_every_use.

(** When the task answers and the queue has room: one evaluation and one report for every use, with the vector of the
    use; the optimizer gets the reported value, or the whole detailed answer when it asked for it. *)
Theorem C41_reported_once : forall t cs s,
  (forall k x, exists v, t_call t k x = Ok v) ->
  (forall d k x, t_det t = Some d -> exists fx ex, d k x = Ok (fx :: ex)) ->
  ((o_detailed s = true \/ exists x, In (true, x) cs) -> t_det t <> None) -> (forall k, q_full t k = false) ->
  let (rs, s') := uses t cs s in
  exists a vs, o_tr s' = o_tr s ++ a /\ rs = map Ok vs /\ evaluated a = map snd cs /\ map fst (reported a) = map snd cs /\
  Forall2 (fun v p => match v with Scalar f => f = snd p | Whole l => hd_error l = Some (snd p) end) vs (reported a) /\
  Forall2 (fun c v => match v with Scalar _ => fst c = false | Whole _ => fst c = true end) cs vs.
Proof.
  intros t cs s Hc Hd Hn Hq. pose proof (C41_every_use t cs s) as H. destruct (uses t cs s) as [rs s']. destruct H as [a [E H]].
  assert (G : exists vs, rs = map Ok vs /\ evaluated a = map snd cs /\ map fst (reported a) = map snd cs /\
    Forall2 (fun v p => match v with Scalar f => f = snd p | Whole l => hd_error l = Some (snd p) end) vs (reported a) /\
    Forall2 (fun c v => match v with Scalar _ => fst c = false | Whole _ => fst c = true end) cs vs); [|destruct G as [vs G]; exists a, vs; tauto].
  clear E s'. revert rs a H. generalize (o_calls s). induction cs as [|c cs IH]; intros k rs a H; destruct rs as [|r rs]; try (destruct H; fail); cbn [faithfuls] in H.
  - subst a. exists []. cbn. splits; auto.
  - destruct H as [b [c' [-> [Hf Hr]]]]. destruct (IH ltac:(intros [Hx|[x Hx]]; apply Hn; [left; exact Hx| right; exists x; right; exact Hx]) _ _ _ Hr) as [vs [-> [I1 [I2 [I3 I4]]]]].
    destruct c as [det x]. unfold faithful in Hf. cbn [fst snd] in Hf.
    assert (G : exists v fx, r = Ok v /\ evaluated b = [x] /\ reported b = [(x, fx)] /\ match v with Scalar f => f = fx /\ det = false | Whole l => hd_error l = Some fx /\ det = true end).
    { destruct (o_detailed s || det) eqn:Eb.
      - destruct (t_det t) as [d|] eqn:Et.
        2:{ exfalso. apply Hn; [|reflexivity]. apply orb_true_iff in Eb as [Eb|Eb]; [left; exact Eb|]. right. exists x. left. rewrite Eb. reflexivity. }
        destruct (Hd d k x eq_refl) as [fx [ex Ed]]. rewrite Ed, Hq in Hf. destruct Hf as [-> ->]. destruct det; [exists (Whole (fx :: ex)), fx| exists (Scalar fx), fx]; cbn; auto.
      - apply orb_false_iff in Eb as [_ ->]. destruct (Hc k x) as [v Ev]. rewrite Ev, Hq in Hf. destruct Hf as [-> ->]. exists (Scalar v), v. cbn. auto. }
    destruct G as [v [fx [-> [G1 [G2 G3]]]]]. exists (v :: vs). rewrite evaluated_app, reported_app, G1, G2. cbn. rewrite I1, I2. splits; auto.
    + constructor; [|exact I3]. destruct v; cbn; tauto.
    + constructor; [|exact I4]. destruct v; cbn; tauto.
Qed.
Print Assumptions C41_reported_once.

Definition q1 : Q := 1%Q.
Definition ex_task : task :=
  mkTask (fun k x => Ok (Fin (inject_Z (Z.of_nat (10 - k))))) (Some (fun k x => Ok [Fin (inject_Z (Z.of_nat (10 - k))); Fin 7; Fin 8])) (fun _ => false).
Example C41_reported_once_met :
  let s := fresh 3 1 true 5 [] [] in
  let (rs, s') := uses ex_task [(false, [Fin 1]); (true, [Fin 2]); (false, [Fin 3])] s in
  rs = [Ok (Scalar (Fin 10)); Ok (Whole [Fin 9; Fin 7; Fin 8]); Ok (Scalar (Fin 8))] /\
  o_tr s' = [AEval true [Fin 1]; AReport (mkIR 3 [Fin 1] (Fin 10) [Fin 7; Fin 8]); AEval true [Fin 2]; AReport (mkIR 3 [Fin 2] (Fin 9) [Fin 7; Fin 8]);
             AEval true [Fin 3]; AReport (mkIR 3 [Fin 3] (Fin 8) [Fin 7; Fin 8])].
Proof. vm_compute. auto. Qed.

(** Whatever happens short of waiting for ever, the last thing an optimizer does is to put its id on the results queue, and it does so once. *)
Theorem C41_farewell : forall e sends s r s', minimize_ e sends s = (r, s') -> r <> Err Blocked -> r <> Err OutOfFuel ->
  exists a, o_tr s' = o_tr s ++ a ++ [ABye (o_id s)] /\ forall i, ~ In (ABye i) a.
Proof. exact farewell. Qed.
Print Assumptions C41_farewell.
Definition broken_task : task := mkTask (fun k x => if Nat.eqb k 1 then Err ZeroDivisionError else Ok (Fin 1)) None (fun _ => false).
Definition ex_setup (t : task) : setup := mkSetup t (fun _ _ => 1 # 2)%Q [(0, 1); (-(2), 4)]%Q None true.
Example C41_farewell_met :
  let (r, s') := minimize_ (ex_setup broken_task) true (fresh 2 1 false 4 [] []) in
  r = Err ZeroDivisionError /\ length (o_tr s') = 5 /\ last (o_tr s') AClear = ABye 2.
Proof. vm_compute. auto. Qed.

(** A crash is reported to the manager just before the farewell, as long as the pipe works. *)
Theorem C41_crash_reported : forall e s x s', minimize_ e true s = (Err x, s') -> x <> Blocked -> x <> OutOfFuel ->
  exists a, o_tr s' = o_tr s ++ a ++ [ASend 9; ABye (o_id s)].
Proof. exact crash_reported. Qed.
Print Assumptions C41_crash_reported.
Example C41_crash_reported_met :
  let (r, s') := minimize_ (ex_setup broken_task) true (fresh 2 1 false 4 [] []) in
  r = Err ZeroDivisionError /\ exists a, o_tr s' = a ++ [ASend 9; ABye 2].
Proof. vm_compute. split; [reflexivity|]. match goal with |- exists a, ?l = _ => let k := eval vm_compute in (firstn 3 l) in exists k; reflexivity end. Qed.

(** Reading messages always comes to an end (it may wait for the manager for ever, but does not loop). *)
Theorem C41_messages_end : forall s, fst (check_messages s) <> Err OutOfFuel.
Proof. exact check_ends. Qed.
Print Assumptions C41_messages_end.

(** ** C42: RandomOptimizer *)
(** The random numbers are in [0, 1) and the bounds in order. *)
Definition usable (e : setup) : Prop :=
  (forall k j, 0 <= e_rand e k j < 1)%Q /\ (forall b, In b (e_bounds e) -> fst b <= snd b)%Q.

(** A whole run, however it ends: the budget, the bounds, and what was reported. *)
Theorem C42_budget_and_bounds : forall e id workers detailed iters ev gate r s',
  usable e -> (detailed = true -> t_det (e_task e) <> None) ->
  minimize e (fresh id workers detailed iters ev gate) = (r, s') ->
  length (evaluated (o_tr s')) <= iters /\ o_used s' = length (evaluated (o_tr s')) /\
  Forall (inside (e_bounds e)) (evaluated (o_tr s')) /\
  (r = Ok tt -> map fst (reported (o_tr s')) = evaluated (o_tr s') /\ (o_stop s' = true \/ length (evaluated (o_tr s')) = iters)).
Proof.
  intros e id w d n ev ga r s' Hu Hd H.
  destruct (minimize_part e [] (fresh id w d n ev ga) r s' Hu Hd best_nil (or_intror eq_refl) H) as [a [Hp [Hl Hs]]].
  pose proof (pa_tr _ _ _ _ _ _ Hp) as Ht. cbn in Ht. rewrite Ht. cbn in Hl. splits.
  - lia.
  - rewrite (pa_used _ _ _ _ _ _ Hp). reflexivity.
  - exact (pa_in _ _ _ _ _ _ Hp).
  - intros ->. destruct (pa_rep _ _ _ _ _ _ Hp) as [z [E1 [_ E2]]]. rewrite (E2 eq_refl), app_nil_r in E1. split; [auto|].
    destruct (Hs eq_refl) as [Hx|Hx]; [auto|]. right. cbn in Hx. lia.
Qed.
Print Assumptions C42_budget_and_bounds.

(** When it returns, the result is the best of all its evaluations; when it is interrupted, of all but perhaps the last. *)
Theorem C42_result_is_best : forall e id workers detailed iters ev gate r s',
  usable e -> (detailed = true -> t_det (e_task e) <> None) ->
  minimize e (fresh id workers detailed iters ev gate) = (r, s') ->
  exists z t, reported (o_tr s') = z ++ t /\ length t <= 1 /\ (r = Ok tt -> t = []) /\ best_of z (o_rx s') (o_rfx s').
Proof.
  intros e id w d n ev ga r s' Hu Hd H.
  destruct (minimize_part e [] (fresh id w d n ev ga) r s' Hu Hd best_nil (or_intror eq_refl) H) as [a [Hp _]].
  pose proof (pa_tr _ _ _ _ _ _ Hp) as Ht. cbn in Ht. rewrite Ht. destruct (pa_best _ _ _ _ _ _ Hp) as [z [t [E1 [E2 [E3 E4]]]]].
  exists z, t. splits; auto. intros ->. apply E3. reflexivity.
Qed.
Print Assumptions C42_result_is_best.
Definition vals (k : nat) : num := nth k [Fin 5; Fin 3; NaN; Fin 4; Fin 1] PInf.
Definition val_task : task := mkTask (fun k x => Ok (vals k)) None (fun _ => false).
Example C42_run_met :
  let (r, s') := minimize (ex_setup val_task) (fresh 2 1 false 4 [] []) in
  r = Ok tt /\ map snd (reported (o_tr s')) = [Fin 5; Fin 3; NaN; Fin 4] /\ o_rfx s' = Fin 3 /\
  match o_rx s' with Some [Fin a; Fin b] => (a == 1 # 2)%Q /\ (b == 1)%Q | _ => False end.
Proof. vm_compute. auto 10. Qed.
Example C42_usable_met : usable (ex_setup val_task).
Proof. split; [intros; cbn; lra| intros b [<-|[<-|[]]]; cbn; lra]. Qed.

(** Once told to stop it makes no further evaluation. *)
Theorem C42_stops : forall e id workers detailed iters ev gate r s' pre post,
  usable e -> (detailed = true -> t_det (e_task e) <> None) ->
  minimize e (fresh id workers detailed iters ev gate) = (r, s') -> o_tr s' = pre ++ AStop :: post -> evaluated post = [].
Proof.
  intros e id w d n ev ga r s' pre post Hu Hd H E.
  destruct (minimize_part e [] (fresh id w d n ev ga) r s' Hu Hd best_nil (or_intror eq_refl) H) as [a [Hp _]].
  pose proof (pa_tr _ _ _ _ _ _ Hp) as Ht. cbn in Ht. rewrite Ht in E. eapply (pa_stop _ _ _ _ _ _ Hp). exact E.
Qed.
Print Assumptions C42_stops.
Example C42_stops_met :
  let (r, s') := minimize (ex_setup val_task) (fresh 2 1 false 4 [Silent; Arrives (MKey 1)] []) in
  r = Ok tt /\ length (evaluated (o_tr s')) = 2 /\ In AStop (o_tr s').
Proof. vm_compute. auto 10. Qed.

(** The optimizer's side of C37: after it has reported to be paused it evaluates nothing until it is released. *)
Theorem C37_pauses_until_released : forall e id workers detailed iters ev gate r s' pre post,
  usable e -> (detailed = true -> t_det (e_task e) <> None) ->
  minimize e (fresh id workers detailed iters ev gate) = (r, s') -> o_tr s' = pre ++ ASend 1 :: post -> evaluated post <> [] ->
  exists q w, post = q ++ ARelease :: w /\ evaluated q = [].
Proof.
  intros e id w d n ev ga r s' pre post Hu Hd H E Hn.
  destruct (minimize_part e [] (fresh id w d n ev ga) r s' Hu Hd best_nil (or_intror eq_refl) H) as [a [Hp _]].
  pose proof (pa_tr _ _ _ _ _ _ Hp) as Ht. cbn in Ht. rewrite Ht in E. eapply (pa_pause _ _ _ _ _ _ Hp); eassumption.
Qed.
Print Assumptions C37_pauses_until_released.
Definition ex_events : list event := [Silent; Arrives (MKey 2); Silent; Arrives (MTuple 0 ["p"%string]); Silent; Silent; Arrives (MKey 1)].
Example C37_pauses_met :
  let (r, s') := minimize (ex_setup val_task) (fresh 2 1 false 9 ex_events []) in
  r = Ok tt /\ map (fun a => match a with AEval _ _ => 1 | AReport _ => 2 | ASend 1 => 3 | ASave _ _ => 4 | AClear => 5 | ARelease => 6 | AStop => 7 | _ => 8 end) (o_tr s')
  = [1; 2; 1; 2; 3; 4; 5; 6; 1; 2; 7; 8].
Proof. vm_compute. auto. Qed.

(** What is saved for a checkpoint: the evaluations made so far are counted; the result is the best of all of them but
    perhaps the last. *)
Theorem C42_saved : forall e id workers detailed iters ev gate r s' p n pre post,
  usable e -> (detailed = true -> t_det (e_task e) <> None) ->
  minimize e (fresh id workers detailed iters ev gate) = (r, s') -> o_tr s' = pre ++ ASave p n :: post ->
  n_max n = iters /\ n_used n = length (evaluated pre) /\
  exists z t, reported pre = z ++ t /\ length t <= 1 /\ best_of z (n_rx n) (n_rfx n).
Proof.
  intros e id w d m ev ga r s' p n pre post Hu Hd H E.
  destruct (minimize_part e [] (fresh id w d m ev ga) r s' Hu Hd best_nil (or_intror eq_refl) H) as [a [Hp _]].
  pose proof (pa_tr _ _ _ _ _ _ Hp) as Ht. cbn in Ht. rewrite Ht in E. exact (pa_save _ _ _ _ _ _ Hp _ _ _ _ E).
Qed.
Print Assumptions C42_saved.

(** Resuming a saved optimizer: the two parts together stay within the budget, and the result is the best of both
    parts, except that the last evaluation before the checkpoint may be left out. *)
Theorem C42_resume_partial : forall e id workers detailed iters ev gate r s' p n pre post e2 slots ev2 gate2 r2 s2,
  usable e -> (detailed = true -> t_det (e_task e) <> None) ->
  minimize e (fresh id workers detailed iters ev gate) = (r, s') -> o_tr s' = pre ++ ASave p n :: post ->
  usable e2 -> (n_detailed n = true -> t_det (e_task e2) <> None) ->
  minimize e2 (load n id slots ev2 gate2) = (r2, s2) ->
  length (evaluated pre) + length (evaluated (o_tr s2)) <= iters /\
  Forall (inside (e_bounds e2)) (evaluated (o_tr s2)) /\
  exists z t, reported pre = z ++ t /\ length t <= 1 /\ (r2 = Ok tt -> best_of (z ++ reported (o_tr s2)) (o_rx s2) (o_rfx s2)).
Proof.
  intros e id w d m ev ga r s' p n pre post e2 slots ev2 ga2 r2 s2 Hu Hd H E Hu2 Hd2 H2.
  destruct (C42_saved _ _ _ _ _ _ _ _ _ _ _ _ _ Hu Hd H E) as [N1 [N2 [z [t [N3 [N4 N5]]]]]].
  assert (Hb : length (evaluated pre) <= m).
  { destruct (C42_budget_and_bounds _ _ _ _ _ _ _ _ _ Hu Hd H) as [Hx _]. rewrite E, evaluated_app, app_length in Hx. lia. }
  destruct (minimize_part e2 z (load n id slots ev2 ga2) r2 s2 Hu2 Hd2 N5 (or_introl eq_refl) H2) as [a [Hp [Hl _]]].
  pose proof (pa_tr _ _ _ _ _ _ Hp) as Ht. cbn in Ht. rewrite Ht. cbn in Hl. rewrite N1, N2 in Hl. splits.
  - lia.
  - exact (pa_in _ _ _ _ _ _ Hp).
  - exists z, t. splits; auto. intros ->. destruct (pa_best _ _ _ _ _ _ Hp) as [y [u [E1 [_ [E3 E4]]]]]. rewrite (E3 eq_refl), app_nil_r in E1. rewrite E1. exact E4.
Qed.
Print Assumptions C42_resume_partial.

(** Finding: messages are read before the result is updated, so an optimizer saved in between has counted its last
    evaluation but not looked at its value; the best point can be lost by a checkpoint. *)
Definition lost_vals (k : nat) : num := nth k [Fin 1] (Fin 5).
Definition lost_task : task := mkTask (fun k x => Ok (lost_vals k)) None (fun _ => false).
Definition late_task : task := mkTask (fun k x => Ok (Fin 5)) None (fun _ => false).
Definition lost_run : opt := snd (minimize (ex_setup lost_task) (fresh 2 1 false 3 [Arrives (MKey 2); Arrives (MTuple 0 ["p"%string])] [])).
Definition lost_save : snapshot := match nth 3 (o_tr lost_run) AClear with ASave _ n => n | _ => snap lost_run end.
Theorem C42_resume_refuted : exists e id iters ev r s' p n pre post e2 s2 x f,
  minimize e (fresh id 1 false iters ev []) = (r, s') /\ o_tr s' = pre ++ ASave p n :: post /\
  minimize e2 (load n id 1 [] []) = (Ok tt, s2) /\ In (x, f) (reported pre) /\ nlt f (o_rfx s2) = true.
Proof.
  exists (ex_setup lost_task), 2, 3, [Arrives (MKey 2); Arrives (MTuple 0 ["p"%string])], (Ok tt), lost_run, "p"%string, lost_save,
    (firstn 3 (o_tr lost_run)), (skipn 4 (o_tr lost_run)), (ex_setup late_task), (snd (minimize (ex_setup late_task) (load lost_save 2 1 [] []))),
    (match evaluated (o_tr lost_run) with x :: _ => x | [] => [] end), (Fin 1).
  splits; vm_compute; auto.
Qed.
Print Assumptions C42_resume_refuted.
