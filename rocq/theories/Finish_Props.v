(** * Properties C72 and C73: the end of a session, the decorators *)
From Verif Require Import Prelude Prelude_Proofs Finish_Model Finish_Spec Finish_Proofs.
From Coq Require Import Lia.

Lemma body_balanced ev m : balanced m -> e_begin ev = None ->
  length (g_starts (snd (body ev nobody (set_open true m)))) = S (length (g_ends m)).
Proof.
  intros B E. destruct (body_same ev nobody (set_open true m)) as [_ ->]. rewrite E. cbn. rewrite app_length, B. cbn. lia.
Qed.

(** ** C72 *)
(** If the session can be opened and closed, start_manager returns a result that says why it ended, the log is closed, the children were
    stopped, and the session has its start and its end.  Not for SystemExit. *)
Theorem C72_ends_partial ev m w : entered ev m -> tidy ev -> balanced m -> e_begin ev = None -> story ev w -> w <> Stopped Exit ->
  exists n, start_manager ev m = (Returns (g_result n), n) /\ an_cond (g_result n) = Some (says w) /\ g_open n = false /\
            length (g_stops m) < length (g_stops n) /\
            exists t, g_t_end n = Some t /\ g_starts n = g_starts m ++ [e_start ev] /\ g_ends n = g_ends m ++ [t].
Proof.
  intros EN TI BA EB ST NE. rewrite (start_entered ev m EN).
  destruct (guarded_story ev nobody (set_open true m) w ST NE) as (k & -> & SM & SS & SR & SL & SE).
  assert (GE : g_ends k = g_ends m) by apply SM.
  destruct (finally_tidy ev (match w with Dead => nobody | _ => says w end) (caught_of w) k TI) as
    (n & F & C & _ & _ & O & P & Q & (t & T1 & T2 & _) & _); [rewrite SS, GE; now apply body_balanced|].
  exists n. splits; [exact F| |exact O|rewrite P; exact SL|].
  - rewrite C. now destruct w as [| |[| |]].
  - exists t. splits; [exact T1| |now rewrite T2, GE]. rewrite Q, SS. destruct (body_same ev nobody (set_open true m)) as [_ ->]. now rewrite EB.
Qed.
Print Assumptions C72_ends_partial.

(** Every finite history of rounds has such a story, or the manager is still running. *)
Theorem C72_story ev m : entered ev m -> e_begin ev = None ->
  (exists w, story ev w) \/ (Forall quiet (e_rounds ev) /\ fst (start_manager ev m) = Running).
Proof.
  intros EN EB. destruct (body_cases ev) as [S|(Q & B & R)]; [now left|]. right. split; [exact Q|].
  rewrite (start_entered ev m EN). unfold guarded. pose proof (body_running ev nobody (set_open true m) Q B R) as L.
  destruct (body ev nobody (set_open true m)) as [l k]. cbn in L. now subst.
Qed.
Print Assumptions C72_story.

(** Nothing raised in the session reaches the caller, not even what the handlers raise. *)
Theorem C72_never_raises ev m : entered ev m -> tidy ev -> balanced m -> e_begin ev = None ->
  forall e, fst (start_manager ev m) <> Raises e.
Proof.
  intros EN TI BA EB e. rewrite (start_entered ev m EN). unfold guarded.
  pose proof (body_balanced ev m BA EB) as L. destruct (body_same ev nobody (set_open true m)) as [(_ & _ & _ & GE & _) _].
  destruct (body ev nobody (set_open true m)) as [l k]. cbn in *.
  assert (H : forall r c k', g_starts k' = g_starts k -> g_ends k' = g_ends k -> fst (finally ev r c k') <> Raises e).
  { intros r c k' H1 H2. destruct (finally_tidy ev r c k' TI) as (n & -> & _); [rewrite H1, H2, L, GE; reflexivity|]. discriminate. }
  destruct l as [r|[| |t] r|]; try (apply H; reflexivity). discriminate.
Qed.
Print Assumptions C72_never_raises.

(** The value is the one known after the last round, whatever ended it. *)
Theorem C72_best ev m rs r tl : entered ev m -> tidy ev -> balanced m -> e_begin ev = None -> e_restart ev = None ->
  e_rounds ev = rs ++ r :: tl -> Forall quiet rs -> ~ quiet r ->
  exists a, fst (start_manager ev m) = Returns a /\ an_fx a = an_fx (rd_best r) /\
            (an_x (rd_best r) <> Some [] -> an_x a = an_x (rd_best r)).
Proof.
  intros EN TI BA EB ER L Q N. rewrite (start_entered ev m EN). unfold guarded.
  pose proof (body_balanced ev m BA EB) as LB. destruct (body_same ev nobody (set_open true m)) as [(_ & _ & _ & GE & _) _].
  pose proof (body_best ev nobody (set_open true m) rs r tl EB ER L Q N) as GB.
  assert (ST : fst (body ev nobody (set_open true m)) <> Still).
  { destruct (body_cases ev) as [[w S]|(Q' & _)].
    - pose proof (body_story ev w nobody (set_open true m) S) as LL. destruct w; cbn in LL; [congruence..|].
      destruct LL as [? ->]. discriminate.
    - rewrite L in Q'. apply Forall_app in Q' as [_ Q']. now inversion Q'. }
  destruct (body ev nobody (set_open true m)) as [l k]. cbn in *.
  assert (H : forall s c k', g_starts k' = g_starts k -> g_ends k' = g_ends k -> g_result k' = g_result k ->
    exists a, fst (finally ev s c k') = Returns a /\ an_fx a = an_fx (rd_best r) /\ (an_x (rd_best r) <> Some [] -> an_x a = an_x (rd_best r))).
  { intros s c k' H1 H2 H3. destruct (finally_tidy ev s c k' TI) as (n & -> & _ & H4 & H5 & _); [rewrite H1, H2, LB, GE; reflexivity|].
    exists (g_result n). rewrite H3, GB in *. auto. }
  destruct l as [s|[| |t] s|]; try (apply H; reflexivity). now destruct ST.
Qed.
Print Assumptions C72_best.

(** Summary file and log file give the same reason; it is the one of the result unless something was raised. *)
Theorem C72_records ev m w : entered ev m -> tidy ev -> balanced m -> e_begin ev = None -> story ev w -> w <> Stopped Exit ->
  let n := snd (start_manager ev m) in
  (0 < g_summary m -> exists r, g_yaml n = Some r /\ (2 < g_summary m -> g_h5 n = Some r) /\
     match w with
     | Stopped Interrupt => r = "Process Crash: User Interrupt"%string
     | Stopped (Exc t) => r = if string_dec t "" then says w else ("Process Crash: " ++ t)%string
     | _ => an_cond (g_result n) = Some r
     end) /\
  (g_summary m = 0 -> g_yaml n = g_yaml m /\ g_h5 n = g_h5 m).
Proof.
  intros EN TI BA EB ST NE. cbv zeta. rewrite (start_entered ev m EN).
  destruct (guarded_story ev nobody (set_open true m) w ST NE) as (k & -> & SM & SS & SR & SL & SE).
  destruct SM as (_ & _ & GS & GE & GY & GH). cbn in GS, GE, GY, GH.
  destruct (finally_tidy ev (match w with Dead => nobody | _ => says w end) (caught_of w) k TI) as
    (n & -> & C & _ & _ & _ & _ & _ & _ & Y & H); [rewrite SS, GE; now apply body_balanced|]. cbn [snd].
  rewrite GS in Y, H. split.
  - intros P. rewrite (proj2 (Nat.ltb_lt _ _) P) in Y. eexists. split; [exact Y|]. split.
    + intros P2. now rewrite (proj2 (Nat.ltb_lt _ _) P2) in H.
    + destruct w as [t| |[| |t]]; cbn; try exact C; [reflexivity|].
      destruct (string_dec t "") as [->|T]; [reflexivity|]. apply String.eqb_neq in T. rewrite T. reflexivity.
  - intros Z. rewrite Z in Y, H. cbn in Y, H. split; congruence.
Qed.
Print Assumptions C72_records.

(** A session of three rounds: the third satisfies the checker. *)
Definition an0 : answer := mkAn None None None.
Definition an1 : answer := mkAn (Some [Fin 1]) (Some (Fin 3)) None.
Definition rq : round := mkRd None an0 false true (inl false) "" None 1.
Definition rend : round := mkRd None an1 false true (inl true) "FTarget = True" None 7.
Definition rdead : round := mkRd None an1 true false (inl false) "" None 7.
Definition ev0 (pre : bool + bexn) (begin_ : option bexn) (rs : list round) (stop save : option bexn) : events :=
  mkEv pre "" false None None begin_ 0 None rs None stop None 9 None None save None.
Definition m0 : mgr := mkMg true an0 None [] [] false 3 None None [].
Lemma entered0 b rs st sv : entered (ev0 (inl false) b rs st sv) m0.
Proof. unfold entered. splits; try reflexivity. now exists false. Qed.
Example C72_met : let ev := ev0 (inl false) None [rq; rq; rend] None None in
  entered ev m0 /\ tidy ev /\ balanced m0 /\ e_begin ev = None /\ story ev (ByChecker "FTarget = True") /\
  start_manager ev m0 = (Returns (mkAn (Some [Fin 1]) (Some (Fin 3)) (Some "FTarget = True"%string)),
    mkMg true (mkAn (Some [Fin 1]) (Some (Fin 3)) (Some "FTarget = True"%string)) (Some 7) [0] [7] false 3
         (Some "FTarget = True"%string) (Some "FTarget = True"%string) [None]).
Proof.
  cbv zeta. splits; [apply entered0|now unfold tidy|reflexivity|reflexivity| |reflexivity].
  apply (S_end _ [rq; rq] rend []); try reflexivity; [|now apply B_checker].
  repeat constructor; intros [? ?]; discriminate.
Qed.

(** SystemExit, raised for instance by a signal handler that calls sys.exit, is swallowed: the call returns, the children are not stopped,
    and the reason is that no optimizer is alive. *)
Theorem C72_exit_refuted : exists ev m, entered ev m /\ tidy ev /\ balanced m /\ e_begin ev = None /\ story ev (Stopped Exit) /\
  exists n, start_manager ev m = (Returns (g_result n), n) /\ g_stops n = [] /\
            an_cond (g_result n) = Some "No optimizers alive, spawning stopped."%string.
Proof.
  exists (ev0 (inl false) None [rq; mkRd (Some Exit) an1 false true (inl false) "" None 3] None None), m0.
  splits; [apply entered0|now unfold tidy|reflexivity..| |].
  - apply (S_round _ [rq] (mkRd (Some Exit) an1 false true (inl false) "" None 3) []); try reflexivity; [|now apply T_work].
    repeat constructor; intros [? ?]; discriminate.
  - match goal with |- exists n, start_manager ?e ?m = _ /\ _ => exists (snd (start_manager e m)) end. splits; vm_compute; reflexivity.
Qed.
Print Assumptions C72_exit_refuted.

(** If the checker cannot be evaluated before the start, a session whose optimizers all finish has the reason "None". *)
Theorem C72_dead_refuted : exists ev m, (exists t, e_pre ev = inr (Exc t)) /\ tidy ev /\ story ev Dead /\
  exists a, fst (start_manager ev m) = Returns a /\ an_cond a = Some "None"%string.
Proof.
  exists (ev0 (inr (Exc "TypeError")) None [rq; rdead] None None), m0.
  splits; [now eexists|now unfold tidy| |eexists; split; [vm_compute; reflexivity|reflexivity]].
  apply (S_end _ [rq] rdead []); try reflexivity; [|now apply B_dead].
  repeat constructor; intros [? ?]; discriminate.
Qed.
Print Assumptions C72_dead_refuted.

(** A session that met its convergence condition is reported as a crash if stopping the children fails. *)
Theorem C72_converged_refuted : exists ev m, entered ev m /\ tidy ev /\ (exists r, In r (e_rounds ev) /\ rd_check r = inl true) /\
  exists n, start_manager ev m = (Returns (g_result n), n) /\ an_cond (g_result n) = Some "GloMPO Crash"%string /\
            g_yaml n = Some "Process Crash: OSError"%string.
Proof.
  exists (ev0 (inl false) None [rq; rend] (Some (Exc "OSError")) None), m0.
  splits; [apply entered0|now unfold tidy|exists rend; split; [cbn; auto|reflexivity]|].
  match goal with |- exists n, start_manager ?e ?m = _ /\ _ => exists (snd (start_manager e m)) end. splits; vm_compute; reflexivity.
Qed.
Print Assumptions C72_converged_refuted.

(** If writing the summary fails nothing is returned and the log stays open. *)
Theorem C72_save_raises ev m e : entered ev m -> balanced m -> e_begin ev = None -> e_movie ev = None -> e_fig ev = None -> e_save ev = Some e ->
  fst (start_manager ev m) <> Running -> exists n, start_manager ev m = (Raises e, n) /\ g_open n = true /\ g_yaml n = g_yaml m.
Proof.
  intros EN BA EB E1 E2 E3. rewrite (start_entered ev m EN). unfold guarded.
  pose proof (body_balanced ev m BA EB) as LB. destruct (body_same ev nobody (set_open true m)) as [(_ & GO & _ & GE & GY & _) _].
  destruct (body ev nobody (set_open true m)) as [l k]. cbn in *.
  assert (H : forall s c k', g_starts k' = g_starts k -> g_ends k' = g_ends k -> g_open k' = g_open k -> g_yaml k' = g_yaml k ->
    exists n, finally ev s c k' = (Raises e, n) /\ g_open n = true /\ g_yaml n = g_yaml m).
  { intros s c k' H1 H2 H3 H4. unfold finally. cbn. rewrite H1, H2, LB, GE, (proj2 (Nat.eqb_neq _ _)) by lia.
    rewrite E1, E2, E3. replace (match c with Some _ => None | None => None end) with (@None bexn) by now destruct c.
    eexists. split; [reflexivity|]. cbn. split; congruence. }
  destruct l as [s|[| |t] s|]; try (intros _; apply H; reflexivity). intros R. now destruct R.
Qed.
Print Assumptions C72_save_raises.
Theorem C72_lost_refuted : exists ev m, entered ev m /\ balanced m /\ e_begin ev = None /\ story ev (ByChecker "FTarget = True") /\
  (exists t n, start_manager ev m = (Raises (Exc t), n) /\ g_open n = true).
Proof.
  exists (ev0 (inl false) None [rq; rend] None (Some (Exc "AttributeError: 'NoneType' object has no attribute 'max'"))), m0.
  splits; [apply entered0|reflexivity..| |].
  - apply (S_end _ [rq] rend []); try reflexivity; [|now apply B_checker].
    repeat constructor; intros [? ?]; discriminate.
  - do 2 eexists. split; [vm_compute; reflexivity|reflexivity].
Qed.
Print Assumptions C72_lost_refuted.

(** A movie is made only if nothing was caught: what that raises reaches the caller after a session that ended by itself, not after a crash. *)
Theorem C72_movie ev m w e : entered ev m -> balanced m -> e_begin ev = None -> story ev w -> w <> Stopped Exit -> e_movie ev = Some e ->
  e_fig ev = None -> e_save ev = None -> e_close ev = None ->
  (fst (start_manager ev m) = Raises e <-> forall x, w <> Stopped x) /\
  (forall x, w = Stopped x -> exists a, fst (start_manager ev m) = Returns a /\ an_cond a = Some (says w)).
Proof.
  intros EN BA EB ST NE E1 E2 E3 E4. rewrite (start_entered ev m EN).
  destruct (guarded_story ev nobody (set_open true m) w ST NE) as (k & -> & SM & SS & _).
  assert (GE : g_ends k = g_ends m) by apply SM. assert (L : length (g_starts k) = S (length (g_ends k))) by (rewrite SS, GE; now apply body_balanced).
  unfold finally. cbn. rewrite L, (proj2 (Nat.eqb_neq _ _)), E1, E2, E3, E4 by lia.
  destruct w as [t| |[| |t]]; cbn; [| | |now destruct NE|].
  1,2: split; [split; [intros _ x X; discriminate|reflexivity]|intros x X; discriminate].
  all: split; [split; [intros H; discriminate|intros H; exfalso; eapply H; reflexivity]|intros x X; eexists; split; reflexivity].
Qed.
Print Assumptions C72_movie.
Example C72_movie_met : exists ev, entered ev m0 /\ balanced m0 /\ e_begin ev = None /\ story ev (ByChecker "FTarget = True") /\ e_movie ev = Some (Exc "RuntimeError") /\
  e_fig ev = None /\ e_save ev = None /\ e_close ev = None /\ fst (start_manager ev m0) = Raises (Exc "RuntimeError").
Proof.
  exists (mkEv (inl false) "" false None None None 5 None [rq; rend] None None None 9 (Some (Exc "RuntimeError")) None None None).
  splits; try reflexivity.
  - unfold entered. splits; try reflexivity. exists false. split; reflexivity.
  - apply (S_end _ [rq] rend []); try reflexivity; [|now apply B_checker].
    repeat constructor; intros [? ?]; discriminate.
Qed.

(** Ctrl-C between the try and the record of the start: IndexError, in the first session. *)
Theorem C72_begin_refuted : exists ev m, entered ev m /\ tidy ev /\ balanced m /\ story ev (Stopped Interrupt) /\
  fst (start_manager ev m) = Raises index_error.
Proof.
  exists (ev0 (inl false) (Some Interrupt) [rq; rend] None None), m0.
  splits; [apply entered0|now unfold tidy|reflexivity|now apply S_begin|reflexivity].
Qed.
Print Assumptions C72_begin_refuted.

(** ** C73 *)
(** With the package installed and no ImportError from the function, needs_optional_package changes nothing; without the package the
    function is not called and a warning given. *)
Theorem C73_package_partial {A} p (c : call A) : (forall w, c <> Imports w) ->
  needs_optional_package p true c = (match c with Value a => Value (Some a) | Throws e => Throws e | Imports w => Imports w end, []) /\
  (exists w, needs_optional_package p false c = (Value None, [w]) /\ exists a b, w = (a ++ p ++ b)%string).
Proof.
  intros N. split.
  - destruct c as [a|e|w]; [reflexivity..|]. now destruct (N w).
  - eexists. split; [reflexivity|]. do 2 eexists. reflexivity.
Qed.
Print Assumptions C73_package_partial.
Example C73_package_met : (forall w, Value 5 <> Imports w) /\ (forall w, @Throws nat Interrupt <> Imports w).
Proof. split; intros w; discriminate. Qed.

(** An ImportError of any other module, say while unpickling, looks like the package missing: None is returned. *)
Theorem C73_package_refuted : exists (c : call nat) missing w, c = Imports missing /\
  needs_optional_package "dill" true c = (Value None, [w]) /\ w = "Unable to construct checkpoint without dill package installed."%string /\
  missing <> "dill"%string.
Proof. exists (Imports "numpy._core"), "numpy._core"%string. eexists. splits; [reflexivity..|discriminate]. Qed.
Print Assumptions C73_package_refuted.

(** Of a series of calls of scope methods everything reaches the manager but Ctrl-C, which no number of them passes on. *)
Theorem C73_scope {A} (l : list (call A)) :
  first_raise (map catch_user_interrupt l) =
  first_raise (filter (fun c => match c with Throws Interrupt => false | _ => true end) l).
Proof.
  induction l as [|[a|[| |t]|w] l IH]; cbn; try reflexivity; exact IH.
Qed.
Print Assumptions C73_scope.
Theorem C73_interrupt_refuted : exists (l : list (call nat)) ev, first_raise l = Some Interrupt /\
  e_rounds ev = [mkRd (first_raise (map catch_user_interrupt l)) an1 false true (inl false) "" None 1; rend] /\
  exists a, fst (start_manager ev m0) = Returns a /\ an_cond a = Some "FTarget = True"%string.
Proof.
  exists [Value 1; Throws Interrupt; Value 2], (ev0 (inl false) None
    [mkRd (first_raise (map catch_user_interrupt [Value 1; Throws Interrupt; Value 2])) an1 false true (inl false) "" None 1; rend] None None).
  splits; [reflexivity..|]. eexists. split; vm_compute; reflexivity.
Qed.
Print Assumptions C73_interrupt_refuted.
