(** * C56: At the end of a run every optimizer is stopped *)
From Verif Require Import Prelude_Proofs.
From Verif Require Import Ending_Proofs.
Local Arguments nmem : simpl never.

(** Witnesses. *)
Definition dull : choice := mkChoice false (fun _ => false) (fun _ => false) false false INothing.
Definition act (a : action) : label := (None, mkChoice false (fun _ => false) (fun _ => false) false false a).
Definition opt_ (i : nat) : label := (Some i, dull).
Definition raises (i : nat) : label := (Some i, mkChoice true (fun _ => false) (fun _ => false) false false INothing).
Definition go {A} (l : A) (k : nat) : list A := repeat l k.
Definition fm : flabel := (None, (dull, false)).
Definition ftime : flabel := (None, (dull, true)).
Definition fo (i : nat) : flabel := (Some i, (dull, false)).
Definition threads : backend := mkBackend false false.
Definition threads_crash : backend := mkBackend false true.
Definition processes : backend := mkBackend true true.
(** The queue of the manager, manager.py 245. *)
Definition standard : config := mkConf (Some 10) 10.

Lemma frun_inv (Q : fin -> Prop) c b sigma k f : (forall l f, Q f -> Q (fstep c b l f)) -> Q f -> Q (frun c b sigma k f).
Proof. intros S H. induction k as [|k IH]; cbn; auto. Qed.
Lemma frun_reach c b sigma k s : ending_reachable c b s (frun c b sigma k (ending s)).
Proof. apply frun_inv; [|exists []; reflexivity]. intros l f [ls <-]. exists (ls ++ [l]). rewrite fsteps_app. reflexivity. Qed.

(** ** With timeouts the end of the run is reached, in whatever state the optimizers are. *)
Theorem C56_timeout_ends c b s sigma : b_timeout b = true -> ffair sigma -> clocked sigma -> exists j, f_at (frun c b sigma j (ending s)) = FDone.
Proof.
  intros B F C. destruct (sends c b sigma (ending s) F (all_ids s) 0 eq_refl) as [k [_ K]].
  destruct (reaches (fun f => Told f /\ sent f) (fun f => f_at f = FDone) c b sigma (ending s)) with (w := W (frun c b sigma k (ending s))) (k := k) as [j [_ J]].
  - intros l f [T S]. split; [apply told_step, T | apply sent_step, S].
  - intros l f [T S]. apply W_step; auto.
  - intros f [T S]. destruct (f_at f) as [todo| |todo|] eqn:A; [unfold sent in S; rewrite A in S; destruct S| | |left; reflexivity]; right;
      exists (fun l => fst l = None /\ snd (snd l) = true); (split; [exact C|]); intros [o [h lt]] [X Y]; cbn in X, Y; subst o lt;
      (destruct (W_mgr c b h true f T S) as [E|E]; [|exact E]); cbn in E; rewrite A in E.
    + destruct (s_queue (f_sys f)) eqn:Q; apply (f_equal f_at) in E as E1; cbn in E1; rewrite A in E1; [discriminate|].
      apply (f_equal (fun g => length (s_queue (f_sys g)))) in E. cbn in E. rewrite Q in E. cbn in E. lia.
    + destruct todo as [|i todo]; [apply (f_equal f_at) in E; cbn in E; congruence|]. rewrite B in E.
      destruct (is_alive i (f_sys f)); apply (f_equal f_at) in E; cbn in E; rewrite A in E; injection E as E; apply (f_equal (@length nat)) in E; cbn in E; lia.
  - lia.
  - split; [apply (reachable_told c b s), frun_reach | unfold sent; rewrite K; exact I].
  - exists j. exact J.
Qed.
Print Assumptions C56_timeout_ends.

(** ** When the run has ended no optimizer is alive, with processes or without timeouts. *)
Theorem C56_dead c b s f : b_proc b = true \/ b_timeout b = false -> ending_reachable c b s f -> f_at f = FDone -> all_dead (f_sys f).
Proof.
  intros B [ls <-] D. pose proof (fsteps_inv Joined c b ls (ending s)) as J. unfold Joined in J. rewrite D in J. apply J; [|exact I].
  intros l f. apply joined_step, B.
Qed.
Print Assumptions C56_dead.

(** ** Without timeouts the run ends if the queue has room for two messages of every living optimizer. *)
Theorem C56_ends c b s sigma : reachable c s -> s_m s = Idle -> roomy c s -> b_timeout b = false -> ffair sigma ->
  exists j, f_at (frun c b sigma j (ending s)) = FDone /\ all_dead (f_sys (frun c b sigma j (ending s))).
Proof.
  intros R M Ro B F. destruct (sends c b sigma (ending s) F (all_ids s) 0 eq_refl) as [k [_ K]].
  assert (R0 : Room (living s) (ending s)).
  { split; [apply le_n|]. split; [|exact I]. intros i o E. destruct (reachable_inv c s R) as [I1 _ _]. specialize (I1 i o E). rewrite M in I1. exact I1. }
  assert (RT : Told (frun c b sigma k (ending s)) /\ Room (living s) (frun c b sigma k (ending s))).
  { apply (frun_inv (fun f => Told f /\ Room (living s) f)); [|split; [apply told_start|exact R0]]. intros l f [T X]. split; [apply told_step, T | apply room_step; auto]. }
  destruct (reaches (fun f => Told f /\ sent f /\ Room (living s) f) (fun f => f_at f = FDone) c b sigma (ending s)) with (w := W (frun c b sigma k (ending s))) (k := k) as [j [_ J]].
  - intros l f [T [S X]]. splits; [apply told_step, T | apply sent_step, S | apply room_step; auto].
  - intros l f [T [S X]]. apply W_step; auto.
  - intros f [T [S X]]. destruct (f_at f) as [todo| |todo|] eqn:A; [unfold sent in S; rewrite A in S; destruct S| | |left; reflexivity]; right.
    + exists (fun l => fst l = None). split; [exact (F None)|]. intros [o [h lt]] Y. cbn in Y. subst o.
      destruct (W_mgr c b h lt f T S) as [E|E]; [|exact E]. cbn in E. rewrite A in E.
      destruct (s_queue (f_sys f)) eqn:Q; apply (f_equal f_at) in E as E1; cbn in E1; rewrite A in E1; [discriminate|].
      apply (f_equal (fun g => length (s_queue (f_sys g)))) in E. cbn in E. rewrite Q in E. cbn in E. lia.
    + destruct todo as [|i todo].
      * exists (fun l => fst l = None). split; [exact (F None)|]. intros [o [h lt]] Y. cbn in Y. subst o.
        destruct (W_mgr c b h lt f T S) as [E|E]; [|exact E]. cbn in E. rewrite A in E. apply (f_equal f_at) in E. cbn in E. congruence.
      * destruct (is_alive i (f_sys f)) eqn:Al.
        -- exists (fun l => fst l = Some i). split; [exact (F (Some i))|]. intros [o [h lt]] Y. cbn in Y. subst o. apply W_opt; auto.
           unfold is_alive in Al. destruct (nth_error (s_opts (f_sys f)) i) as [o|] eqn:E; [|discriminate]. eapply (room_ready (living s)); eauto.
        -- exists (fun l => fst l = None). split; [exact (F None)|]. intros [o [h lt]] Y. cbn in Y. subst o.
           destruct (W_mgr c b h lt f T S) as [E|E]; [|exact E]. cbn in E. rewrite A, Al in E. apply (f_equal f_at) in E. cbn in E. rewrite A in E. injection E as E. apply (f_equal (@length nat)) in E. cbn in E. lia.
  - lia.
  - destruct RT. splits; auto. unfold sent. rewrite K. exact I.
  - exists j. split; [exact J|]. apply (C56_dead c b s); auto. apply frun_reach.
Qed.
Print Assumptions C56_ends.

(** ** A stop signal allows one more evaluation. *)
Theorem C56_one_more c b s f i ls : ending_reachable c b s f -> (match f_at f with FSend todo => ~ In i todo | _ => True end) ->
  evaluations i (f_sys (fsteps c b ls f)) <= S (evaluations i (f_sys f)).
Proof.
  intros R U. assert (B : bound i (S (evaluations i (f_sys f))) (fsteps c b ls f)).
  { apply (fsteps_inv (bound i (S (evaluations i (f_sys f))))); [intros; apply bound_step; auto|]. split; [apply (reachable_told c b s f R)|]. split; [exact U|].
    intros o E. unfold evaluations. rewrite E. pose proof (more_one o). lia. }
  destruct B as [_ [_ B]]. unfold evaluations at 1. destruct (nth_error _ i) as [o|]; [|lia]. specialize (B o eq_refl). lia.
Qed.
Print Assumptions C56_one_more.

(** ** Where the evaluations of an optimizer are: in the log, thrown away, or left in the queue. *)
Theorem C56_accounting c b s f i o : reachable c s -> s_m s = Idle -> b_proc b = false -> nth_error (s_opts s) i = Some o -> alive o = true -> ending_reachable c b s f ->
  evaluations i (f_sys f) = results i (s_seen s) + results i (f_lost f) + results i (concat (s_queue (f_sys f))) + results i (s_cache (f_sys f)) + pend i (f_sys f).
Proof.
  intros R M B E Al [ls <-]. destruct (reachable_acc c s R) as [_ A]. specialize (A i o E Al). pose proof (tally_steps c b ls (ending s) i B) as T.
  destruct (seen_steps c b ls (ending s)) as [S1 S2]. unfold tally in T. cbn [ending f_sys f_lost] in *. unfold pend at 1, evaluations at 2 in T. rewrite E in T. change (unput o) with (pending o) in T. change (results i []) with 0 in T.
  unfold posted at 2 in T. rewrite S1, S2, M, !results_app in T. change (results i (in_hand Idle)) with 0 in T. lia.
Qed.
Print Assumptions C56_accounting.

(** *** Five optimizers end properly *)
Definition five : list label := go (act (ISpawn 3)) 5 ++ flat_map (fun i => go (opt_ i) 6) (seq 0 5).
Definition all_turn (n : nat) : list flabel := fm :: map fo (seq 0 n).
Definition diag (k : nat) : flabel := match k - Nat.sqrt k * Nat.sqrt k with 0 => ftime | S i => fo i end.
Lemma diag_fair : ffair diag /\ clocked diag.
Proof.
  assert (X : forall d k, exists j, k <= j /\ diag j = match d with 0 => ftime | S i => fo i end).
  { intros d k. exists ((k + d) * (k + d) + d). split; [nia|]. unfold diag. rewrite (Nat.sqrt_unique _ (k + d)) by (unfold Nat.square; nia). replace (_ - _) with d by lia. reflexivity. }
  split.
  - intros [i|] k; [destruct (X (S i) k) as [j [J E]] | destruct (X 0 k) as [j [J E]]]; exists j; rewrite E; auto.
  - intro k. destruct (X 0 k) as [j [J E]]. exists j. rewrite E. auto.
Qed.
Example C56_ends_met : let s := steps standard five start in
  reachable standard s /\ s_m s = Idle /\ roomy standard s /\ living s = 5 /\ ffair diag /\ clocked diag /\
  f_at (fsteps standard threads (concat (repeat (all_turn 5) 5)) (ending s)) = FSend [] /\
  f_at (fsteps standard threads (concat (repeat (all_turn 5) 50)) (ending s)) = FDone.
Proof. cbv zeta. splits; try (vm_compute; reflexivity); try apply diag_fair. exists five. reflexivity. Qed.
Example C56_dead_met : let f := fsteps standard threads (concat (repeat (all_turn 5) 50)) (ending (steps standard five start)) in
  ending_reachable standard threads (steps standard five start) f /\ f_at f = FDone /\ map o_at (s_opts (f_sys f)) = [Dead; Dead; Dead; Dead; Dead] /\
  ending_reachable standard processes (steps standard five start) (fsteps standard processes (go ftime 30) (ending (steps standard five start))) /\
  f_at (fsteps standard processes (go ftime 30) (ending (steps standard five start))) = FDone.
Proof. cbv zeta. splits; try (vm_compute; reflexivity); [exists (concat (repeat (all_turn 5) 50)); reflexivity | exists (go ftime 30); reflexivity]. Qed.
Example C56_one_more_met : let f := fsteps standard threads (go fm 6) (ending (steps standard five start)) in
  ending_reachable standard threads (steps standard five start) f /\ f_at f = FPurge /\ evaluations 2 (f_sys f) = 2 /\ evaluations 2 (f_sys (fsteps standard threads (concat (repeat (all_turn 5) 50)) f)) = 2 /\
  let g := fsteps standard threads (go fm 4) (ending (steps standard (go (act (ISpawn 9)) 3) start)) in f_at g = FPurge /\ evaluations 2 (f_sys g) = 0 /\ evaluations 2 (f_sys (fsteps standard threads (concat (repeat (all_turn 5) 50)) g)) = 1.
Proof. cbv zeta. splits; try (vm_compute; reflexivity). exists (go fm 6). reflexivity. Qed.
Example C56_accounting_met : let s := steps standard five start in let f := fsteps standard threads (concat (repeat (all_turn 5) 50)) (ending s) in
  reachable standard s /\ (exists o, nth_error (s_opts s) 3 = Some o /\ alive o = true) /\ ending_reachable standard threads s f /\
  evaluations 3 (f_sys f) = 3 /\ results 3 (s_seen s) = 0 /\ results 3 (f_lost f) = 3.
Proof.
  cbv zeta. splits; try (vm_compute; reflexivity); [exists five; reflexivity | | exists (concat (repeat (all_turn 5) 50)); reflexivity].
  eexists. split; vm_compute; reflexivity.
Qed.

(** ** Findings *)
(** Six threads: the queue is full again after it was emptied, the manager waits for an optimizer which waits for the queue. *)
Definition six : list label := go (act (ISpawn 9)) 6 ++ flat_map (fun i => go (opt_ i) 1) (seq 0 6).
Definition six_end : list flabel := go fm 9 ++ flat_map (fun i => go (fo i) 8) (seq 0 6) ++ go fm 9.
Definition six_stuck : fin := Eval vm_compute in fsteps standard threads six_end (ending (steps standard six start)).
Theorem C56_full_queue_refuted : exists s f, calmly_reachable standard s /\ s_m s = Idle /\ living s = 6 /\ ending_reachable standard threads s f /\
  (forall l, fstep standard threads l f = f) /\ f_at f <> FDone.
Proof.
  exists (steps standard six start), six_stuck. splits; try (vm_compute; reflexivity).
  - exists six. split; [|reflexivity]. repeat constructor.
  - exists six_end. vm_compute. reflexivity.
  - intros [[i|] [h lt]].
    + unfold fstep. cbn [f_sys]. rewrite unready_step; [apply fin_eta|]. do 6 (destruct i as [|i]; [vm_compute; reflexivity|]). unfold ready. destruct i; reflexivity.
    + destruct lt; vm_compute; reflexivity.
  - discriminate.
Qed.
Print Assumptions C56_full_queue_refuted.

(** After a crash during a checkpoint a thread which prepares for it stays behind for ever. *)
Definition crash_run : list label := [act (ISpawn 5); act (ISpawn 5); opt_ 0; raises 1; act IStart] ++ go (act INothing) 4 ++ [opt_ 0; opt_ 0; opt_ 0] ++ go (act INothing) 2.
Theorem C56_crash_refuted : exists s f, reachable standard s /\ s_m s = MUnhandled /\ ending_reachable standard threads_crash s f /\ f_at f = FDone /\
  forall ls, exists o, nth_error (s_opts (f_sys (fsteps standard threads_crash ls f))) 0 = Some o /\ alive o = true.
Proof.
  set (last := concat (repeat [ftime; fo 0; fo 1] 20)).
  exists (steps standard crash_run start), (fsteps standard threads_crash last (ending (steps standard crash_run start))).
  splits; try (vm_compute; reflexivity); [exists crash_run; reflexivity | exists last; reflexivity|]. intro ls.
  match goal with |- exists o, nth_error (s_opts (f_sys (fsteps _ _ ls ?f))) 0 = Some o /\ _ =>
    assert (X : f_at f = FDone /\ exists o, nth_error (s_opts (f_sys f)) 0 = Some o /\ o_at o = Wait false false /\ o_in o = [])
      by (split; [vm_compute; reflexivity | eexists; splits; vm_compute; reflexivity]); generalize dependent f end.
  induction ls as [|l ls IH]; intros f [D [o [E [A B]]]]; [exists o; split; [exact E | unfold alive; rewrite A; reflexivity]|].
  cbn [fsteps]. apply IH. destruct l as [[i|] [h lt]].
  - cbn [fstep f_sys f_at]. split; [exact D|]. exists o. splits; auto. destruct (nth_error (s_opts (f_sys f)) i) as [a|] eqn:Ei; [|rewrite ostep_none by exact Ei; exact E].
    rewrite (ostep_opts _ _ _ _ _ Ei), upd_nth. destruct (Nat.eqb_spec i 0) as [->|N]; [|exact E]. rewrite E. unfold onext. cbn. rewrite A, B. reflexivity.
  - cbn [fstep]. rewrite D. split; [exact D|]. exists o. auto.
Qed.
Print Assumptions C56_crash_refuted.

(** What is in the queue when the run converges is thrown away. *)
Theorem C56_lost_refuted : exists s f i, calmly_reachable standard s /\ s_m s = Idle /\ ending_reachable standard threads s f /\ f_at f = FDone /\
  results i (s_seen (f_sys f)) < evaluations i (f_sys f).
Proof.
  exists (steps standard five start), (fsteps standard threads (concat (repeat (all_turn 5) 50)) (ending (steps standard five start))), 0.
  splits; try (vm_compute; reflexivity); [| exists (concat (repeat (all_turn 5) 50)); reflexivity | vm_compute; lia].
  exists five. split; [|reflexivity]. repeat constructor.
Qed.
Print Assumptions C56_lost_refuted.
