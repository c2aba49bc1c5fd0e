(** * C55: A checkpoint synchronises the optimizers and always ends *)
From Verif Require Import Prelude_Proofs.
From Verif Require Import SyncLive_Proofs.
Local Arguments nmem : simpl never.

(** Witnesses: a choice of nothing, and a driver. *)
Definition dull : choice := mkChoice false (fun _ => false) (fun _ => false) false false INothing.
Definition mgr (a : action) : label := (None, mkChoice false (fun _ => false) (fun _ => false) false false a).
Definition opt_ (i : nat) : label := (Some i, dull).
Definition raises (i : nat) : label := (Some i, mkChoice true (fun _ => false) (fun _ => false) false false INothing).
Definition go (l : label) (k : nat) : list label := repeat l k.

Lemma steps_app c a b s : steps c (a ++ b) s = steps c b (steps c a s).
Proof. revert s. induction a as [|l a IH]; intro s; cbn; auto. Qed.
Lemma run_calmly c sigma s k : (forall k, calm (sigma k)) -> calmly_reachable c s -> calmly_reachable c (run c sigma k s).
Proof.
  intros C [ls [H <-]]. induction k as [|k [ls' [H' E]]]; [exists ls; auto|]. exists (ls' ++ [sigma k]). split; [apply Forall_app; auto|].
  rewrite steps_app, E. reflexivity.
Qed.

(** ** Without exceptions every checkpoint ends, whatever the order in which the threads are scheduled. *)
Theorem C55_terminates c s sigma : usable c -> calmly_reachable c s -> fair sigma -> (forall k, calm (sigma k)) ->
  forall k, exists j, k <= j /\ s_m (run c sigma j s) = Idle.
Proof.
  intros US R F C k. pose proof (run_calmly c sigma s k C R) as Rk.
  apply (settles (length (s_opts (run c sigma k s))) c sigma s US F C (measure (length (s_opts (run c sigma k s))) (run c sigma k s)) k (le_n _)).
  split; [apply (reachable_inv c), calmly_reaches, Rk|]. split; [apply (reachable_exc c), calmly_reaches, Rk|]. split; [apply (calmly_unfailed c), Rk | reflexivity].
Qed.
Print Assumptions C55_terminates.

(** Two optimizers, a queue of one place: asked while both are busy and the queue is full. *)
Definition small : config := mkConf (Some 1) 2.
Definition busy : list label := [mgr (ISpawn 5); mgr (ISpawn 2)] ++ go (opt_ 0) 9 ++ go (opt_ 1) 2 ++ [mgr IStart].
Definition turn : list label := [mgr INothing; opt_ 0; opt_ 1].
Definition turns (k : nat) : list label := concat (repeat turn k).
(** A schedule which comes back to everyone: k = m * m + t. *)
Definition diagonal (k : nat) : label := match k - Nat.sqrt k * Nat.sqrt k with 0 => mgr INothing | S i => opt_ i end.
Lemma diagonal_fair : fair diagonal.
Proof.
  intros t k. set (d := match t with None => 0 | Some i => S i end). exists ((k + d) * (k + d) + d). split; [nia|].
  unfold diagonal. rewrite (Nat.sqrt_unique _ (k + d)) by (unfold Nat.square; nia). replace (_ - _) with d by lia. destruct t; reflexivity.
Qed.
Example C55_terminates_met : usable small /\ calmly_reachable small (steps small busy start) /\ fair diagonal /\ (forall k, calm (diagonal k)) /\
  s_m (steps small busy start) = MSend [0; 1] [] /\ full small (steps small busy start) = true /\
  s_m (steps small (turns 6) (steps small busy start)) <> Idle /\ s_m (steps small (turns 30) (steps small busy start)) = Idle.
Proof.
  splits; try (vm_compute; reflexivity).
  - discriminate.
  - exists busy. split; [|reflexivity]. repeat constructor.
  - apply diagonal_fair.
  - intro k. unfold diagonal. destruct (_ - _); reflexivity.
  - vm_compute. discriminate.
Qed.

(** ** The assertions of the code hold: the queue is empty and every restart file is there.  The "unhandled message" comes up
    only if some optimizer ended with an exception.  No optimizer gets a second request while it prepares. *)
Theorem C55_no_errors c s : reachable c s ->
  s_m s <> MNotEmpty /\ s_m s <> MNoFile /\
  (s_m s = MUnhandled -> exists i o, nth_error (s_opts s) i = Some o /\ o_failed o = true) /\
  (forall i o, nth_error (s_opts s) i = Some o -> o_at o <> Lost).
Proof.
  intro R. destruct (reachable_inv c s R) as [_ _ [_ [A B]]]. destruct (reachable_exc c s R) as [_ C]. splits; auto. intros i o E. eapply not_lost; eauto.
Qed.
Print Assumptions C55_no_errors.
Theorem C55_calm c s : calmly_reachable c s -> s_m s <> MUnhandled /\ s_m s <> MNotEmpty /\ s_m s <> MNoFile.
Proof.
  intro R. pose proof (calmly_unfailed c s R) as U. destruct (C55_no_errors c s (calmly_reaches c s R)) as [A [B [C _]]]. splits; auto. intro M.
  destruct (C M) as [i [o [E F]]]. rewrite (U i o E) in F. discriminate.
Qed.
Print Assumptions C55_calm.

(** ** While the optimizers save, the log is complete: what each of them has evaluated is what the manager has processed, but
    for results kept back in the cache of the queue. *)
Theorem C55_snapshot c s : calmly_reachable c s -> (exists todo v, s_m s = MSave todo v) \/ (exists todo rem v, s_m s = MClear todo rem v) \/ (exists v, s_m s = MFiles v) ->
  s_queue s = [] /\ forall i o, nth_error (s_opts s) i = Some o -> alive o = true -> o_made o = results i (s_seen s) + results i (s_cache s) /\ o_at o <> Loop /\ o_at o <> Put.
Proof.
  intros R P. assert (Sv : saving (s_m s) = true /\ in_hand (s_m s) = [] /\ forall i, match stage_of (s_m s) (s_no s) i with Replied | Ordered _ | Parked _ | Gone => True | _ => False end).
  { destruct P as [[todo [v M]]|[[todo [rem [v M]]]|[v M]]]; rewrite M; cbn; splits; auto; intro i; repeat match goal with |- context [if ?x then _ else _] => destruct x end; exact I. }
  destruct Sv as [Sv [IH ST]]. pose proof (calmly_still c s R Sv) as Q. split; [exact Q|]. intros i o E Al.
  pose proof (calmly_reaches c s R) as R'. destruct (reachable_acc c s R') as [_ A]. specialize (A i o E Al). unfold posted in A. rewrite IH, Q in A. cbn in A. rewrite results_app in A.
  destruct (reachable_inv c s R') as [I1 _ _]. specialize (I1 i o E). specialize (ST i). pose proof (calmly_unfailed c s R i o E) as U.
  assert (NP : o_at o <> Loop /\ o_at o <> Put).
  { destruct (stage_of (s_m s) (s_no s) i); try contradiction; cbn in I1; unfold waiting in I1; decompose [and or ex] I1; split; congruence. }
  splits; try apply NP. rewrite A. unfold pending. destruct (o_at o); try lia. destruct NP; congruence.
Qed.
Print Assumptions C55_snapshot.

(** ** Who is saved: those asked who were not excluded, with all their evaluations; and nobody else. *)
Theorem C55_saved c s v : calmly_reachable c s -> s_m s = MFiles v ->
  (forall i, In i (v_asked v) -> ~ In i (v_not v) -> exists o, nth_error (s_opts s) i = Some o /\ In (s_no s, results i (s_seen s) + results i (s_cache s)) (o_saved o)) /\
  (forall i o, nth_error (s_opts s) i = Some o -> ~ In i (v_asked v) \/ In i (v_not v) -> ~ In (s_no s) (map fst (o_saved o))).
Proof.
  intros R M. pose proof (calmly_reaches c s R) as R'. pose proof (reachable_inv c s R') as [I1 I2 _]. rewrite M in I1, I2. cbn in I1, I2.
  destruct I2 as [B1 [B2 [B3 [B4 [B5 [B6 B7]]]]]]. split.
  - intros i A N. destruct (B7 i A) as [L|L]; [|contradiction]. specialize (B2 i A). destruct (nth_error (s_opts s) i) as [o|] eqn:E; [|apply nth_error_None in E; lia].
    exists o. split; [reflexivity|]. specialize (I1 i o E). rewrite (nmem_true _ _ L) in I1. unfold target in I1. apply nmem_false in N. rewrite N in I1. cbn in I1. destruct I1 as [_ [_ [D [_ [f W]]]]].
    destruct (C55_snapshot c s R) as [_ Sn]; [right; right; eauto|]. assert (Al : alive o = true) by (unfold alive; rewrite W; reflexivity).
    destruct (Sn i o E Al) as [<- _]. exact D.
  - intros i o E X In_. pose proof (reachable_num c s R') as Nm. assert (NU : s_m s <> MUnhandled) by congruence. specialize (Nm NU i o E). rewrite M in Nm. cbn in Nm.
    assert (Bd : (if nmem i (v_living v) && negb (nmem i (v_not v)) then S (s_no s) else s_no s) = s_no s).
    { destruct X as [X|X]; [destruct (nmem i (v_living v)) eqn:L; [apply nmem_in in L; destruct (X (B6 i L))|reflexivity]|]. rewrite (nmem_true _ _ X), andb_false_r. reflexivity. }
    rewrite Bd in Nm. unfold below in Nm. rewrite Forall_forall in Nm. apply in_map_iff in In_ as [p [Ep Hp]]. specialize (Nm p Hp). lia.
Qed.
Print Assumptions C55_saved.

(** ** After a checkpoint nobody stays suspended. *)
Theorem C55_released c s : reachable c s -> s_m s = Idle -> forall i o, nth_error (s_opts s) i = Some o -> alive o = true ->
  o_run o = true /\ ~ In Paused (o_out o) /\ ~ In Prep (o_in o) /\ (forall f got, o_at o <> Wait f got).
Proof.
  intros R M i o E Al. destruct (reachable_inv c s R) as [I1 _ _]. specialize (I1 i o E). rewrite M in I1. cbn in I1.
  destruct I1 as [D|[Q [NP [U L]]]]; [unfold alive in Al; rewrite D in Al; discriminate|]. splits; auto.
  - intro X. unfold quiet in Q. rewrite Forall_forall in Q. destruct (Q _ X); discriminate.
  - intros f got W. rewrite W in L. exact L.
Qed.
Print Assumptions C55_released.

(** *** A checkpoint of two optimizers, one with its last result in the cache *)
Definition to_files : list label := busy ++ turns 20 ++ go (mgr INothing) 2.
Definition at_files : sys := steps small to_files start.
Definition both : vars := mkVars [0; 1] [] [0; 1] [].
(** *** ... and of two, of which one ends meanwhile *)
Definition ends : list label := [mgr (ISpawn 5); mgr (ISpawn 0)] ++ go (opt_ 0) 9 ++ go (opt_ 1) 2 ++ [mgr IStart].
Definition to_files' : list label := ends ++ turns 20 ++ [mgr INothing; opt_ 0] ++ go (mgr INothing) 2.
Definition at_files' : sys := steps small to_files' start.
Definition one : vars := mkVars [0; 1] [] [0] [1; 1].
Lemma all_calm ls : forallb (fun l => negb (h_raise (snd l))) ls = true -> Forall calm ls.
Proof. intro H. apply Forall_forall. intros l Hl. rewrite forallb_forall in H. apply H in Hl. unfold calm. destruct (h_raise (snd l)); [discriminate|reflexivity]. Qed.
Lemma calm_at_files : calmly_reachable small at_files /\ calmly_reachable small at_files'.
Proof. unfold at_files, at_files'. split; [exists to_files | exists to_files']; (split; [apply all_calm; vm_compute; reflexivity | reflexivity]). Qed.
Example C55_saved_met : calmly_reachable small at_files /\ s_m at_files = MFiles both /\ map o_saved (s_opts at_files) = [[(0, 3)]; [(0, 1)]] /\
  results 0 (s_seen at_files) = 3 /\ s_cache at_files = [Res 1] /\
  calmly_reachable small at_files' /\ s_m at_files' = MFiles one /\ map o_saved (s_opts at_files') = [[(0, 3)]; []] /\ s_cache at_files' = [].
Proof. destruct calm_at_files. splits; auto; vm_compute; reflexivity. Qed.
Example C55_snapshot_met : calmly_reachable small at_files /\ (exists v, s_m at_files = MFiles v) /\ map alive (s_opts at_files) = [true; true] /\ map o_made (s_opts at_files) = [3; 1].
Proof. destruct calm_at_files. splits; auto; try (vm_compute; reflexivity). exists both. vm_compute. reflexivity. Qed.
Example C55_released_met : let s := steps small (busy ++ turns 30) start in reachable small s /\ s_m s = Idle /\ s_no s = 1 /\ map alive (s_opts s) = [true; true] /\ map o_saved (s_opts s) = [[(0, 3)]; [(0, 1)]].
Proof. cbv zeta. splits; try (vm_compute; reflexivity). exists (busy ++ turns 30). reflexivity. Qed.

Example C55_no_errors_met : reachable small at_files /\ calmly_reachable small at_files' /\ map o_at (s_opts at_files) = [Held false; Held false] /\ map o_at (s_opts at_files') = [Held false; Dead].
Proof. destruct calm_at_files as [A B]. splits; auto; try (vm_compute; reflexivity). apply calmly_reaches, A. Qed.

(** ** Findings *)
(** A result in the cache of the queue is not in the log that is saved, though the optimizer saves the state after it. *)
Theorem C55_log_complete_refuted : exists c s v i o m, calmly_reachable c s /\ s_m s = MFiles v /\ nth_error (s_opts s) i = Some o /\ In (s_no s, m) (o_saved o) /\ results i (s_seen s) < m.
Proof.
  exists small, at_files, both, 1, (mkOpt (Held false) 1 false [] [] false 1 [(0, 1)] false), 1. split; [apply calm_at_files|]. splits; try (vm_compute; reflexivity).
  left. reflexivity.
Qed.
Print Assumptions C55_log_complete_refuted.

(** An exception in checkpoint_save: the manager waits for this optimizer forever. *)
Theorem C55_save_error_blocks c s i o todo rem v : reachable c s -> s_m s = MClear todo rem v -> In i rem -> nth_error (s_opts s) i = Some o -> o_failed o = true ->
  forall ls, exists todo' rem' v', s_m (steps c ls s) = MClear todo' rem' v'.
Proof.
  intros R M IR E F ls.
  assert (X : exists todo rem v o, s_m s = MClear todo rem v /\ In i rem /\ nth_error (s_opts s) i = Some o /\ o_failed o = true) by (exists todo, rem, v, o; auto).
  pose proof (reachable_inv c s R) as H1. pose proof (reachable_exc c s R) as H2. clear R M IR E F todo rem v o. revert s X H1 H2.
  induction ls as [|l ls IH]; intros s X H1 H2; cbn.
  - destruct X as [todo [rem [v [o [M _]]]]]. eauto.
  - apply IH; [apply stuck_step; auto | apply step_inv; auto | apply step_exc; auto].
Qed.
Print Assumptions C55_save_error_blocks.
Definition no_save : list label := [mgr (ISpawn 5); mgr (ISpawn 5); mgr IStart] ++ turns 13 ++ [mgr INothing; raises 0; opt_ 1; opt_ 0] ++ go (mgr INothing) 2.
Definition no_save_end : opt := mkOpt Dead 4 false [] [Crashed] true 1 [] true.
Example C55_save_error_blocks_met : let s := steps small no_save start in reachable small s /\ s_m s = MClear [0; 1] [0; 1] both /\ nth_error (s_opts s) 0 = Some no_save_end.
Proof. cbv zeta. splits; try (vm_compute; reflexivity). exists no_save. reflexivity. Qed.
Theorem C55_save_error_refuted : exists c ls0, usable c /\ length (filter (fun l => h_raise (snd l)) ls0) = 1 /\ forall ls, s_m (steps c ls (steps c ls0 start)) <> Idle.
Proof.
  exists small, no_save. splits; [discriminate | vm_compute; reflexivity|]. intros ls M.
  destruct (C55_save_error_blocks small (steps small no_save start) 0 no_save_end [0; 1] [0; 1] both) with (ls := ls) as [t [r [v X]]].
  - exists no_save. reflexivity.
  - vm_compute. reflexivity.
  - left. reflexivity.
  - vm_compute. reflexivity.
  - reflexivity.
  - congruence.
Qed.
Print Assumptions C55_save_error_refuted.

(** An exception in the evaluation of one optimizer, its report not read yet when a checkpoint starts: the run ends. *)
Theorem C55_exception_refuted : exists c ls0, usable c /\ length (filter (fun l => h_raise (snd l)) ls0) = 1 /\ forall ls, s_m (steps c ls (steps c ls0 start)) = MUnhandled.
Proof.
  exists small, ([mgr (ISpawn 5); mgr (ISpawn 5); opt_ 0; raises 1; mgr IStart] ++ go (mgr INothing) 4 ++ [opt_ 0; opt_ 0; opt_ 0] ++ go (mgr INothing) 2). splits; [discriminate | vm_compute; reflexivity|]. intro ls.
  match goal with |- s_m (steps small ls ?s) = _ => assert (M : s_m s = MUnhandled) by (vm_compute; reflexivity); generalize dependent s end.
  induction ls as [|[[i|] h] ls IH]; intros s M; [exact M| |]; cbn [steps]; apply IH; unfold step; cbn [fst snd].
  - destruct (ostep_keeps small h i s) as [_ [_ ->]]. exact M.
  - unfold mstep. rewrite M. exact M.
Qed.
Print Assumptions C55_exception_refuted.

(** An optimizer whose normal end the manager has already read is saved all the same, to be started again on a restart. *)
Definition over : list label := [mgr (ISpawn 2)] ++ go (opt_ 0) 10 ++ [mgr (IRecv 0); mgr IStart] ++ turns 17.
Theorem C55_ended_saved_refuted : exists c s v o, calmly_reachable c s /\ s_m s = MFiles v /\ v_asked v = [0] /\ v_not v = [] /\
  nth_error (s_opts s) 0 = Some o /\ o_at o = Held true /\ o_out o = [] /\ o_left o = 0 /\ o_saved o = [(0, 2)].
Proof.
  exists small, (steps small over start). exists (mkVars [0] [] [0] []), (mkOpt (Held true) 0 false [] [] false 2 [(0, 2)] false). split; [exists over; split; [apply all_calm; vm_compute; reflexivity | reflexivity]|].
  splits; try (vm_compute; reflexivity).
Qed.
Print Assumptions C55_ended_saved_refuted.
