(** * Property C77: forced terminations *)
From Verif Require Import Prelude Prelude_Proofs Hang_Model Hang_Spec Hang_Proofs.
From Coq Require Import Lia.
Open Scope nat_scope.

(** A running optimizer that an inspection ends: forced terminations are allowed, it is a process, and for more than the limit either nothing was heard
    of it and it was not hunted, or it has been hunted. *)
Theorem C77_sound c l s t i : hsteps c l hinit = Some s -> hstep c Inspect s = Some t -> running i s -> ~ running i t ->
  exists n, c_limit c = Some n /\ c_proc c = true /\ ended i t Forced /\ exists l1 l2, l = l1 ++ l2 /\ n < seconds l2 /\
    (silent i l2 \/ exists l3, l2 = Hunt i :: l3).
Proof.
  intros E S (o & G & A) N. destruct (reach_ok _ _ _ E) as [T K]. destruct (K _ _ G) as [K1 K2]. cbn in S. injection S as <-.
  assert (G' : nget i (map (fun p => (fst p, inspect c (h_now s) (snd p))) (h_opts s)) = Some (inspect c (h_now s) o)) by (rewrite nget_map, G; reflexivity).
  pose proof (inspect_cases c (h_now s) o A) as C. destruct (c_proc c); cbn in C.
  2: { exfalso. apply N. exists o. cbn. rewrite G', C. now split. }
  destruct (o_victim o) as [v|] eqn:V.
  - destruct (late c (h_now s) v) eqn:L; [|exfalso; apply N; exists o; cbn; rewrite G', C; now split].
    destruct C as (C1 & C2 & _). unfold late in L. destruct (c_limit c) as [n|]; [|discriminate]. apply Nat.ltb_lt in L. exists n. splits; auto.
    + exists (inspect c (h_now s) o). now splits.
    + destruct K2 as (l1 & l2 & -> & ->). exists l1, (Hunt i :: l2). splits; [reflexivity| |right; now exists l2].
      rewrite T, seconds_app in L. lia.
  - destruct (late c (h_now s) (o_last o)) eqn:L; [|exfalso; apply N; exists o; cbn; rewrite G', C; now split].
    destruct C as (C1 & C2 & _). unfold late in L. destruct (c_limit c) as [n|]; [|discriminate]. apply Nat.ltb_lt in L. exists n. splits; auto.
    + exists (inspect c (h_now s) o). now splits.
    + destruct (K1 A) as (l1 & l2 & -> & E1 & Q). exists l1, l2. splits; [reflexivity| |left; auto].
      rewrite T, E1, seconds_app in L. lia.
Qed.
Print Assumptions C77_sound.
Definition cH : hcfg := mkHC (Some 5) true false.
(** For the examples: the state after some events. *)
Definition after (c : hcfg) (l : list hevent) : hst := match hsteps c l hinit with Some s => s | None => hinit end.
Ltac runs := eexists; splits; (vm_compute; reflexivity).
Example C77_sound_met : exists s t, hsteps cH [Start 1; Start 2; Wait 3; Post 1 1; Handle 1 1; Wait 4] hinit = Some s /\
  hstep cH Inspect s = Some t /\ running 2 s /\ ~ running 2 t /\ running 1 t.
Proof.
  pose (l := [Start 1; Start 2; Wait 3; Post 1 1; Handle 1 1; Wait 4]). exists (after cH l), (after cH (l ++ [Inspect])).
  splits; [vm_compute; reflexivity|vm_compute; reflexivity|runs|intros (o & H & H'); vm_compute in H; injection H as <-; discriminate|runs].
Qed.

(** Conversely: a running process of which nothing was heard for longer than the limit is ended by the next inspection, unless it was hunted. *)
Theorem C77_complete c l1 l2 s t i n : hsteps c (l1 ++ l2) hinit = Some s -> hstep c Inspect s = Some t -> running i s ->
  c_limit c = Some n -> c_proc c = true -> silent i l2 -> n < seconds l2 -> ~ In (Hunt i) (l1 ++ l2) -> ended i t Forced.
Proof.
  intros E S (o & G & A) Lm P Q L NH. destruct (reach_ok _ _ _ E) as [T K]. destruct (K _ _ G) as [_ K2].
  destruct (o_victim o) as [v|] eqn:V; [destruct K2 as (a & b & X & _); exfalso; apply NH; rewrite X; apply in_or_app; right; now left|].
  pose proof E as E'. rewrite hsteps_app in E'. destruct (hsteps c l1 hinit) as [s1|] eqn:E1; [|discriminate].
  destruct (quiet_steps c i l2 _ _ _ E' Q G A) as (o1 & G1 & A1 & L1 & _). destruct (reach_ok _ _ _ E1) as [T1 K1].
  destruct (K1 _ _ G1) as [M _]. destruct (M A1) as (a & b & Eab & La & _).
  assert (X : o_last o <= seconds l1) by (rewrite <- L1, La, Eab, seconds_app; lia).
  cbn in S. injection S as <-. exists (inspect c (h_now s) o). cbn. rewrite nget_map, G. pose proof (inspect_cases c (h_now s) o A) as C.
  rewrite P, V in C. unfold late in C. rewrite Lm in C.
  assert (Y : Nat.ltb n (h_now s - o_last o) = true) by (apply Nat.ltb_lt; rewrite T, seconds_app; lia).
  rewrite Y in C. cbn in C. destruct C as (C1 & C2 & _). now splits.
Qed.
Print Assumptions C77_complete.
Example C77_complete_met : exists s, hsteps cH ([Start 1; Wait 1; Start 2] ++ [Post 2 3; Wait 5; Handle 2 3; Wait 1]) hinit = Some s /\ running 1 s /\
  silent 1 [Post 2 3; Wait 5; Handle 2 3; Wait 1] /\ 5 < seconds [Post 2 3; Wait 5; Handle 2 3; Wait 1] /\
  ~ In (Hunt 1) ([Start 1; Wait 1; Start 2] ++ [Post 2 3; Wait 5; Handle 2 3; Wait 1]).
Proof.
  exists (after cH ([Start 1; Wait 1; Start 2] ++ [Post 2 3; Wait 5; Handle 2 3; Wait 1])).
  splits; [vm_compute; reflexivity|runs| |cbn; lia|cbn; intuition discriminate].
  intros e H. cbn in H. repeat (destruct H as [<-|H]; [cbn; intuition discriminate|]). contradiction.
Qed.

(** Nothing is ever forced with threads, or without a positive limit. *)
Theorem C77_never c l s t i : hsteps c l hinit = Some s -> hstep c Inspect s = Some t -> c_limit c = None \/ c_proc c = false ->
  running i s -> running i t.
Proof.
  intros E S H (o & G & A). cbn in S. injection S as <-. exists o. split; [|exact A]. cbn. rewrite nget_map, G. cbn. f_equal.
  pose proof (inspect_cases c (h_now s) o A) as C. unfold late in C.
  destruct H as [H|H]; rewrite H in C; cbn in C; [|exact C]. rewrite andb_comm in C. destruct (o_victim o); exact C.
Qed.
Print Assumptions C77_never.
Example C77_never_met : exists s t, hsteps (mkHC (Some 5) false true) [Start 1; Wait 90; Hunt 1; Wait 90] hinit = Some s /\
  hstep (mkHC (Some 5) false true) Inspect s = Some t /\ running 1 s /\ running 1 t.
Proof.
  pose (c := mkHC (Some 5) false true). pose (l := [Start 1; Wait 90; Hunt 1; Wait 90]). exists (after c l), (after c (l ++ [Inspect])).
  splits; [vm_compute; reflexivity|vm_compute; reflexivity|runs|runs].
Qed.

(** An optimizer that posted results within the limit, all of which the manager has taken off the queue, is left alone unless it was hunted. *)
Theorem C77_posted_partial c l1 l2 s t i k n : hsteps c (l1 ++ Post i k :: l2) hinit = Some s -> hstep c Inspect s = Some t -> running i s ->
  c_limit c = Some n -> seconds l2 <= n -> ~ In (Hunt i) (l1 ++ Post i k :: l2) -> (forall m, ~ In (i, m) (h_queue s)) -> running i t.
Proof.
  intros E S R Lm L NH NQ.
  assert (D : running i t \/ ~ running i t).
  { unfold running. destruct (nget i (h_opts t)) as [o|]; [|right; intros (o & H & _); discriminate].
    destruct (o_alive o) eqn:A; [left; now exists o|right; intros (o' & H & A'); injection H as <-; congruence]. }
  destruct D as [D|D]; [exact D|exfalso]. destruct (C77_sound c _ _ _ _ E S R D) as (n' & Lm' & _ & _ & a & b & X & Y & [Z|(h & ->)]).
  2: { apply NH. rewrite X. apply in_or_app. right. now left. }
  rewrite Lm in Lm'. injection Lm' as <-.
  (* the silence includes the posting *)
  assert (W : exists d, b = d ++ Post i k :: l2).
  { clear - X Y L. revert a b X Y. induction l1 as [|e l1 IH]; intros a b X Y; cbn in X.
    - destruct a as [|e a]; [exists []; exact (eq_sym X)|]. injection X as _ ->. rewrite seconds_app in L. lia.
    - destruct a as [|e' a]; [exists (e :: l1); exact (eq_sym X)|]. injection X as _ X. eauto. }
  destruct W as [d ->]. replace (l1 ++ Post i k :: l2) with ((l1 ++ [Post i k]) ++ l2) in E by now rewrite <- app_assoc. rewrite hsteps_app in E.
  destruct (hsteps c (l1 ++ [Post i k]) hinit) as [s1|] eqn:E1; [|discriminate].
  destruct (queue_steps c i l2 s1 s) as [m I].
  - exact E.
  - intros e I. apply Z. apply in_or_app. right. now right.
  - exists k. exact (post_queue _ _ _ _ _ _ E1).
  - exact (NQ m I).
Qed.
Print Assumptions C77_posted_partial.
Example C77_posted_partial_met : exists s t, hsteps cH ([Start 1; Wait 4] ++ Post 1 2 :: [Wait 1; Handle 1 2; Wait 4]) hinit = Some s /\
  hstep cH Inspect s = Some t /\ running 1 s /\ seconds [Wait 1; Handle 1 2; Wait 4] <= 5 /\ (forall m, ~ In (1, m) (h_queue s)) /\ running 1 t.
Proof.
  pose (l := [Start 1; Wait 4] ++ Post 1 2 :: [Wait 1; Handle 1 2; Wait 4]). exists (after cH l), (after cH (l ++ [Inspect])).
  splits; [vm_compute; reflexivity|vm_compute; reflexivity|runs|cbn; lia|intros m H; vm_compute in H; exact H|runs].
Qed.

(** In the graveyard are exactly the optimizers whose end is recorded; all that were hunted are there. *)
Theorem C77_graveyard c l s i o : hsteps c l hinit = Some s -> nget i (h_opts s) = Some o ->
  (o_dead o = true <-> exists f, o_fate o = Some f) /\ (o_victim o <> None -> o_dead o = true).
Proof.
  intros E G. destruct (hsteps_buried c l _ _ E) with (i := i) (o := o) as [A B]; [intros ? ? X; discriminate|exact G|]. split; [|exact B].
  rewrite A. destruct (o_fate o) as [f|]; split; intros H; [eauto|discriminate|now destruct H|destruct H; discriminate].
Qed.
Print Assumptions C77_graveyard.
(** What an inspection records of an optimizer that has left by itself: an exit code other than 0 is an error, whatever waits in the pipe; otherwise one
    signal of the pipe is taken, and a normal end without any is of unknown reason. *)
Theorem C77_left c l s t i o : hsteps c l hinit = Some s -> hstep c Inspect s = Some t -> nget i (h_opts s) = Some o -> o_alive o = false -> o_dead o = false ->
  exists o', nget i (h_opts t) = Some o' /\
    (o_code o <> 0 -> o_dead o' = true /\ o_fate o' = Some Error) /\
    (o_code o = 0 -> o_pipe o = [] -> o_dead o' = true /\ o_fate o' = Some Unknown) /\
    (o_code o = 0 -> forall rest, o_pipe o = Conv :: rest -> o_dead o' = true /\ o_fate o' = Some Converged) /\
    (o_code o = 0 -> forall rest, o_pipe o = Message :: rest -> o_dead o' = false /\ o_fate o' = None /\ o_pipe o' = rest /\ o_alive o' = false /\ o_code o' = 0).
Proof.
  intros E S G A D. destruct (C77_graveyard c l s i o E G) as [B1 B2]. cbn in S. injection S as <-.
  assert (V : o_victim o = None) by (destruct (o_victim o); [rewrite B2 in D; discriminate|reflexivity]).
  assert (F : o_fate o = None) by (destruct (o_fate o); [rewrite (proj2 B1) in D; [discriminate|eauto]|reflexivity]).
  exists (inspect c (h_now s) o). split; [cbn [h_opts]; rewrite nget_map, G; reflexivity|]. rewrite (inspect_left c (h_now s) o A D V).
  unfold inspect_exit. rewrite A, D. cbn. destruct (Nat.eqb_spec (o_code o) 0) as [Z|Z].
  - refine (conj _ (conj _ (conj _ _))).
    + intros X. contradiction.
    + intros _ ->. split; reflexivity.
    + intros _ rest ->. split; reflexivity.
    + intros _ rest ->. cbn. rewrite D, F, A. splits; auto.
  - refine (conj _ (conj _ (conj _ _))); [intros _; split; reflexivity|contradiction..].
Qed.
Print Assumptions C77_left.
Example C77_left_met : exists s t, hsteps cH [Start 1; Start 2; Send 1 Message; Exit 1 0; Exit 2 3] hinit = Some s /\ hstep cH Inspect s = Some t /\
  (exists o, nget 1 (h_opts s) = Some o /\ o_alive o = false /\ o_dead o = false /\ o_pipe o = [Message]) /\ ended 2 t Error /\
  exists u, hstep cH Inspect t = Some u /\ ended 1 u Unknown.
Proof.
  pose (l := [Start 1; Start 2; Send 1 Message; Exit 1 0; Exit 2 3]). exists (after cH l), (after cH (l ++ [Inspect])).
  splits; [vm_compute; reflexivity|vm_compute; reflexivity|runs|runs|]. exists (after cH (l ++ [Inspect; Inspect])). split; [vm_compute; reflexivity|runs].
Qed.
(** An optimizer that has left is recorded after as many inspections as it has left signals, and one more. *)
Theorem C77_recorded c l s i o : hsteps c l hinit = Some s -> nget i (h_opts s) = Some o -> o_alive o = false ->
  exists t, hsteps c (repeat Inspect (S (length (o_pipe o)))) s = Some t /\ exists f, ended i t f.
Proof.
  intros E G A. remember (length (o_pipe o)) as n eqn:N. revert l s o E G A N.
  assert (K : forall k l s o, hsteps c l hinit = Some s -> nget i (h_opts s) = Some o -> o_alive o = false -> o_dead o = true ->
    exists t, hsteps c (repeat Inspect k) s = Some t /\ exists f, ended i t f).
  { induction k as [|k IH]; intros l s o E G A D.
    - exists s. split; [reflexivity|]. destruct (proj1 (C77_graveyard c l s i o E G)) as [X _]. destruct (X D) as [f F]. exists f, o. auto.
    - destruct (hstep c Inspect s) as [t|] eqn:ST; [|discriminate].
      assert (G' : nget i (h_opts t) = Some (inspect c (h_now s) o)) by (cbn in ST; injection ST as <-; cbn [h_opts]; rewrite nget_map, G; reflexivity).
      assert (I : inspect c (h_now s) o = o).
      { unfold inspect, inspect_exit. rewrite D. cbn. unfold inspect_hang. rewrite A. cbn. unfold inspect_zombie. destruct (o_victim o); [rewrite A|]; reflexivity. }
      destruct (IH (l ++ [Inspect]) t o) as (u & U & F); [rewrite hsteps_app, E; cbn [hsteps]; now rewrite ST|now rewrite I in G'|exact A|exact D|].
      exists u. split; [cbn [repeat hsteps]; rewrite ST; exact U|exact F]. }
  induction n as [|n IH]; intros l s o E G A N.
  - destruct (o_dead o) eqn:D; [apply (K 1 l s o); assumption|]. destruct (hstep c Inspect s) as [t|] eqn:ST; [|discriminate].
    destruct (C77_left c l s t i o E ST G A D) as (o' & G' & H1 & H2 & _). exists t. split; [cbn [repeat hsteps]; now rewrite ST|].
    assert (A' : o_alive o' = false).
    { destruct (o_alive o') eqn:L; [|reflexivity]. cbn in ST. injection ST as <-. cbn [h_opts] in G'. rewrite nget_map, G in G'. injection G' as <-.
      rewrite (inspect_alive c _ _ L) in L. congruence. }
    destruct (o_pipe o) eqn:P; [|discriminate]. destruct (Nat.eq_dec (o_code o) 0) as [Z|Z].
    + exists Unknown, o'. destruct (H2 Z eq_refl). auto.
    + exists Error, o'. destruct (H1 Z). auto.
  - destruct (o_dead o) eqn:D; [apply (K (S (S n)) l s o); assumption|]. destruct (hstep c Inspect s) as [t|] eqn:ST; [|discriminate].
    destruct (C77_left c l s t i o E ST G A D) as (o' & G' & H1 & _ & H3 & H4).
    assert (E' : hsteps c (l ++ [Inspect]) hinit = Some t) by (rewrite hsteps_app, E; cbn [hsteps]; now rewrite ST).
    assert (A' : o_alive o' = false).
    { destruct (o_alive o') eqn:L; [|reflexivity]. cbn in ST. injection ST as <-. cbn [h_opts] in G'. rewrite nget_map, G in G'. injection G' as <-.
      rewrite (inspect_alive c _ _ L) in L. congruence. }
    destruct (o_pipe o) as [|m rest] eqn:P; [discriminate|]. cbn in N. injection N as N.
    assert (C : o_dead o' = true \/ o_pipe o' = rest).
    { destruct (Nat.eq_dec (o_code o) 0) as [Z|Z]; [|left; apply H1; exact Z]. destruct m; [left; apply (H3 Z rest eq_refl)|right; apply (H4 Z rest eq_refl)]. }
    destruct C as [C|C].
    + destruct (K (S n) _ _ _ E' G' A' C) as (u & U & F). exists u. split; [|exact F].
      change (repeat Inspect (S (S n))) with (Inspect :: repeat Inspect (S n)). cbn [hsteps]. rewrite ST. exact U.
    + destruct (IH _ _ _ E' G' A') as (u & U & F); [rewrite C; exact N|]. exists u. split; [|exact F].
      change (repeat Inspect (S (S n))) with (Inspect :: repeat Inspect (S n)). cbn [hsteps]. rewrite ST. exact U.
Qed.
Print Assumptions C77_recorded.
(** A hunt ends an optimizer at once only if it is a process and kills are aggressive; it is recorded with its time. *)
Theorem C77_hunt c l s t i : hsteps c l hinit = Some s -> hstep c (Hunt i) s = Some t -> running i s ->
  (running i t <-> ~ (c_aggressive c = true /\ c_proc c = true)) /\
  (exists o, nget i (h_opts t) = Some o /\ o_fate o = Some Hunted /\ o_victim o = Some (seconds l) /\ o_dead o = true) /\
  forall j, j <> i -> nget j (h_opts t) = nget j (h_opts s).
Proof.
  intros E S (o & G & A). cbn in S. rewrite G in S. destruct (o_dead o); [discriminate|]. injection S as <-. destruct (reach_ok _ _ _ E) as [T _].
  refine (conj _ (conj _ _)).
  - unfold running. rewrite upd_get, Nat.eqb_refl, G. cbn. rewrite A. destruct (c_aggressive c), (c_proc c); cbn; split.
    1:{ intros (o' & X & Y). injection X as <-. discriminate. }
    1:{ intros H. exfalso. apply H. auto. }
    all: try (intros _ [? ?]; discriminate). all: intros _; eexists; split; reflexivity.
  - eexists. rewrite upd_get, Nat.eqb_refl, G. cbn. rewrite T. splits; reflexivity.
  - intros j N. rewrite upd_get. apply Nat.eqb_neq in N. now rewrite N.
Qed.
Print Assumptions C77_hunt.
Example C77_hunt_met : exists s t, hsteps (mkHC (Some 5) true true) [Start 1; Start 2; Wait 3] hinit = Some s /\ hstep (mkHC (Some 5) true true) (Hunt 2) s = Some t /\
  running 2 s /\ ~ running 2 t /\ running 1 t.
Proof.
  pose (c := mkHC (Some 5) true true). pose (l := [Start 1; Start 2; Wait 3]). exists (after c l), (after c (l ++ [Hunt 2])).
  splits; [vm_compute; reflexivity|vm_compute; reflexivity|runs| |runs]. intros (o & H & A). vm_compute in H. injection H as <-. discriminate.
Qed.
(** The manager takes some ten results a round and reads no more before it inspects: after a round in which it was busy for long, an optimizer whose
    results wait behind those of another is ended although it posted in time. *)
Theorem C77_backlog_refuted : exists l1 l2 s t, hsteps cH (l1 ++ l2) hinit = Some s /\ hstep cH Inspect s = Some t /\
  In (Post 1 1) l2 /\ seconds l2 = 0 /\ In (1, 1) (h_queue s) /\ running 1 s /\ ended 1 t Forced /\ In (Handle 2 10) l2.
Proof.
  pose (l1 := [Start 1; Start 2; Wait 1; Post 2 10; Wait 6]). pose (l2 := [Post 1 1; Handle 2 10]).
  exists l1, l2, (after cH (l1 ++ l2)), (after cH ((l1 ++ l2) ++ [Inspect])).
  splits; [vm_compute; reflexivity|vm_compute; reflexivity|now left|reflexivity|vm_compute; now left|runs|runs|right; now left].
Qed.
Print Assumptions C77_backlog_refuted.
(** Optimizers held for a checkpoint longer than the limit are ended at the next inspection, although they could not post. *)
Theorem C77_checkpoint_refuted : exists l s t, hsteps cH (l ++ [Pause; Wait 6; Resume]) hinit = Some s /\ hstep cH Inspect s = Some t /\
  (exists l0, l = l0 ++ [Post 1 1; Handle 1 1]) /\ h_queue s = [] /\ running 1 s /\ ended 1 t Forced.
Proof.
  pose (l := [Start 1; Wait 2] ++ [Post 1 1; Handle 1 1]). exists l, (after cH (l ++ [Pause; Wait 6; Resume])), (after cH ((l ++ [Pause; Wait 6; Resume]) ++ [Inspect])).
  splits; [vm_compute; reflexivity|vm_compute; reflexivity|now exists [Start 1; Wait 2]|vm_compute; reflexivity|runs|runs].
Qed.
Print Assumptions C77_checkpoint_refuted.
(** An optimizer that reported its convergence and is slow to leave is recorded as forcibly terminated: that branch does not ask for the graveyard. *)
Theorem C77_converged_refuted : exists l s t, hsteps cH l hinit = Some s /\ hstep cH Inspect s = Some t /\ In (Hear 1 Conv) l /\
  (exists o, nget 1 (h_opts s) = Some o /\ o_fate o = Some Converged /\ o_dead o = true) /\ ended 1 t Forced.
Proof.
  pose (l := [Start 1; Wait 2; Post 1 4; Handle 1 4; Send 1 Conv; Hear 1 Conv; Wait 6]). exists l, (after cH l), (after cH (l ++ [Inspect])).
  splits; [vm_compute; reflexivity|vm_compute; reflexivity|cbn; tauto|runs|runs].
Qed.
Print Assumptions C77_converged_refuted.
(** A hunted optimizer that is slow to leave loses the record of the hunt. *)
Theorem C77_hunted_refuted : exists l s t, hsteps cH l hinit = Some s /\ hstep cH Inspect s = Some t /\
  (exists o, nget 1 (h_opts s) = Some o /\ o_fate o = Some Hunted) /\ ended 1 t Forced.
Proof.
  pose (l := [Start 1; Wait 2; Hunt 1; Wait 6]). exists l, (after cH l), (after cH (l ++ [Inspect])).
  splits; [vm_compute; reflexivity|vm_compute; reflexivity|runs|runs].
Qed.
Print Assumptions C77_hunted_refuted.
