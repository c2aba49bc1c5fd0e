(** * Proofs about forced terminations *)
From Verif Require Import Prelude Prelude_Proofs Hang_Model Hang_Spec.
From Coq Require Import Lia.
Open Scope nat_scope.

Section Hang.
Variable c : hcfg.
Notation hstep := (hstep c).
Notation hsteps := (hsteps c).
Notation inspect := (inspect c).

Lemma hsteps_app l1 l2 s : hsteps (l1 ++ l2) s = match hsteps l1 s with Some s => hsteps l2 s | None => None end.
Proof. revert s. induction l1 as [|e l1 IH]; intro s; cbn; [reflexivity|]. destruct (hstep e s); auto. Qed.
Lemma seconds_app l1 l2 : seconds (l1 ++ l2) = seconds l1 + seconds l2.
Proof. unfold seconds. now rewrite map_app, list_sum_app. Qed.
Lemma nget_map (f : ost -> ost) k (d : list (nat * ost)) : nget k (map (fun p => (fst p, f (snd p))) d) = option_map f (nget k d).
Proof. induction d as [|[i o] d IH]; cbn; [reflexivity|]. destruct (Nat.eqb k i); auto. Qed.
Lemma upd_get i j f s : nget i (h_opts (upd j f s)) = if Nat.eqb i j then option_map f (nget i (h_opts s)) else nget i (h_opts s).
Proof.
  unfold upd. destruct (nget j (h_opts s)) as [o|] eqn:G; cbn.
  - rewrite nget_nset. destruct (Nat.eqb_spec i j) as [->|]; [now rewrite G|reflexivity].
  - destruct (Nat.eqb_spec i j) as [->|]; [now rewrite G|reflexivity].
Qed.
Lemma upd_now j f s : h_now (upd j f s) = h_now s.
Proof. unfold upd. now destruct (nget j (h_opts s)). Qed.
Lemma upd_queue j f s : h_queue (upd j f s) = h_queue s.
Proof. unfold upd. now destruct (nget j (h_opts s)). Qed.

Lemma inspect_alive n o : o_alive (inspect n o) = true -> inspect n o = o.
Proof.
  unfold Hang_Model.inspect. intro A.
  assert (E3 : inspect_zombie c n (inspect_hang c n (inspect_exit n o)) = inspect_hang c n (inspect_exit n o)).
  { revert A. unfold inspect_zombie. destruct (o_victim _); [|reflexivity]. destruct (_ && _ && _); [discriminate|reflexivity]. }
  rewrite E3 in *. clear E3.
  assert (E2 : inspect_hang c n (inspect_exit n o) = inspect_exit n o).
  { revert A. unfold inspect_hang. destruct (_ && _ && _ && _); [discriminate|reflexivity]. }
  rewrite E2 in *. clear E2. revert A. unfold inspect_exit. destruct (o_dead o); [reflexivity|]. destruct (o_alive o) eqn:L; [reflexivity|]. cbn.
  destruct (Nat.eqb _ _); [|discriminate]. destruct (o_pipe o) as [|[] ?]; cbn; congruence.
Qed.
Lemma inspect_from_alive n o : o_alive o = true -> inspect_exit n o = o.
Proof. unfold inspect_exit. intros ->. now rewrite andb_false_r. Qed.

(** Inspecting a running child *)
Lemma inspect_cases n o : o_alive o = true ->
  if c_proc c && match o_victim o with Some t => late c n t | None => late c n (o_last o) end
  then o_alive (inspect n o) = false /\ o_fate (inspect n o) = Some Forced /\ o_victim (inspect n o) = o_victim o
  else inspect n o = o.
Proof.
  intro A. unfold Hang_Model.inspect. rewrite (inspect_from_alive _ _ A). unfold inspect_hang. rewrite A. cbn.
  destruct (o_victim o) as [t|] eqn:V.
  - rewrite andb_false_r. cbn. unfold inspect_zombie. rewrite V, A. destruct (c_proc c), (late c n t); cbn; auto.
  - destruct (c_proc c), (late c n (o_last o)); cbn; splits; auto; unfold inspect_zombie; now rewrite V.
Qed.

(** The victims are in the graveyard, and a running child was heard last, and marked, when its fields say so. *)
Definition ok (l : list hevent) (i : nat) (o : ost) : Prop :=
  (o_alive o = true -> exists l1 l2, l = l1 ++ l2 /\ o_last o = seconds l1 /\ (o_victim o = None -> silent i l2)) /\
  match o_victim o with Some t => exists l1 l2, l = l1 ++ Hunt i :: l2 /\ t = seconds l1 | None => True end.

Lemma silent_snoc i l e : silent i l -> ~ heard i e -> silent i (l ++ [e]).
Proof. intros S N x I. apply in_app_or in I as [I|[<-|[]]]; auto. Qed.
Lemma ok_later l i o e : ok l i o -> ~ heard i e -> ok (l ++ [e]) i o.
Proof.
  intros [A B] N. split.
  - intro L. destruct (A L) as (l1 & l2 & -> & E & S). exists l1, (l2 ++ [e]). splits; [now rewrite app_assoc|exact E|]. intro V. apply silent_snoc; auto.
  - destruct (o_victim o); [|exact I]. destruct B as (l1 & l2 & -> & ->). exists l1, (l2 ++ [e]). split; [now rewrite <- app_assoc|reflexivity].
Qed.
Lemma ok_fields l i o o' : ok l i o -> (o_alive o' = true -> o_alive o = true) -> o_last o' = o_last o -> o_victim o' = o_victim o -> ok l i o'.
Proof. intros [A B] H1 H2 H3. split; [intro L; rewrite H2, H3; auto|now rewrite H3]. Qed.
Lemma ok_now l e i o o' : ok l i o -> o_last o' = seconds (l ++ [e]) -> o_victim o' = o_victim o -> ok (l ++ [e]) i o'.
Proof.
  intros [_ B] H2 H3. split.
  - intros _. exists (l ++ [e]), []. splits; [now rewrite app_nil_r|exact H2|]. intros _ x [].
  - rewrite H3. destruct (o_victim o); [|exact I]. destruct B as (l1 & l2 & -> & ->). exists l1, (l2 ++ [e]). split; [now rewrite <- app_assoc|reflexivity].
Qed.
Lemma inspect_exit_ok n o : o_victim (inspect_exit n o) = o_victim o /\ o_alive (inspect_exit n o) = o_alive o.
Proof.
  unfold inspect_exit. destruct (o_dead o); [now split|]. destruct (o_alive o) eqn:A; [now split|]. cbn.
  destruct (Nat.eqb _ _); [|now split]. destruct (o_pipe o) as [|[] ?]; cbn; now split.
Qed.
Lemma inspect_victim n o : o_victim (inspect n o) = o_victim o.
Proof.
  unfold Hang_Model.inspect. destruct (inspect_exit_ok n o) as [V _]. set (o1 := inspect_exit n o) in *.
  assert (V2 : o_victim (inspect_hang c n o1) = o_victim o1).
  { unfold inspect_hang. destruct (o_victim o1) eqn:E; [rewrite andb_false_r; cbn; exact E|]. destruct (_ && _ && _ && _); auto. }
  rewrite <- V, <- V2. unfold inspect_zombie. destruct (o_victim (inspect_hang c n o1)) eqn:E; [|exact E]. destruct (_ && _ && _); auto.
Qed.

Lemma step_ok l e s t : hstep e s = Some t -> h_now s = seconds l ->
  (forall i o, nget i (h_opts s) = Some o -> ok l i o) ->
  h_now t = seconds (l ++ [e]) /\ forall i o, nget i (h_opts t) = Some o -> ok (l ++ [e]) i o.
Proof.
  intros E N K.
  assert (Z : (match e with Wait _ => False | _ => True end) -> seconds (l ++ [e]) = h_now s) by (rewrite seconds_app, N; destruct e; cbn; intro; try contradiction; lia).
  destruct e; cbn in E.
  - (* Start *) destruct (Nat.eqb_spec i (S (h_count s))) as [->|]; [|discriminate]. injection E as <-. cbn [h_now h_opts]. rewrite (Z I). split; [reflexivity|].
    intros j o G. rewrite nget_nset in G. destruct (Nat.eqb_spec j (S (h_count s))) as [->|D].
    + injection G as <-. split; [|exact I]. intros _. exists (l ++ [Start (S (h_count s))]), []. splits; [now rewrite app_nil_r|now rewrite (Z I)|]. intros _ x [].
    + apply ok_later; [auto|]. cbn. congruence.
  - (* Wait *) injection E as <-. cbn. split; [rewrite seconds_app, N; cbn; lia|]. intros j o G. apply ok_later; [auto|easy].
  - injection E as <-. cbn [h_now h_opts]. rewrite (Z I). split; [reflexivity|]. intros j o G. apply ok_later; [auto|easy].
  - injection E as <-. cbn [h_now h_opts]. rewrite (Z I). split; [reflexivity|]. intros j o G. apply ok_later; [auto|easy].
  - (* Post *) destruct (_ && _ && _); [|discriminate]. injection E as <-. cbn [h_now h_opts]. rewrite (Z I). split; [reflexivity|]. intros j o G. apply ok_later; [auto|easy].
  - (* Send *) destruct (alive i s); [|discriminate]. injection E as <-. rewrite upd_now, (Z I). split; [reflexivity|]. intros j o G. rewrite upd_get in G.
    destruct (Nat.eqb_spec j i) as [->|]; [|apply ok_later; [auto|easy]]. destruct (nget i (h_opts s)) as [o0|] eqn:G0; [|discriminate]. injection G as <-.
    apply ok_later; [|easy]. eapply ok_fields; eauto.
  - (* Exit *) destruct (alive i s); [|discriminate]. injection E as <-. rewrite upd_now, (Z I). split; [reflexivity|]. intros j o G. rewrite upd_get in G.
    destruct (Nat.eqb_spec j i) as [->|]; [|apply ok_later; [auto|easy]]. destruct (nget i (h_opts s)) as [o0|] eqn:G0; [|discriminate]. injection G as <-.
    apply ok_later; [|easy]. eapply ok_fields; eauto. cbn. discriminate.
  - (* Handle *) destruct (h_queue s) as [|[j m] q] eqn:Q; [discriminate|]. destruct (Nat.eqb_spec i j) as [<-|]; [|discriminate].
    destruct (Nat.eqb_spec n m) as [<-|]; [|discriminate]. cbn in E. injection E as <-. rewrite upd_now. cbn [h_now h_opts]. rewrite (Z I). split; [reflexivity|].
    intros k o G. rewrite upd_get in G. cbn [h_opts] in G. destruct (Nat.eqb_spec k i) as [->|D]; [|apply ok_later; [auto|cbn; congruence]].
    destruct (nget i (h_opts s)) as [o0|] eqn:G0; [|discriminate]. injection G as <-. destruct (o_victim o0) eqn:V.
    + destruct (K _ _ G0) as [A B]. rewrite V in B. split; [|rewrite V; destruct B as (l1 & l2 & -> & ->); exists l1, (l2 ++ [Handle i n]); now rewrite <- app_assoc].
      intro L. destruct (A L) as (l1 & l2 & -> & E1 & _). exists l1, (l2 ++ [Handle i n]). splits; [now rewrite app_assoc|exact E1|congruence].
    + eapply ok_now; [eauto|cbn; now rewrite (Z I)|reflexivity].
  - (* Hear *) destruct (nget i (h_opts s)) as [o0|] eqn:G0; [|discriminate].
    assert (E' : exists rest, Some (upd i (hear (h_now s) m rest) s) = Some t).
    { destruct (o_dead o0); [discriminate|]. destruct (o_pipe o0) as [|[] rest], m; try discriminate; exists rest; exact E. }
    destruct E' as [rest E']. injection E' as <-. rewrite upd_now, (Z I). split; [reflexivity|]. intros j o G. rewrite upd_get in G.
    destruct (Nat.eqb_spec j i) as [->|D]; [|apply ok_later; [auto|cbn; congruence]]. rewrite G0 in G. injection G as <-.
    eapply ok_now; [eauto|rewrite (Z I); now destruct m|now destruct m].
  - (* Hunt *) destruct (nget i (h_opts s)) as [o0|] eqn:G0; [|discriminate]. destruct (o_dead o0); [discriminate|]. injection E as <-.
    rewrite upd_now, (Z I). split; [reflexivity|]. intros j o G. rewrite upd_get in G.
    destruct (Nat.eqb_spec j i) as [->|D]; [|apply ok_later; [auto|easy]]. rewrite G0 in G. injection G as <-. destruct (K _ _ G0) as [A _]. split.
    + cbn. intro L. apply andb_true_iff in L as [L _]. destruct (A L) as (l1 & l2 & -> & E1 & _). exists l1, (l2 ++ [Hunt i]). splits; [now rewrite app_assoc|exact E1|discriminate].
    + cbn. exists l, []. now split.
  - (* Inspect *) injection E as <-. cbn [h_now h_opts]. rewrite (Z I). split; [reflexivity|]. intros j o G. rewrite nget_map in G.
    destruct (nget j (h_opts s)) as [o0|] eqn:G0; [|discriminate]. injection G as <-. apply ok_later; [|easy].
    destruct (o_alive (inspect (h_now s) o0)) eqn:A; [rewrite (inspect_alive _ _ A); auto|]. split; [congruence|].
    rewrite inspect_victim. apply (K _ _ G0).
Qed.
Lemma reach_ok l : forall s, hsteps l hinit = Some s -> h_now s = seconds l /\ forall i o, nget i (h_opts s) = Some o -> ok l i o.
Proof.
  induction l as [|e l IH] using rev_ind; intros s E.
  - injection E as <-. split; [reflexivity|discriminate].
  - rewrite hsteps_app in E. destruct (hsteps l hinit) as [s0|]; [|discriminate]. destruct (IH _ eq_refl) as [N K]. cbn in E.
    destruct (hstep e s0) eqn:S; [|discriminate]. injection E as <-. eapply step_ok; eauto.
Qed.

(** While nothing is heard of a running child, its field stays. *)
Lemma quiet_step i e s t o' : hstep e s = Some t -> ~ heard i e -> nget i (h_opts t) = Some o' -> o_alive o' = true ->
  exists o, nget i (h_opts s) = Some o /\ o_alive o = true /\ o_last o = o_last o' /\ (o_victim o' = None -> o_victim o = None).
Proof.
  intros E N G A. destruct e; cbn in E, N.
  - destruct (Nat.eqb_spec i0 (S (h_count s))) as [->|]; [|discriminate]. injection E as <-. cbn [h_opts] in G. rewrite nget_nset in G.
    destruct (Nat.eqb_spec i (S (h_count s))) as [->|]; [congruence|]. exists o'. auto.
  - injection E as <-. exists o'. auto.
  - injection E as <-. exists o'. auto.
  - injection E as <-. exists o'. auto.
  - destruct (_ && _ && _); [|discriminate]. injection E as <-. exists o'. auto.
  - destruct (alive i0 s); [|discriminate]. injection E as <-. rewrite upd_get in G. destruct (Nat.eqb_spec i i0) as [->|]; [|exists o'; auto].
    destruct (nget i0 (h_opts s)) as [o|]; [|discriminate]. injection G as <-. exists o. auto.
  - destruct (alive i0 s); [|discriminate]. injection E as <-. rewrite upd_get in G. destruct (Nat.eqb_spec i i0) as [->|]; [|exists o'; auto].
    destruct (nget i0 (h_opts s)) as [o|]; [|discriminate]. injection G as <-. discriminate.
  - destruct (h_queue s) as [|[j m] q]; [discriminate|]. destruct (Nat.eqb_spec i0 j) as [<-|]; [|discriminate]. destruct (Nat.eqb n m); [|discriminate].
    injection E as <-. rewrite upd_get in G. cbn [h_opts] in G. destruct (Nat.eqb_spec i i0) as [->|]; [congruence|]. exists o'. auto.
  - destruct (nget i0 (h_opts s)) as [o|] eqn:G0; [|discriminate].
    assert (E' : exists rest, Some (upd i0 (hear (h_now s) m rest) s) = Some t).
    { destruct (o_dead o); [discriminate|]. destruct (o_pipe o) as [|[] rest], m; try discriminate; exists rest; exact E. }
    destruct E' as [rest E']. injection E' as <-. rewrite upd_get in G. destruct (Nat.eqb_spec i i0) as [->|]; [congruence|]. exists o'. auto.
  - destruct (nget i0 (h_opts s)) as [o|] eqn:G0; [|discriminate]. destruct (o_dead o); [discriminate|]. injection E as <-. rewrite upd_get in G.
    destruct (Nat.eqb_spec i i0) as [->|]; [|exists o'; auto]. rewrite G0 in G. injection G as <-. cbn in A. apply andb_true_iff in A as [A _]. exists o. splits; auto. discriminate.
  - injection E as <-. cbn [h_opts] in G. rewrite nget_map in G. destruct (nget i (h_opts s)) as [o|]; [|discriminate]. injection G as <-.
    pose proof (inspect_alive _ _ A) as X. rewrite X in *. exists o. splits; auto.
Qed.
Lemma quiet_steps i l : forall s t o', hsteps l s = Some t -> silent i l -> nget i (h_opts t) = Some o' -> o_alive o' = true ->
  exists o, nget i (h_opts s) = Some o /\ o_alive o = true /\ o_last o = o_last o' /\ (o_victim o' = None -> o_victim o = None).
Proof.
  induction l as [|e l IH]; intros s t o' E S G A; cbn in E.
  - injection E as <-. exists o'. auto.
  - destruct (hstep e s) as [s1|] eqn:H; [|discriminate].
    destruct (IH s1 t o' E (fun x I => S x (or_intror I)) G A) as (o1 & G1 & A1 & L1 & V1).
    destruct (quiet_step i e s s1 o1 H (S e (or_introl eq_refl)) G1 A1) as (o & G0 & A0 & L0 & V0). exists o. splits; auto; congruence.
Qed.

(** A chunk stays on the queue until it is handled. *)
Lemma queue_step i e s t : hstep e s = Some t -> ~ heard i e -> (exists n, In (i, n) (h_queue s)) -> exists n, In (i, n) (h_queue t).
Proof.
  intros E N [n I]. destruct e; cbn in E, N.
  - destruct (Nat.eqb _ _); [|discriminate]. injection E as <-. eauto.
  - injection E as <-. eauto.
  - injection E as <-. eauto.
  - injection E as <-. eauto.
  - destruct (_ && _ && _); [|discriminate]. injection E as <-. exists n. cbn. apply in_or_app. now left.
  - destruct (alive i0 s); [|discriminate]. injection E as <-. rewrite upd_queue. eauto.
  - destruct (alive i0 s); [|discriminate]. injection E as <-. rewrite upd_queue. eauto.
  - destruct (h_queue s) as [|[j m] q]; [discriminate|]. destruct (Nat.eqb_spec i0 j) as [<-|]; [|discriminate]. destruct (Nat.eqb n0 m); [|discriminate].
    injection E as <-. rewrite upd_queue. cbn. destruct I as [X|I]; [congruence|eauto].
  - destruct (nget i0 (h_opts s)) as [o|] eqn:G0; [|discriminate].
    assert (E' : exists rest, Some (upd i0 (hear (h_now s) m rest) s) = Some t).
    { destruct (o_dead o); [discriminate|]. destruct (o_pipe o) as [|[] rest], m; try discriminate; exists rest; exact E. }
    destruct E' as [rest E']. injection E' as <-. rewrite upd_queue. eauto.
  - destruct (nget i0 (h_opts s)) as [o|] eqn:G0; [|discriminate]. destruct (o_dead o); [discriminate|]. injection E as <-. rewrite upd_queue. eauto.
  - injection E as <-. eauto.
Qed.
Lemma queue_steps i l : forall s t, hsteps l s = Some t -> silent i l -> (exists n, In (i, n) (h_queue s)) -> exists n, In (i, n) (h_queue t).
Proof.
  induction l as [|e l IH]; intros s t E S Q; cbn in E; [injection E as <-; exact Q|].
  destruct (hstep e s) as [s1|] eqn:H; [|discriminate]. apply (IH s1 t E (fun x I => S x (or_intror I))).
  eapply queue_step; eauto. apply S. now left.
Qed.
Lemma post_queue l i k s t : hsteps (l ++ [Post i k]) s = Some t -> In (i, k) (h_queue t).
Proof.
  rewrite hsteps_app. destruct (hsteps l s) as [s0|]; [|intro H; discriminate H]. unfold Hang_Model.hsteps, Hang_Model.hstep.
  destruct (_ && _ && _); intro H; [|discriminate H]. injection H as <-. cbn. apply in_or_app. right. now left.
Qed.

(** The graveyard holds those whose end is recorded, the victims among them. *)
Definition buried (o : ost) : Prop := (o_dead o = true <-> o_fate o <> None) /\ (o_victim o <> None -> o_dead o = true).
Lemma inspect_buried n o : buried o -> buried (inspect n o).
Proof.
  unfold Hang_Model.inspect. intro B.
  assert (B1 : buried (inspect_exit n o)).
  { unfold inspect_exit. destruct (o_dead o) eqn:D; [exact B|]. destruct (o_alive o); [exact B|]. cbn.
    destruct (Nat.eqb _ _); [|split; cbn; [split; [discriminate|reflexivity]|reflexivity]].
    destruct (o_pipe o) as [|[] ?]; cbn; [split; cbn; [split; [discriminate|reflexivity]|reflexivity]..|].
    destruct B as [B1 B2]. rewrite D in *. split; cbn; rewrite ?D; assumption. }
  assert (B2 : buried (inspect_hang c n (inspect_exit n o))).
  { unfold inspect_hang. destruct (_ && _ && _ && _); [|exact B1]. split; cbn; [split; [discriminate|reflexivity]|reflexivity]. }
  unfold inspect_zombie. destruct (o_victim _) as [t|] eqn:V; [|exact B2]. destruct (_ && _ && _); [|exact B2].
  destruct B2 as [_ B2]. rewrite V in B2. assert (D := B2 ltac:(discriminate)). split; cbn; rewrite D; [split; [discriminate|reflexivity]|reflexivity].
Qed.
Lemma hstep_buried e s t : hstep e s = Some t -> (forall i o, nget i (h_opts s) = Some o -> buried o) -> forall i o, nget i (h_opts t) = Some o -> buried o.
Proof.
  intros E H.
  assert (U : forall j f s', (forall i o, nget i (h_opts s') = Some o -> buried o) -> (forall o, nget j (h_opts s') = Some o -> buried o -> buried (f o)) ->
    forall i o, nget i (h_opts (upd j f s')) = Some o -> buried o).
  { intros j f s' H1 H2 i o. rewrite upd_get. destruct (Nat.eqb_spec i j) as [->|]; [|apply H1].
    destruct (nget j (h_opts s')) as [o'|] eqn:G; cbn; [|discriminate]. intro X. injection X as <-. apply H2; [reflexivity|eapply H1; exact G]. }
  destruct e; cbn in E.
  - destruct (Nat.eqb _ _); [|discriminate]. injection E as <-. intros j o. cbn [h_opts]. rewrite nget_nset. destruct (Nat.eqb _ _); [|apply H].
    intro X. injection X as <-. split; cbn; [split; congruence|congruence].
  - injection E as <-. exact H.
  - injection E as <-. exact H.
  - injection E as <-. exact H.
  - destruct (_ && _ && _); [|discriminate]. injection E as <-. exact H.
  - destruct (alive i s); [|discriminate]. injection E as <-. apply U; [exact H|]. intros o _ B. exact B.
  - destruct (alive i s); [|discriminate]. injection E as <-. apply U; [exact H|]. intros o _ B. exact B.
  - destruct (h_queue s) as [|[j k] q]; [discriminate|]. destruct (_ && _); [|discriminate]. injection E as <-. apply U; [exact H|].
    intros o _ B. destruct (o_victim o); exact B.
  - destruct (nget i (h_opts s)) as [o0|] eqn:G; [|discriminate]. destruct (o_dead o0) eqn:D; [discriminate|].
    assert (X : exists rest, t = upd i (hear (h_now s) m rest) s).
    { destruct (o_pipe o0) as [|[] rest]; [discriminate|destruct m|destruct m]; try discriminate; injection E as <-; eauto. }
    destruct X as [rest ->]. apply U; [exact H|]. intros o _ [B1 B2]. destruct m; cbn; [split; cbn; [split; [discriminate|reflexivity]|reflexivity]|split; assumption].
  - destruct (nget i (h_opts s)) as [o0|] eqn:G; [|discriminate]. destruct (o_dead o0); [discriminate|]. injection E as <-. apply U; [exact H|].
    intros o _ B. split; cbn; [split; [discriminate|reflexivity]|reflexivity].
  - injection E as <-. intros i o. cbn [h_opts]. rewrite nget_map. destruct (nget i (h_opts s)) as [o'|] eqn:G; [|discriminate]. cbn. intro X. injection X as <-.
    apply inspect_buried. eapply H. exact G.
Qed.
Lemma hsteps_buried l : forall s t, hsteps l s = Some t -> (forall i o, nget i (h_opts s) = Some o -> buried o) -> forall i o, nget i (h_opts t) = Some o -> buried o.
Proof.
  induction l as [|e l IH]; intros s t E H; cbn in E; [injection E as <-; exact H|].
  destruct (hstep e s) as [s1|] eqn:S; [|discriminate]. eapply IH; [exact E|]. eapply hstep_buried; eassumption.
Qed.
(** Inspecting a child that has left and is not in the graveyard *)
Lemma inspect_left n o : o_alive o = false -> o_dead o = false -> o_victim o = None -> inspect n o = inspect_exit n o.
Proof.
  intros A D V. unfold Hang_Model.inspect. assert (X : o_alive (inspect_exit n o) = false /\ o_victim (inspect_exit n o) = None).
  { unfold inspect_exit. rewrite A, D. cbn. destruct (Nat.eqb _ _); [|auto]. destruct (o_pipe o) as [|[] ?]; cbn; auto. }
  destruct X as [X Y]. unfold inspect_hang. rewrite X. cbn. unfold inspect_zombie. rewrite Y. reflexivity.
Qed.
End Hang.
