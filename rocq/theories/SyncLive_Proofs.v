(** * The checkpoint conversation always ends *)
From Verif Require Import Prelude_Proofs.
From Verif Require Export SyncData_Proofs.
Local Arguments nmem : simpl never.

(** ** A measure *)
Fixpoint sumf {A} (w : A -> nat) (l : list A) : nat := match l with [] => 0 | a :: l' => w a + sumf w l' end.
Lemma sumf_app {A} (w : A -> nat) a b : sumf w (a ++ b) = sumf w a + sumf w b.
Proof. induction a as [|x a IH]; cbn; [reflexivity|]. rewrite IH. lia. Qed.
Definition kk (n : nat) : nat := 2 * n + 2.
Arguments kk : simpl never.
Definition w_msg (m : msg) : nat := match m with Prep => 6 | _ => 1 end.
Definition w_check (n : nat) (f : bool) : nat := if f then kk n + 3 else kk n + 9.
Definition w_place (n : nat) (p : place) : nat :=
  match p with
  | Dead | Lost => 0
  | Bye => kk n + 2
  | Check f => w_check n f
  | Farewell => kk n + 6
  | Loop => kk n + 7
  | Gate => kk n + 8
  | Put => 2 * kk n + 11
  | Wait f _ => w_check n f + 3
  | Clear f => w_check n f + 2
  | Held f => w_check n f + 1
  end.
Definition w_opt (n : nat) (o : opt) : nat := w_place n (o_at o) + (kk n + 5) * o_left o + sumf w_msg (o_in o) + 2 * length (o_out o).
Arguments w_opt : simpl never.
Definition w_opts (n : nat) (l : list opt) : nat := sumf (w_opt n) l.
Arguments w_opts : simpl never.
Definition w_queue (n : nat) (q : list (list item)) : nat := sumf (fun ch => 1 + kk n * length ch) q.
Arguments w_queue : simpl never.
Definition w_vars (n : nat) (v : vars) : nat := 4 * n + 8 * length (v_asked v) + length (v_living v).
Arguments w_vars : simpl never.
Definition w_m (n : nat) (m : mplace) : nat :=
  match m with
  | Idle | MUnhandled | MNotEmpty | MNoFile => 0
  | MSend todo asked => 12 + 4 * n + 20 * length todo + 10 * length asked
  | MLoop v | MPoll _ v => 11 + w_vars n v + length (v_wait v)
  | MDrain _ cur v => 11 + w_vars n v + length (v_wait v) + kk n * length cur
  | MFlush cur v => 10 + w_vars n v + kk n * length cur
  | MEmpty v => 9 + w_vars n v
  | MSave todo v => 8 + 4 * n + 8 * length todo + length (v_living v)
  | MClear _ rem _ => 7 + 4 * n + length rem
  | MFiles _ => 6 + 4 * n
  | MStop todo => 5 + 2 * n + 2 * length todo
  | MRelease todo => 4 + 2 * length todo
  end.
Definition measure (n : nat) (s : sys) : nat := w_opts n (s_opts s) + w_queue n (s_queue s) + kk n * length (s_cache s) + w_m n (s_m s).

Lemma w_upd n i f l o : nth_error l i = Some o -> w_opts n (upd i f l) + w_opt n o = w_opts n l + w_opt n (f o).
Proof.
  unfold w_opts. revert i. induction l as [|a l IH]; intros [|i] E; cbn in *; try discriminate; [injection E as ->; lia|]. specialize (IH i E). lia.
Qed.
Lemma w_send n m o : w_opt n (send m o) = w_opt n o + w_msg m.
Proof. unfold w_opt. cbn. rewrite sumf_app. cbn. lia. Qed.
Lemma w_queue_app n q ch : w_queue n (q ++ [ch]) = w_queue n q + 1 + kk n * length ch.
Proof. unfold w_queue. rewrite sumf_app. cbn. lia. Qed.
Lemma w_all n p m l : w_msg m = 1 -> w_opts n (upd_all p (send m) l) <= w_opts n l + length l.
Proof.
  intro W. unfold upd_all, w_opts. generalize 0. induction l as [|a l IH]; intro k; cbn; [lia|]. specialize (IH (S k)). destruct (p k); rewrite ?w_send, ?W; lia.
Qed.
Lemma w_handle n h it s : length (s_opts s) = n -> w_opts n (s_opts (handle h it s)) + 2 <= w_opts n (s_opts s) + kk n.
Proof.
  intro L. destruct it; cbn; [|unfold kk; lia].
  pose proof (w_all n (h_tell h) Share (upd_all (h_kill h) (send Stop) (s_opts s)) eq_refl) as A. pose proof (w_all n (h_kill h) Stop (s_opts s) eq_refl) as B.
  rewrite upd_all_length in A. unfold kk. lia.
Qed.

(** ** Steps of an optimizer *)
Definition ready (c : config) (i : nat) (s : sys) : bool :=
  match nth_error (s_opts s) i with
  | None => false
  | Some o =>
      match o_at o with
      | Loop | Check _ | Clear _ | Farewell => true
      | Put => is_some (put_nowait c (Res i) s)
      | Gate | Held _ => o_run o
      | Wait _ got => got || match o_in o with [] => false | _ => true end
      | Bye => is_some (put c (End i) s)
      | Dead | Lost => false
      end
  end.
Lemma unready_step c h i s : ready c i s = false -> ostep c h i s = s.
Proof.
  unfold ready, ostep. destruct (nth_error (s_opts s) i) as [o|]; auto. destruct (o_at o); try discriminate; auto.
  - destruct (put_nowait _ _ _); [discriminate|auto].
  - intros ->. reflexivity.
  - destruct got; [discriminate|]. destruct (o_in o); [auto|discriminate].
  - intros ->. reflexivity.
  - destruct (put _ _ _); [discriminate|auto].
Qed.
Lemma put_now_measure n c i s s' : put_nowait c (Res i) s = Some s' -> measure n s' <= measure n s + kk n + 1.
Proof.
  unfold put_nowait, measure. destruct (s_fast s); [destruct (Nat.leb _ _)|]; destruct (full c s); intro H; inversion H; subst; cbn [s_opts s_queue s_cache s_m];
    rewrite ?w_queue_app, ?app_length, ?Nat.mul_add_distr_l; cbn [length]; lia.
Qed.
Lemma put_measure n c i s s' : put c (End i) s = Some s' -> measure n s' <= measure n s + kk n + 1.
Proof.
  unfold put, measure. destruct (full c s); [discriminate|]. destruct (s_fast s); intro H; inversion H; subst; cbn [s_opts s_queue s_cache s_m];
    rewrite ?w_queue_app, ?app_length, ?Nat.mul_add_distr_l; cbn [length]; lia.
Qed.
Lemma change_measure n i f s o : nth_error (s_opts s) i = Some o -> measure n (change i f s) + w_opt n o = measure n s + w_opt n (f o).
Proof. intro E. pose proof (w_upd n i f _ _ E). unfold measure. cbn. lia. Qed.
Lemma change_less n i f s o : nth_error (s_opts s) i = Some o -> w_opt n (f o) < w_opt n o -> measure n (change i f s) < measure n s.
Proof. intros E L. pose proof (change_measure n i f s o E). lia. Qed.
Lemma change_change i f g s : change i f (change i g s) = change i (fun o => f (g o)) s.
Proof. unfold change, set_opts. cbn. rewrite upd_upd. reflexivity. Qed.
Lemma ready_step n c h i s : h_raise h = false -> ready c i s = true -> measure n (ostep c h i s) < measure n s.
Proof.
  intros C R. unfold ready in R. unfold ostep. destruct (nth_error (s_opts s) i) as [o|] eqn:E; [|discriminate]. rewrite C.
  destruct (o_at o) eqn:A.
  - destruct (o_stop o || (o_left o =? 0)) eqn:B; apply (change_less n _ _ _ _ E); unfold w_opt; cbn; rewrite A; cbn; [lia|].
    apply orb_false_elim in B as [_ B]. apply Nat.eqb_neq in B. destruct (o_left o); [congruence|]. cbn [Nat.pred]. rewrite Nat.mul_succ_r. lia.
  - destruct (put_nowait c (Res i) s) as [s'|] eqn:P; [|discriminate]. pose proof (put_now_measure n _ _ _ _ P). destruct (put_now_keeps _ _ _ _ P) as [K _].
    rewrite <- K in E. pose proof (change_measure n i (at_ (Check false)) s' o E) as X. unfold w_opt in X. cbn in X. rewrite A in X. cbn in X. lia.
  - destruct (o_in o) as [|m l] eqn:B; [apply (change_less n _ _ _ _ E); unfold w_opt; cbn; rewrite A; destruct f; cbn; lia|].
    destruct m; rewrite ?change_change; apply (change_less n _ _ _ _ E); unfold w_opt; cbn; rewrite A, B, ?app_length; cbn; lia.
  - rewrite R. apply (change_less n _ _ _ _ E); unfold w_opt; cbn; rewrite A; cbn; lia.
  - destruct (o_in o) as [|m l] eqn:B; [destruct got; [|discriminate]; apply (change_less n _ _ _ _ E); unfold w_opt; cbn; rewrite A; destruct f; cbn; lia|].
    destruct m; rewrite ?change_change; apply (change_less n _ _ _ _ E); unfold w_opt; cbn; rewrite A, B; cbn; lia.
  - apply (change_less n _ _ _ _ E); unfold w_opt; cbn; rewrite A; cbn; lia.
  - rewrite R. apply (change_less n _ _ _ _ E); unfold w_opt; cbn; rewrite A; cbn; lia.
  - apply (change_less n _ _ _ _ E); unfold w_opt; cbn; rewrite A, app_length; cbn; lia.
  - destruct (put c (End i) s) as [s'|] eqn:P; [|discriminate]. pose proof (put_measure n _ _ _ _ P). destruct (put_keeps _ _ _ _ P) as [K _].
    rewrite <- K in E. pose proof (change_measure n i (at_ Dead) s' o E) as X. unfold w_opt in X. cbn in X. rewrite A in X. cbn in X. lia.
  - discriminate.
  - discriminate.
Qed.

(** ** Steps of the manager *)
(** Someone the manager can deal with in its round. *)
Definition answered (s : sys) (i : nat) : bool :=
  match nth_error (s_opts s) i with Some o => negb (alive o) || match o_out o with [] => false | _ => true end | None => false end.
Definition round (s : sys) : nat :=
  match s_m s with
  | MLoop v => 2 + length (v_wait v)
  | MDrain k cur v => match cur, k, s_queue s with [], O, _ => 2 * length (v_wait v) + 4 | [], _, [] => 2 * length (v_wait v) + 4 | _, _, _ => 0 end
  | MPoll todo v => length todo + (if existsb (answered s) todo then 0 else 3 + length (v_wait v))
  | MClear [] _ _ => 1
  | _ => 0
  end.
Definition same_core (s s' : sys) : Prop := s_opts s' = s_opts s /\ s_queue s' = s_queue s /\ s_fast s' = s_fast s /\ s_cache s' = s_cache s.
Definition idle_manager (s : sys) : Prop := s_m s = Idle \/ s_m s = MUnhandled.

Lemma same_ready c s s' i : same_core s s' -> ready c i s' = ready c i s.
Proof.
  intros [A [B [C D]]]. unfold ready. rewrite A. destruct (nth_error (s_opts s) i) as [o|]; auto.
  assert (F : full c s' = full c s) by (unfold full; rewrite B; reflexivity).
  assert (P : is_some (put_nowait c (Res i) s') = is_some (put_nowait c (Res i) s)).
  { unfold put_nowait. rewrite F, C, D. destruct (s_fast s); [destruct (Nat.leb (c_chunk c) (length (s_cache s ++ [Res i])))|]; destruct (full c s); reflexivity. }
  assert (Q : is_some (put c (End i) s') = is_some (put c (End i) s)).
  { unfold put. rewrite F, C, D. destruct (full c s); [reflexivity|]. destruct (s_fast s); reflexivity. }
  destruct (o_at o); auto.
Qed.
Lemma drop_less i l : In i l -> length (drop i l) < length l. Proof. apply drop_length. Qed.
Lemma drop_le i l : length (drop i l) <= length l.
Proof. unfold drop. induction l as [|a l IH]; cbn; [lia|]. destruct (negb _); cbn; lia. Qed.

(** The steps in which only the place of the manager changes. *)
Inductive lazy (c : config) (s : sys) : mplace -> mplace -> Prop :=
  | z_drain v : v_wait v <> [] -> full c s = true -> lazy c s (MLoop v) (MDrain (length (v_asked v)) [] v)
  | z_poll v : v_wait v <> [] -> full c s = false -> lazy c s (MLoop v) (MPoll (v_wait v) v)
  | z_enough v : lazy c s (MDrain 0 [] v) (MPoll (v_wait v) v)
  | z_empty k v : s_queue s = [] -> lazy c s (MDrain k [] v) (MPoll (v_wait v) v)
  | z_again v : lazy c s (MPoll [] v) (MLoop v)
  | z_silent i todo v o : nth_error (s_opts s) i = Some o -> alive o = true -> o_out o = [] -> lazy c s (MPoll (i :: todo) v) (MPoll todo v)
  | z_round r rem v : lazy c s (MClear [] (r :: rem) v) (MClear (r :: rem) (r :: rem) v)
  | z_runs i todo rem v o : nth_error (s_opts s) i = Some o -> o_run o = true -> lazy c s (MClear (i :: todo) rem v) (MClear todo rem v).
(** The measure falls, or only the place of the manager changes. *)
Lemma mstep_measure n c h s : Inv s -> length (s_opts s) = n -> ~ idle_manager s -> measure n (mstep c h s) < measure n s \/ (measure n (mstep c h s) = measure n s /\ same_core s (mstep c h s) /\ lazy c s (s_m s) (s_m (mstep c h s))).
Proof.
  intros I L NI. pose proof I as [I1 I2 [I3 [I4 I5]]]. unfold idle_manager in NI. unfold mstep. destruct (s_m s) eqn:M; try (exfalso; tauto); cbn in I2.
  - left. destruct todo as [|i todo].
    + unfold measure. cbn. rewrite M. unfold w_vars. cbn. lia.
    + unfold is_alive. destruct (nth_error (s_opts s) i) as [o|] eqn:E; [destruct (alive o)|].
      * pose proof (change_measure n i (send Prep) s o E) as X. rewrite w_send in X. unfold measure in *. cbn in *. rewrite M in *. cbn in *. rewrite app_length. cbn. lia.
      * unfold measure. cbn. rewrite M. cbn. lia.
      * unfold measure. cbn. rewrite M. cbn. lia.
  - destruct (v_wait v) as [|w ll] eqn:W; [left|right; destruct (full c s) eqn:FU].
    + unfold measure. cbn. rewrite M. cbn. rewrite W. cbn. lia.
    + splits; [unfold measure; cbn; rewrite M; cbn; lia | repeat split |]. constructor; congruence.
    + splits; [unfold measure; cbn; rewrite M; cbn; rewrite W; cbn; lia | repeat split |]. cbn. rewrite <- W. constructor; congruence.
  - destruct cur as [|it cur].
    + destruct k as [|k]; [right; splits; [unfold measure; cbn; rewrite M; cbn; lia | repeat split | econstructor; eauto]|].
      unfold pop. destruct (s_queue s) as [|ch q] eqn:Q; [right; splits; [unfold measure; cbn; rewrite ?M; cbn; try rewrite Q; cbn; lia | repeat split; cbn; auto | constructor; exact Q]|].
      left. unfold measure. cbn. rewrite M, Q. change (w_queue n (ch :: q)) with (1 + kk n * length ch + w_queue n q). cbn. lia.
    + left. pose proof (w_handle n h it s L) as X. destruct (noted_same h (length (s_opts s)) it v) as [A [B [C _]]]. destruct (handle_queue h it s) as [Q1 [_ [_ Q2]]].
      unfold measure. cbn [set_m s_opts s_queue s_cache s_m w_m length]. rewrite Q1, Q2, M. cbn [w_m length]. unfold w_vars. rewrite A, B, C. rewrite Nat.mul_succ_r. lia.
  - destruct todo as [|i todo]; [right; splits; [unfold measure; cbn; rewrite M; cbn; lia | repeat split | econstructor; eauto]|]. destruct I2 as [BV SV].
    destruct (nth_error (s_opts s) i) as [o|] eqn:E; [|exfalso; apply nth_error_None in E; destruct BV as [_ [B2 [_ [_ [B5 [B6 _]]]]]]; assert (i < length (s_opts s)) by (apply B2, B6, B5, SV; left; auto); lia]. assert (IW : In i (v_wait v)) by (apply SV; left; auto).
    destruct (alive o) eqn:AL.
    + destruct (o_out o) as [|r ll] eqn:O; [right; splits; [unfold measure; cbn; rewrite M; cbn; lia | repeat split | econstructor; eauto]|]. left.
      assert (X : measure n (change i (set_out ll) s) < measure n s) by (apply (change_less n _ _ _ _ E); unfold w_opt; cbn; rewrite O; cbn; lia).
      pose proof (drop_le i (v_wait v)). destruct r; unfold measure in *; cbn in *; rewrite M in *; cbn in *; unfold w_vars in *; cbn in *; lia.
    + left. pose proof (drop_less i (v_wait v) IW). pose proof (drop_le i (v_living v)). unfold measure in *; cbn in *; rewrite M in *; cbn in *; unfold w_vars in *; cbn in *; lia.
  - left. destruct cur as [|it cur].
    + unfold pop. destruct (s_queue s) as [|ch q] eqn:Q; unfold measure; cbn; rewrite M, ?Q; [cbn; lia|]. change (w_queue n (ch :: q)) with (1 + kk n * length ch + w_queue n q). cbn. lia.
    + pose proof (w_handle n h it s L) as X. destruct (noted_same h (length (s_opts s)) it v) as [A [B [C _]]]. destruct (handle_queue h it s) as [Q1 [_ [_ Q2]]].
      unfold measure. cbn [set_m s_opts s_queue s_cache s_m w_m length]. rewrite Q1, Q2, M. cbn [w_m length]. unfold w_vars. rewrite A, C. rewrite Nat.mul_succ_r. lia.
  - left. rewrite (I3 v eq_refl). unfold measure. cbn. rewrite M. cbn. unfold w_vars. lia.
  - left. destruct todo as [|i todo]; [unfold measure; cbn; rewrite M; cbn; lia|]. unfold is_alive. destruct (nth_error (s_opts s) i) as [o|] eqn:E; [destruct (alive o)|].
    + pose proof (change_measure n i (send (if nmem i (v_not v) then Pass else Save (s_no s))) s o E) as X. rewrite w_send in X.
      assert (Y : w_msg (if nmem i (v_not v) then Pass else Save (s_no s)) = 1) by (destruct (nmem i (v_not v)); reflexivity). rewrite Y in X.
      unfold measure in *. cbn [set_m s_opts s_queue s_cache s_m w_m length change set_opts] in *. rewrite M in *. cbn [w_m length] in *. lia.
    + unfold measure. cbn. rewrite M. cbn. lia.
    + unfold measure. cbn. rewrite M. cbn. lia.
  - destruct todo as [|i todo].
    + destruct rem as [|r rem]; [left; unfold measure; cbn; rewrite M; cbn; lia | right; splits; [unfold measure; cbn; rewrite M; cbn; lia | repeat split | constructor]].
    + destruct I2 as [BV [SR ST]]. destruct (nth_error (s_opts s) i) as [o|] eqn:E; [|exfalso; apply nth_error_None in E; destruct BV as [_ [B2 [_ [_ [B5 [B6 _]]]]]]; assert (i < length (s_opts s)) by (apply B2, B6, SR, ST; left; auto); lia].
      destruct (o_run o) eqn:RU; [right; splits; [unfold measure; cbn; rewrite M; cbn; lia | repeat split | econstructor; eauto]|]. left.
      assert (IR : In i rem) by (apply ST; left; auto). pose proof (drop_less i rem IR). unfold measure; cbn; rewrite M; cbn; lia.
  - left. destruct (forallb _ _); [destruct (h_conv h)|]; unfold measure; cbn; rewrite M; cbn; unfold all_ids; rewrite ?seq_length; lia.
  - left. destruct todo as [|i todo]; [unfold measure; cbn; rewrite M; cbn; unfold all_ids; rewrite ?seq_length; lia|].
    unfold is_alive. destruct (nth_error (s_opts s) i) as [o|] eqn:E; [destruct (alive o)|]; try (unfold measure; cbn; rewrite M; cbn; lia).
    pose proof (change_measure n i (send Stop) s o E) as X. rewrite w_send in X. unfold measure in *. cbn in *. rewrite M in *. cbn in *. lia.
  - left. destruct todo as [|i todo]; [unfold measure; cbn; rewrite M; cbn; lia|].
    unfold is_alive. destruct (nth_error (s_opts s) i) as [o|] eqn:E; [destruct (alive o)|]; try (unfold measure; cbn; rewrite M; cbn; lia).
    pose proof (change_measure n i (set_run true) s o E) as X. assert (Y : w_opt n (set_run true o) = w_opt n o) by reflexivity. rewrite Y in X. unfold measure in *. cbn in *. rewrite M in *. cbn in *. lia.
Qed.

(** ** When no optimizer can move, the manager comes round *)
Lemma blocked_full c s i o : nth_error (s_opts s) i = Some o -> ok Asked o -> answered s i = false -> ready c i s = false -> full c s = true.
Proof.
  intros E O A R. unfold answered, ready in *. rewrite E in *. apply orb_false_elim in A as [A1 A2]. apply negb_false_iff in A1.
  assert (Out : o_out o = []) by (destruct (o_out o); [reflexivity|discriminate]).
  destruct O as [D|[U [[P [NP L]]|[Q [W [a [Ea _]]]]]]]; [unfold alive in A1; rewrite D in A1; discriminate| |rewrite Out in Ea; destruct a; discriminate].
  destruct (o_at o) eqn:At; cbn in L; try contradiction; try congruence.
  - unfold put_nowait in R. destruct (full c s); [reflexivity|]. destruct (s_fast s); [destruct (Nat.leb _ _)|]; discriminate.
  - unfold put in R. destruct (full c s); [reflexivity|]. destruct (s_fast s); discriminate.
  - unfold alive in A1. rewrite At in A1. discriminate.
Qed.
Lemma full_queue c s : usable c -> full c s = true -> s_queue s <> [].
Proof. unfold usable, full. destruct (c_cap c) as [[|k]|]; try congruence. intros _ F Q. rewrite Q in F. discriminate. Qed.
Lemma round_less n c h s : usable c -> Inv s -> unfailed s -> length (s_opts s) = n -> ~ idle_manager s -> (forall i, ready c i s = false) ->
  measure n (mstep c h s) < measure n s \/ (measure n (mstep c h s) = measure n s /\ same_core s (mstep c h s) /\ round (mstep c h s) < round s).
Proof.
  intros US I UF L NI NR. destruct (mstep_measure n c h s I L NI) as [X|[X [Y Z]]]; [left; exact X|]. right. splits; auto.
  pose proof I as [I1 I2 _]. remember (mstep c h s) as s' eqn:Es. clear Es. destruct Y as [Y1 [Y2 [Y3 Y4]]].
  assert (An : forall l, existsb (answered s') l = existsb (answered s) l) by (intro l; unfold answered; rewrite Y1; reflexivity).
  assert (FA : forall v, base (length (s_opts s)) v -> (forall i o, nth_error (s_opts s) i = Some o -> ok (if nmem i (v_wait v) then Asked else if nmem i (v_living v) then Replied else Gone) o) ->
    v_wait v <> [] -> full c s = false -> existsb (answered s) (v_wait v) = true).
  { intros v B O W F. destruct (v_wait v) as [|i l] eqn:Ew; [congruence|]. cbn. destruct (answered s i) eqn:A; [reflexivity|]. exfalso.
    destruct B as [_ [B2 [_ [_ [B5 [B6 _]]]]]]. rewrite Ew in B5. assert (LT : i < length (s_opts s)) by (apply B2, B6, B5; left; auto).
    destruct (nth_error (s_opts s) i) as [o|] eqn:E; [|apply nth_error_None in E; lia]. specialize (O i o E). rewrite (nmem_true i) in O by (left; auto).
    rewrite (blocked_full c s i o E O A (NR i)) in F. discriminate. }
  unfold round. destruct Z; rewrite ?Y2, ?An; cbn in I1, I2.
  - (* MLoop -> MDrain *) pose proof (full_queue c s US H0) as Q. destruct I2 as [_ [_ [_ [_ [B5 [B6 _]]]]]].
    assert (AS : v_asked v <> []) by (destruct (v_wait v) as [|w l]; [congruence|]; intro E; specialize (B6 w (B5 w (or_introl eq_refl))); rewrite E in B6; destruct B6).
    destruct (v_asked v) as [|a la]; [congruence|]. cbn [length]. destruct (s_queue s); [congruence|]. lia.
  - rewrite (FA v I2 I1 H H0). lia.
  - destruct (existsb (answered s) (v_wait v)); lia.
  - rewrite H. destruct k; destruct (existsb (answered s) (v_wait v)); lia.
  - cbn. lia.
  - cbn [existsb length]. unfold answered at 2. rewrite H, H0, H1. cbn. destruct (existsb (answered s) todo); lia.
  - lia.
  - exfalso. destruct I2 as [B [SR ST]]. assert (IR : In i rem) by (apply ST; left; auto). specialize (I1 i o H). rewrite (nmem_true _ _ IR) in I1.
    specialize (NR i). unfold ready in NR. rewrite H in NR. cbn in I1. destruct I1 as [[F _]|[O [[_ [P [f W]]]|[Q [D [[_ [f [W|W]]]|[R _]]]]]]].
    + rewrite (UF i o H) in F. discriminate.
    + rewrite W in NR. destruct (o_in o); [destruct (around_not_nil _ P)|discriminate].
    + rewrite W in NR. discriminate.
    + rewrite W in NR. discriminate.
    + congruence.
Qed.

(** ** Fair schedules *)
Definition Good (n : nat) (s : sys) : Prop := Inv s /\ Exc s /\ unfailed s /\ length (s_opts s) = n.
Lemma good_handled n s : Good n s -> s_m s <> Idle -> ~ idle_manager s.
Proof.
  intros [_ [[_ X] [U _]]] NI [H|H]; [auto|]. destruct (X H) as [i [o [E F]]]. rewrite (U i o E) in F. discriminate.
Qed.
Lemma mstep_len c h s : s_m s <> Idle -> length (s_opts (mstep c h s)) = length (s_opts s).
Proof.
  intro N. pose proof (mstep_length c h s) as L. destruct (Nat.eq_dec (length (s_opts (mstep c h s))) (length (s_opts s))) as [E|E]; [exact E|]. exfalso.
  destruct (nth_error (s_opts (mstep c h s)) (length (s_opts s))) as [o|] eqn:X; [|apply nth_error_None in X; lia].
  destruct (mstep_opts _ _ _ _ _ X) as [[g [a [T [Y _]]]]|[k [_ [_ Y]]]]; [apply nth_lt in Y; lia | congruence].
Qed.
Lemma ostep_len c h i s : length (s_opts (ostep c h i s)) = length (s_opts s).
Proof.
  destruct (nth_error (s_opts s) i) as [o|] eqn:E; [rewrite (ostep_opts c h i s o E); apply upd_length | unfold ostep; rewrite E; reflexivity].
Qed.
Lemma good_step n c l s : calm l -> s_m s <> Idle -> Good n s -> Good n (step c l s).
Proof.
  intros C N [H1 [H2 [H3 H4]]]. split; [apply step_inv; auto|]. split; [apply step_exc; auto|]. split; [apply step_unfailed; auto|].
  unfold step. destruct (fst l); [rewrite ostep_len | rewrite mstep_len]; auto.
Qed.
(** One step outside of Idle: the measure falls, or nothing but the place of the manager changes, and that not by an optimizer. *)
Lemma good_once n c l s : calm l -> Good n s -> s_m s <> Idle ->
  measure n (step c l s) < measure n s \/ (measure n (step c l s) = measure n s /\ same_core s (step c l s) /\ s_m (step c l s) <> Idle /\ forall i, fst l = Some i -> step c l s = s /\ ready c i s = false).
Proof.
  intros C G N. pose proof G as [H1 [H2 [H3 H4]]]. pose proof (good_handled n s G N) as NI. unfold step. destruct (fst l) as [i|] eqn:F.
  - destruct (ready c i s) eqn:R; [left; apply ready_step; auto|]. right. rewrite (unready_step c (snd l) i s R). splits; auto; [repeat split|]. intros j E. injection E as <-. auto.
  - destruct (mstep_measure n c (snd l) s H1 H4 NI) as [X|[X [Y Z]]]; [left; exact X|]. right. splits; auto; [|discriminate]. destruct Z; discriminate.
Qed.
Lemma forall_ready c s : (exists i, ready c i s = true) \/ forall i, ready c i s = false.
Proof.
  destruct (existsb (fun i => ready c i s) (seq 0 (length (s_opts s)))) eqn:E.
  - left. apply existsb_exists in E as [i [_ E]]. eauto.
  - right. intro i. destruct (Nat.ltb_spec i (length (s_opts s))) as [L|L].
    + destruct (ready c i s) eqn:R; [|reflexivity]. assert (X : existsb (fun i => ready c i s) (seq 0 (length (s_opts s))) = true) by (apply existsb_exists; exists i; split; [apply in_seq; lia|exact R]). congruence.
    + unfold ready. apply nth_error_None in L. rewrite L. reflexivity.
Qed.

Definition falls (n : nat) (c : config) (sigma : nat -> label) (s : sys) (k m : nat) : Prop :=
  exists j, k <= j /\ (s_m (run c sigma j s) = Idle \/ (Good n (run c sigma j s) /\ measure n (run c sigma j s) < m)).
Lemma falls_le n c sigma s k k' m : k <= k' -> falls n c sigma s k' m -> falls n c sigma s k m.
Proof. intros L [j [L' H]]. exists j. split; [lia|exact H]. Qed.

(** An optimizer that can move will. *)
Lemma moves n c sigma s i : (forall k, calm (sigma k)) -> forall d k, (exists j, k <= j <= k + d /\ fst (sigma j) = Some i) ->
  Good n (run c sigma k s) -> s_m (run c sigma k s) <> Idle -> ready c i (run c sigma k s) = true -> falls n c sigma s k (measure n (run c sigma k s)).
Proof.
  intros C. induction d as [|d IH]; intros k [j [J F]] G N R.
  - assert (j = k) by lia. subst j. exists (S k). split; [lia|]. right. cbn. split; [apply good_step; auto|]. unfold step. rewrite F. apply ready_step; [apply C|exact R].
  - destruct (good_once n c (sigma k) _ (C k) G N) as [X|[X [Y [Z W]]]].
    + exists (S k). split; [lia|]. right. cbn. split; [apply good_step; auto | exact X].
    + destruct (Nat.eq_dec j k) as [->|NE]; [destruct (W i F) as [_ R']; congruence|].
      apply (falls_le n c sigma s k (S k)); [lia|]. rewrite <- X. apply (IH (S k)).
      * exists j. split; [lia|exact F].
      * cbn. apply good_step; auto.
      * exact Z.
      * cbn. rewrite (same_ready c _ _ i Y). exact R.
Qed.
(** When none can, nothing happens until the manager moves. *)
Lemma sleeps n c sigma s : (forall k, calm (sigma k)) -> forall d k, (exists j, k <= j <= k + d /\ fst (sigma j) = None) ->
  Good n (run c sigma k s) -> s_m (run c sigma k s) <> Idle -> (forall i, ready c i (run c sigma k s) = false) ->
  exists j, k <= j /\ fst (sigma j) = None /\ run c sigma j s = run c sigma k s.
Proof.
  intros C. induction d as [|d IH]; intros k [j [J F]] G N R.
  - assert (j = k) by lia. subst j. exists k. auto.
  - destruct (fst (sigma k)) as [i|] eqn:Fk; [|exists k; auto].
    assert (E : run c sigma (S k) s = run c sigma k s) by (cbn; unfold step; rewrite Fk; apply unready_step, R).
    destruct (IH (S k)) as [j' [J' [F' E']]]; try (rewrite E; auto).
    + exists j. split; [|exact F]. destruct (Nat.eq_dec j k) as [->|]; [congruence|lia].
    + exists j'. splits; [lia|exact F'|congruence].
Qed.
Lemma idle_dec (m : mplace) : m = Idle \/ m <> Idle.
Proof. destruct m; auto; right; discriminate. Qed.
Lemma progress n c sigma s : usable c -> fair sigma -> (forall k, calm (sigma k)) -> forall r k,
  round (run c sigma k s) <= r -> Good n (run c sigma k s) -> s_m (run c sigma k s) <> Idle -> falls n c sigma s k (measure n (run c sigma k s)).
Proof.
  intros US F C. induction r as [r IH] using lt_wf_ind. intros k Hr G N.
  destruct (forall_ready c (run c sigma k s)) as [[i R]|R].
  - destruct (F (Some i) k) as [j [J Fj]]. apply (moves n c sigma s i C (j - k)); auto. exists j. split; [lia|exact Fj].
  - destruct (F None k) as [j0 [J0 F0]]. destruct (sleeps n c sigma s C (j0 - k) k) as [j [J [Fj E]]]; auto; [exists j0; split; [lia|exact F0]|].
    pose proof G as [H1 [H2 [H3 H4]]]. pose proof (good_handled n _ G N) as NI.
    assert (Es : run c sigma (S j) s = mstep c (snd (sigma j)) (run c sigma k s)) by (cbn; unfold step; rewrite Fj, E; reflexivity).
    assert (Gs : Good n (run c sigma (S j) s)) by (rewrite Es; apply (good_step n c (None, snd (sigma j))); auto; apply (C j)).
    destruct (round_less n c (snd (sigma j)) _ US H1 H3 H4 NI R) as [X|[X [Y Z]]]; [rewrite <- Es in X | rewrite <- Es in X, Z].
    + exists (S j). split; [lia|]. right. split; auto.
    + apply (falls_le n c sigma s k (S j)); [lia|]. rewrite <- X.
      destruct (idle_dec (s_m (run c sigma (S j) s))) as [I|I]; [exists (S j); auto|].
      apply (IH (round (run c sigma (S j) s))); [lia | apply le_n | exact Gs | exact I].
Qed.
Lemma settles n c sigma s : usable c -> fair sigma -> (forall k, calm (sigma k)) -> forall m k,
  measure n (run c sigma k s) <= m -> Good n (run c sigma k s) -> exists j, k <= j /\ s_m (run c sigma j s) = Idle.
Proof.
  intros US F C. induction m as [m IH] using lt_wf_ind. intros k Hm G.
  destruct (idle_dec (s_m (run c sigma k s))) as [I|I]; [exists k; auto|].
  destruct (progress n c sigma s US F C _ k (le_n _) G I) as [j [J [H|[G' H]]]]; [exists j; auto|].
  destruct (IH (measure n (run c sigma j s)) ltac:(lia) j (le_n _) G') as [j' [J' H']]. exists j'. split; [lia|exact H'].
Qed.
