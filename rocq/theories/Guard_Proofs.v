From Verif Require Import Prelude Prelude_Proofs Guard_Model Guard_Spec.
From Coq Require Import Lia Lqa.
Open Scope nat_scope.

(** ** The guard *)
Lemma starts_effect l : forall s, fold_left start_one l s = mkG (g_f s + list_sum l) (g_o s + length l) (g_last s) (g_crashed s).
Proof.
  induction l as [|k l IH]; intros s; cbn; [destruct s; cbn; f_equal; lia|].
  rewrite IH. unfold start_one. cbn [g_f g_o g_last g_crashed]. unfold list_sum. cbn. f_equal; lia.
Qed.

Lemma gsteps_app l1 : forall l2 s, gsteps (l1 ++ l2) s = match gsteps l1 s with inl t => gsteps l2 t | inr a => inr a end.
Proof. induction l1 as [|e l1 IH]; intros l2 s; cbn; [reflexivity|]. destruct (gstep s e); [apply IH|reflexivity]. Qed.

Lemma n_evals_app a b : n_evals (a ++ b) = n_evals a + n_evals b.
Proof. unfold n_evals. now rewrite map_app, list_sum_app. Qed.
Lemma n_started_app a b : n_started (a ++ b) = n_started a + n_started b.
Proof. unfold n_started. now rewrite map_app, list_sum_app. Qed.

Lemma n_evals_cons e l : n_evals (e :: l) = evals e + n_evals l.
Proof. reflexivity. Qed.
Lemma n_started_cons e l : n_started (e :: l) = started e + n_started l.
Proof. reflexivity. Qed.
Lemma n_evals_one e : n_evals [e] = evals e.
Proof. rewrite n_evals_cons. unfold n_evals. cbn. lia. Qed.
Lemma n_started_one e : n_started [e] = started e.
Proof. rewrite n_started_cons. unfold n_started. cbn. lia. Qed.

Local Arguments n_evals : simpl never.
Local Arguments n_started : simpl never.

(** Counters and the flag. *)
Lemma gstep_effect s e t : gstep s e = inl t ->
  g_f t = g_f s + evals e /\ g_o t = g_o s + started e /\ (g_crashed t = true <-> g_crashed s = true \/ e = Message true) /\
  (g_last t = g_last s \/ g_last t = (g_f t, g_o t)).
Proof.
  destruct e as [l a|b|]; cbn.
  - unfold fill. destruct (_ && _ && _); [discriminate|]. rewrite starts_effect. cbn.
    destruct l as [|k l].
    + destruct a; [|discriminate]. intros [= <-]. cbn. splits; try lia; [|now left].
      split; [now left|intros [H|H]; [exact H|discriminate]].
    + cbn [length list_sum fold_right]. destruct (Nat.eqb _ _); intros [= <-]; cbn; splits; try lia; auto;
        (split; [now left|intros [H|H]; [exact H|discriminate]]).
  - intros [= <-]. cbn. splits; try lia; [|now left].
    destruct b; cbn; split; auto. intros [H|H]; [exact H|discriminate].
  - intros [= <-]. cbn. splits; try lia; [|now left].
    split; [now left|intros [H|H]; [exact H|discriminate]].
Qed.

(** What last_opt_spawn stands for: the history can be split so that it is the counters at the split. *)
Definition recorded (past : list gevent) (s : guard) : Prop :=
  g_f s = n_evals past /\ g_o s = n_started past /\ (g_crashed s = true <-> In (Message true) past) /\
  exists p1 p2, past = p1 ++ p2 /\ g_last s = (n_evals p1, n_started p1).

Lemma gsteps_recorded l : forall past s t, recorded past s -> gsteps l s = inl t -> recorded (past ++ l) t.
Proof.
  induction l as [|e l IH]; intros past s t R E; cbn in E; [injection E as <-; now rewrite app_nil_r|].
  destruct (gstep s e) as [u|] eqn:G; [|discriminate].
  change (e :: l) with ([e] ++ l). rewrite app_assoc. apply IH with u; [|exact E].
  destruct R as (Rf & Ro & Rc & p1 & p2 & Rp & Rl). pose proof (gstep_effect _ _ _ G) as (Gf & Go & Gc & Gl).
  unfold recorded. rewrite n_evals_app, n_started_app, n_evals_one, n_started_one.
  splits.
  - lia.
  - lia.
  - rewrite Gc, Rc, in_app_iff. cbn. intuition.
  - destruct Gl as [Gl|Gl].
    + exists p1, (p2 ++ [e]). split; [now rewrite Rp, app_assoc|congruence].
    + exists (past ++ [e]), []. split; [now rewrite app_nil_r|]. rewrite Gl, n_evals_app, n_started_app, n_evals_one, n_started_one. f_equal; lia.
Qed.

Lemma recorded_init : recorded [] ginit.
Proof. unfold recorded. cbn. splits; try reflexivity; [split; [discriminate|intros []]|]. exists [], []. now split. Qed.

Lemma gsteps_err l : forall s a, gsteps l s = inr a -> exists l1 e l2 t, l = l1 ++ e :: l2 /\ gsteps l1 s = inl t /\ gstep t e = inr a.
Proof.
  induction l as [|e l IH]; intros s a E; cbn in E; [discriminate|].
  destruct (gstep s e) as [u|b] eqn:G.
  - destruct (IH _ _ E) as (l1 & e' & l2 & t & -> & H1 & H2). exists (e :: l1), e', l2, t. splits; [reflexivity| |exact H2].
    cbn. now rewrite G.
  - injection E as <-. now exists [], e, l, s.
Qed.

Lemma alarm_inv s e : gstep s e = inr Crashing ->
  exists l a, e = Fill l a /\ fst (g_last s) = g_f s /\ snd (g_last s) + 5 < g_o s /\ g_crashed s = true.
Proof.
  destruct e as [l a|b|]; cbn; try discriminate. unfold fill.
  destruct (_ && _ && _) eqn:B.
  - intros _. rewrite !andb_true_iff, Nat.eqb_eq, Nat.ltb_lt in B. exists l, a. intuition.
  - destruct l; [destruct a; discriminate|discriminate].
Qed.

Lemma alarm_sound l : gsteps l ginit = inr Crashing ->
  exists l0 l1 e l2, l = l0 ++ l1 ++ e :: l2 /\ In (Message true) (l0 ++ l1) /\ n_evals l1 = 0 /\ 5 < n_started l1 /\
                     (exists n a, e = Fill n a).
Proof.
  intros E. destruct (gsteps_err _ _ _ E) as (p & e & l2 & t & -> & H1 & H2).
  destruct (alarm_inv _ _ H2) as (n & a & -> & Hf & Ho & Hc).
  destruct (gsteps_recorded _ _ _ _ recorded_init H1) as (Rf & Ro & Rc & p1 & p2 & Rp & Rl). cbn in *. subst p.
  rewrite n_evals_app in Rf. rewrite n_started_app in Ro. rewrite Rl in *. cbn in *.
  exists p1, p2, (Fill n a), l2. splits; [now rewrite <- app_assoc|now apply Rc|lia|lia|now exists n, a].
Qed.

(** With a crash on record and no evaluations, only so many optimizers are started. *)
Definition small (J : nat) (e : gevent) : Prop := started e <= J.

Lemma quiet_step J s e t : gstep s e = inl t -> g_crashed s = true -> evals e = 0 -> small J e -> snd (g_last s) <= g_o s ->
  g_crashed t = true /\ g_f t = g_f s /\ g_o t = g_o s + started e /\ snd (g_last t) <= g_o t /\
  (fst (g_last s) = g_f s -> g_last t = g_last s /\ (started e = 0 \/ g_o s <= snd (g_last s) + 5)) /\
  (fst (g_last s) <> g_f s -> started e = 0 /\ g_last t = g_last s \/ g_last t = (g_f t, g_o t)).
Proof.
  intros G C Q SM L. pose proof (gstep_effect _ _ _ G) as (Gf & Go & Gc & Gl).
  splits.
  - apply Gc. now left.
  - lia.
  - exact Go.
  - destruct Gl as [->| ->]; cbn; lia.
  - intros F. destruct e as [l a|b|]; cbn in *; [|injection G as <-; cbn; auto|discriminate Q].
    unfold fill in G. rewrite (proj2 (Nat.eqb_eq _ _) F), C in G. cbn [andb] in G. rewrite andb_true_r in G.
    destruct (Nat.ltb (snd (g_last s) + 5) (g_o s)) eqn:B; [discriminate|]. apply Nat.ltb_ge in B.
    rewrite starts_effect in G. cbn in G. destruct l as [|k l]; [destruct a; [|discriminate]; injection G as <-; cbn; auto|].
    rewrite (proj2 (Nat.eqb_eq _ _)) in G by (cbn in *; lia). injection G as <-. cbn. auto.
  - intros F. destruct e as [l a|b|]; cbn in *; [|injection G as <-; cbn; auto|discriminate Q].
    unfold fill in G. rewrite (proj2 (Nat.eqb_neq _ _) F) in G. cbn in G.
    rewrite starts_effect in G. cbn in G. destruct l as [|k l]; [destruct a; [|discriminate]; injection G as <-; cbn; auto|].
    rewrite (proj2 (Nat.eqb_neq _ _)) in G by (cbn in *; lia). injection G as <-. cbn. auto.
Qed.

Lemma quiet_same J l : forall s t, gsteps l s = inl t -> g_crashed s = true -> n_evals l = 0 -> Forall (small J) l ->
  snd (g_last s) <= g_o s -> fst (g_last s) = g_f s ->
  g_o t = g_o s + n_started l /\ (n_started l = 0 \/ g_o t <= snd (g_last s) + 5 + J).
Proof.
  induction l as [|e l IH]; intros s t E C Q SM L F; cbn in E; [injection E as <-; change (n_started []) with 0; lia|].
  destruct (gstep s e) as [u|] eqn:G; [|discriminate]. inversion SM as [|? ? S1 S2]; subst.
  rewrite n_evals_cons in Q.
  destruct (quiet_step J s e u G C ltac:(lia) S1 L) as (Cu & Fu & Ou & Lu & K & _). destruct (K F) as [K1 K2].
  destruct (IH u t E Cu ltac:(lia) S2 Lu ltac:(congruence)) as [I1 I2].
  rewrite n_started_cons. rewrite K1 in I2. unfold small in S1. lia.
Qed.

Lemma quiet_any J l : forall s t, gsteps l s = inl t -> g_crashed s = true -> n_evals l = 0 -> Forall (small J) l ->
  snd (g_last s) <= g_o s -> n_started l <= 5 + 2 * J.
Proof.
  induction l as [|e l IH]; intros s t E C Q SM L; [change (n_started []) with 0; lia|].
  destruct (Nat.eq_dec (fst (g_last s)) (g_f s)) as [F|F].
  - destruct (quiet_same J _ s t E C Q SM L F). lia.
  - cbn in E. destruct (gstep s e) as [u|] eqn:G; [|discriminate]. inversion SM as [|? ? S1 S2]; subst.
    rewrite n_evals_cons in Q.
    destruct (quiet_step J s e u G C ltac:(lia) S1 L) as (Cu & Fu & Ou & Lu & _ & K).
    rewrite n_started_cons. unfold small in S1.
    destruct (K F) as [[Z _]|K1].
    + rewrite Z. apply (IH u t E Cu); [lia|exact S2|exact Lu].
    + destruct (quiet_same J l u t E Cu ltac:(lia) S2 Lu) as [I1 I2]; rewrite K1 in *; cbn in *; [reflexivity|]. lia.
Qed.

Lemma reach_last l t : gsteps l ginit = inl t -> snd (g_last t) <= g_o t.
Proof.
  intros E. destruct (gsteps_recorded _ _ _ _ recorded_init E) as (Rf & Ro & Rc & p1 & p2 & Rp & Rl). cbn in *. subst l.
  rewrite Rl, Ro, n_started_app. cbn. lia.
Qed.

Lemma silent_deaths n : gsteps (repeat (Fill [0] true) n) ginit = inl (mkG 0 n (0, 0) false).
Proof.
  enough (H : forall o, gsteps (repeat (Fill [0] true) n) (mkG 0 o (0, 0) false) = inl (mkG 0 (n + o) (0, 0) false))
    by (unfold ginit; rewrite (H 0), Nat.add_0_r; reflexivity).
  induction n as [|n IH]; intros o; [reflexivity|]. cbn [repeat gsteps gstep].
  replace (fill [0] true (mkG 0 o (0, 0) false)) with (@inl guard alarm (mkG 0 (S o) (0, 0) false))
    by (unfold fill; cbn [g_crashed]; rewrite andb_false_r; reflexivity).
  rewrite IH. now rewrite Nat.add_succ_r.
Qed.

Definition crash_of (k : nat) : list gevent := [Fill [S k] true; Message true].
Lemma own_evaluations k n : forall s, fst (g_last s) = g_f s -> snd (g_last s) = g_o s -> exists t,
  gsteps (concat (repeat (crash_of k) n)) s = inl t /\ g_o t = g_o s + n.
Proof.
  induction n as [|n IH]; intros s F L; [exists s; cbn; split; [reflexivity|lia]|].
  set (s1 := mkG (g_f s + S k) (S (g_o s)) (g_f s + S k, S (g_o s)) true).
  destruct (IH s1) as (t & E & O); [reflexivity..|].
  exists t. split; [|rewrite O; cbn; lia].
  cbn [repeat concat]. rewrite gsteps_app.
  assert (H : gsteps (crash_of k) s = inl s1).
  { unfold crash_of, s1. cbn. unfold fill. rewrite L. rewrite (proj2 (Nat.ltb_ge (g_o s + 5) (g_o s))) by lia.
    rewrite andb_false_r. cbn. rewrite (proj2 (Nat.eqb_neq _ _)) by lia. cbn. reflexivity. }
  now rewrite H.
Qed.

(** ** The annealing generator *)
Lemma isclose_false a b : isclose a b = false -> ((1 # 100000000) + (1 # 100000) * Qabs b < Qabs (a - b))%Q.
Proof.
  unfold isclose, atol, rtol. intros H. apply Qnot_le_lt. intros K. apply Qle_bool_iff in K. congruence.
Qed.
Lemma isclose_true a b : isclose a b = true -> (Qabs (a - b) <= (1 # 100000000) + (1 # 100000) * Qabs b)%Q.
Proof. unfold isclose, atol, rtol. apply Qle_bool_iff. Qed.

Lemma not_close_moved x : forall y, all_close x y = false <-> moved x y.
Proof.
  induction x as [|a x IH]; intros y.
  - cbn. split; [discriminate|]. intros (i & a & b & H & _). destruct i; discriminate.
  - destruct y as [|b y]; [cbn; split; [discriminate|]; intros (i & c & d & _ & H & _); destruct i; discriminate|].
    change (all_close (a :: x) (b :: y)) with (isclose a b && all_close x y).
    rewrite andb_false_iff, IH. split.
    + intros [H|(i & c & d & H)]; [exists 0, a, b|exists (S i), c, d; exact H].
      splits; [reflexivity..|now apply isclose_false].
    + intros ([|i] & c & d & H1 & H2 & H3); cbn in *; [|right; now exists i, c, d].
      injection H1 as ->. injection H2 as ->. left. destruct (isclose c d) eqn:K; [|reflexivity].
      apply isclose_true in K. exfalso. exact (Qle_not_lt _ _ K H3).
Qed.

Section Scipy.
  Variable sc : scipy.

  Definition reheat (s : anneal) : anneal := if cold sc (Z.to_nat (a_iter s)) then reset_temperature sc s else s.
  Lemma rounds_S fuel reps s : rounds sc (S fuel) reps s =
    (let s := run_chain sc (reheat s) in
     if all_close (a_loc s) (a_last s) then
       if Nat.leb 5 (S reps) then rounds sc fuel 0 (reset_temperature sc s) else rounds sc fuel (S reps) s
     else Ok s).
  Proof. reflexivity. Qed.

  Lemma reset_temperature_fields s : let t := reset_temperature sc s in
    a_last t = a_last s /\ a_runs t = a_runs s /\ a_resets t = S (a_resets s) /\
    a_nfev t = a_nfev s + snd (reset sc (a_resets s)) /\ m_f t = m_f s /\ m_log t = m_log s.
  Proof. unfold reset_temperature, reset_state. destruct (reset sc (a_resets s)) as [[x fx] n]. cbn. splits; reflexivity. Qed.
  Lemma run_chain_fields s : let t := run_chain sc s in let c := chain sc (a_runs s) in
    a_loc t = fst (fst c) /\ a_last t = a_last s /\ a_runs t = S (a_runs s) /\ a_resets t = a_resets s /\
    a_nfev t = a_nfev s + snd c /\ m_f t = m_f s + snd c /\ m_log t = m_log s + snd c.
  Proof. unfold run_chain. destruct (chain sc (a_runs s)) as [[x fx] n]. cbn. splits; reflexivity. Qed.
  Lemma spent_S f i n : spent f i (S n) = snd (f i) + spent f (S i) n.
  Proof. reflexivity. Qed.
  Lemma spent_add f n : forall i m, spent f i (n + m) = spent f i n + spent f (i + n) m.
  Proof.
    induction n as [|n IH]; intros i m; [now rewrite Nat.add_0_r|].
    cbn [Nat.add]. rewrite !spent_S, IH. replace (S i + n) with (i + S n) by lia. lia.
  Qed.

  Lemma spent_0 f i : spent f i 0 = 0.
  Proof. reflexivity. Qed.
  Lemma spent_1 f i : spent f i 1 = snd (f i).
  Proof. rewrite spent_S, spent_0. lia. Qed.

  (** One generation, from [s] to [t] in [n] runs of the chain and [k] resets. *)
  Definition after (n k : nat) (s t : anneal) : Prop :=
    a_last t = a_last s /\ a_runs t = a_runs s + n /\ a_resets t = a_resets s + k /\
    m_f t = m_f s + spent (chain sc) (a_runs s) n /\ m_log t = m_log s + spent (chain sc) (a_runs s) n /\
    a_nfev t = a_nfev s + spent (chain sc) (a_runs s) n + spent (reset sc) (a_resets s) k.
  Lemma after_refl s : after 0 0 s s.
  Proof. unfold after. rewrite ?spent_0, ?spent_1. splits; auto; lia. Qed.
  Lemma after_trans n k n' k' s t u : after n k s t -> after n' k' t u -> after (n + n') (k + k') s u.
  Proof.
    unfold after. intros (A1 & A2 & A3 & A4 & A5 & A6) (B1 & B2 & B3 & B4 & B5 & B6).
    rewrite !spent_add. rewrite A2, A3 in *. splits; try congruence; lia.
  Qed.
  Lemma after_reset s : after 0 1 s (reset_temperature sc s).
  Proof.
    destruct (reset_temperature_fields s) as (H1 & H2 & H3 & H4 & H5 & H6). unfold after. rewrite ?spent_0, ?spent_1. splits; try congruence; lia.
  Qed.
  Lemma after_chain s : after 1 0 s (run_chain sc s).
  Proof.
    destruct (run_chain_fields s) as (H0 & H1 & H2 & H3 & H4 & H5 & H6). unfold after. rewrite ?spent_0, ?spent_1. splits; try congruence; lia.
  Qed.
  Lemma after_reheat s : exists k, after 0 k s (reheat s) /\ k <= 1 /\ (cold sc (Z.to_nat (a_iter s)) = false -> k = 0).
  Proof.
    unfold reheat. destruct (cold _ _); [exists 1; splits; [apply after_reset|lia|discriminate]|].
    exists 0. splits; [apply after_refl|lia|reflexivity].
  Qed.

  Lemma rounds_ok fuel : forall reps s t, rounds sc fuel reps s = Ok t -> reps < 5 -> exists n k,
    after (S n) k s t /\ a_loc t = fst (fst (chain sc (a_runs s + n))) /\ moved (a_loc t) (a_last s) /\
    (forall i, i < n -> ~ moved (fst (fst (chain sc (a_runs s + i)))) (a_last s)) /\
    n + reps < 5 * k + 5 /\ ((forall i, cold sc i = false) -> 5 * k <= n + reps).
  Proof.
    induction fuel as [|fuel IH]; intros reps s t E R; [discriminate|]. rewrite rounds_S in E. cbv zeta in E.
    destruct (after_reheat s) as (k0 & K1 & K2 & K3).
    assert (A := after_trans _ _ _ _ _ _ _ K1 (after_chain (reheat s))). cbn [Nat.add] in A. rewrite Nat.add_0_r in A.
    set (u := run_chain sc (reheat s)) in *.
    assert (LU : a_loc u = fst (fst (chain sc (a_runs s)))).
    { unfold u. rewrite (proj1 (run_chain_fields _)). destruct K1 as (_ & -> & _). now rewrite Nat.add_0_r. }
    assert (LL : a_last u = a_last s) by apply A.
    destruct (all_close (a_loc u) (a_last u)) eqn:C.
    - assert (NM : ~ moved (fst (fst (chain sc (a_runs s)))) (a_last s)).
      { rewrite <- LU, <- LL. intros M. apply not_close_moved in M. congruence. }
      destruct (Nat.leb 5 (S reps)) eqn:L5.
      + apply Nat.leb_le in L5. destruct (IH _ _ _ E ltac:(lia)) as (n & k & B1 & B2 & B3 & B4 & B5 & B6).
        pose proof (after_trans _ _ _ _ _ _ _ (after_trans _ _ _ _ _ _ _ A (after_reset u)) B1) as T. cbn [Nat.add] in T.
        assert (RU : a_runs (reset_temperature sc u) = S (a_runs s)).
        { rewrite (proj1 (proj2 (reset_temperature_fields u))). destruct A as (_ & -> & _). lia. }
        assert (LR : a_last (reset_temperature sc u) = a_last s).
        { now rewrite (proj1 (reset_temperature_fields u)). }
        rewrite RU, LR in *. exists (S n), (k0 + 1 + k). splits.
        * exact T.
        * rewrite B2. now rewrite Nat.add_succ_r.
        * exact B3.
        * intros [|i] Hi; [now rewrite Nat.add_0_r|]. replace (a_runs s + S i) with (S (a_runs s) + i) by lia. apply B4. lia.
        * lia.
        * intros NC. rewrite (K3 (NC _)). specialize (B6 NC). lia.
      + apply Nat.leb_gt in L5. destruct (IH _ _ _ E ltac:(lia)) as (n & k & B1 & B2 & B3 & B4 & B5 & B6).
        pose proof (after_trans _ _ _ _ _ _ _ A B1) as T. cbn [Nat.add] in T.
        assert (RU : a_runs u = S (a_runs s)) by (destruct A as (_ & -> & _); lia).
        rewrite RU, LL in *. exists (S n), (k0 + k). splits.
        * exact T.
        * rewrite B2. now rewrite Nat.add_succ_r.
        * exact B3.
        * intros [|i] Hi; [now rewrite Nat.add_0_r|]. replace (a_runs s + S i) with (S (a_runs s) + i) by lia. apply B4. lia.
        * lia.
        * intros NC. rewrite (K3 (NC _)). specialize (B6 NC). lia.
    - injection E as <-. exists 0, k0. splits.
      + exact A.
      + now rewrite Nat.add_0_r.
      + rewrite <- LL. now apply not_close_moved.
      + intros i Hi. lia.
      + lia.
      + intros NC. rewrite (K3 (NC _)). lia.
  Qed.

  Lemma rounds_done n : forall reps s, moved (fst (fst (chain sc (a_runs s + n)))) (a_last s) ->
    forall fuel, n < fuel -> exists t, rounds sc fuel reps s = Ok t.
  Proof.
    induction n as [n IH] using lt_wf_ind. intros reps s M [|fuel] L; [lia|]. rewrite rounds_S. cbv zeta.
    destruct (after_reheat s) as (k0 & K1 & _ & _).
    assert (A := after_trans _ _ _ _ _ _ _ K1 (after_chain (reheat s))). cbn [Nat.add] in A.
    set (u := run_chain sc (reheat s)) in *.
    assert (LU : a_loc u = fst (fst (chain sc (a_runs s)))).
    { unfold u. rewrite (proj1 (run_chain_fields _)). destruct K1 as (_ & -> & _). now rewrite Nat.add_0_r. }
    assert (LL : a_last u = a_last s) by apply A.
    assert (RU : a_runs u = S (a_runs s)) by (destruct A as (_ & -> & _); lia).
    destruct (all_close (a_loc u) (a_last u)) eqn:C; [|eexists; reflexivity].
    destruct n as [|n].
    - rewrite Nat.add_0_r in M. apply not_close_moved in M. congruence.
    - destruct (Nat.leb 5 (S reps)).
      + apply (IH n); [lia| |lia].
        destruct (reset_temperature_fields u) as (-> & -> & _). rewrite LL, RU.
        now replace (S (a_runs s) + n) with (a_runs s + S n) by lia.
      + apply (IH n); [lia| |lia]. rewrite LL, RU. now replace (S (a_runs s) + n) with (a_runs s + S n) by lia.
  Qed.

  Lemma rounds_stuck fuel : forall reps s, (forall i, ~ moved (fst (fst (chain sc i))) (a_last s)) ->
    rounds sc fuel reps s = Err OutOfFuel.
  Proof.
    induction fuel as [|fuel IH]; intros reps s N; [reflexivity|]. rewrite rounds_S. cbv zeta.
    destruct (after_reheat s) as (k0 & K1 & _ & _).
    assert (A := after_trans _ _ _ _ _ _ _ K1 (after_chain (reheat s))). cbn [Nat.add] in A.
    set (u := run_chain sc (reheat s)) in *.
    assert (LU : a_loc u = fst (fst (chain sc (a_runs s)))).
    { unfold u. rewrite (proj1 (run_chain_fields _)). destruct K1 as (_ & -> & _). now rewrite Nat.add_0_r. }
    assert (LL : a_last u = a_last s) by apply A.
    destruct (all_close (a_loc u) (a_last u)) eqn:C.
    - destruct (Nat.leb 5 (S reps)); apply IH; [rewrite (proj1 (reset_temperature_fields u))|]; now rewrite LL.
    - apply not_close_moved in C. rewrite LU, LL in C. now destruct (N (a_runs s)).
  Qed.
End Scipy.

Lemma narrow_close b x y : narrow b -> (fst b <= x <= snd b)%Q -> (fst b <= y <= snd b)%Q -> isclose x y = true.
Proof.
  destruct b as [lo hi]. cbn. intros N X Y. unfold isclose, atol, rtol. apply Qle_bool_iff. apply Qabs_Qle_condition.
  assert (A : (0 <= Qabs y)%Q) by apply Qabs_nonneg. assert (B : (y <= Qabs y)%Q) by apply Qle_Qabs.
  destruct N as [N|[N0 N]]; cbn in *; split; lra.
Qed.

Lemma box_close box : Forall narrow box -> forall x y, in_box box x -> in_box box y -> ~ moved x y.
Proof.
  intros N x y [LX X] [LY Y] (i & a & b & HA & HB & H).
  destruct (nth_error box i) as [[lo hi]|] eqn:Bi.
  - assert (In (lo, hi) box) by (eapply nth_error_In; eauto). rewrite Forall_forall in N.
    pose proof (narrow_close (lo, hi) a b (N _ H0) (X _ _ _ _ HA Bi) (Y _ _ _ _ HB Bi)) as C. apply isclose_true in C. exact (Qle_not_lt _ _ C H).
  - apply nth_error_None in Bi. assert (nth_error x i <> None) by congruence. apply nth_error_Some in H0. lia.
Qed.

(** The count of iterations sets the temperature: a reset sets it to 0. *)
Definition warm (s t : anneal) : Prop :=
  (a_resets t = a_resets s /\ a_iter t = a_iter s) \/ (a_resets s < a_resets t /\ a_iter t = 0%Z).
Lemma warm_trans a b c : warm a b -> warm b c -> warm a c.
Proof. unfold warm. intros [[]|[]] [[]|[]]; (left; split; congruence) || (right; split; lia). Qed.
Lemma reset_warm sc s : a_resets (reset_temperature sc s) = S (a_resets s) /\ a_iter (reset_temperature sc s) = 0%Z.
Proof. unfold reset_temperature, reset_state. destruct (reset sc (a_resets s)) as [[x fx] n]. now split. Qed.
Lemma chain_warm sc s : a_resets (run_chain sc s) = a_resets s /\ a_iter (run_chain sc s) = a_iter s.
Proof. unfold run_chain. destruct (chain sc (a_runs s)) as [[x fx] n]. now split. Qed.
Lemma rounds_warm sc fuel : forall reps s t, rounds sc fuel reps s = Ok t ->
  warm s t /\ (cold sc (Z.to_nat (a_iter s)) = true -> a_resets s < a_resets t).
Proof.
  induction fuel as [|fuel IH]; intros reps s t E; [discriminate|]. cbn [rounds] in E.
  set (u := run_chain sc (if cold sc (Z.to_nat (a_iter s)) then reset_temperature sc s else s)) in *.
  assert (W : warm s u /\ (cold sc (Z.to_nat (a_iter s)) = true -> a_resets s < a_resets u)).
  { destruct (chain_warm sc (if cold sc (Z.to_nat (a_iter s)) then reset_temperature sc s else s)) as [C1 C2]. fold u in C1, C2.
    unfold warm. rewrite C1, C2. destruct (cold sc _); [|split; [now left|discriminate]].
    destruct (reset_warm sc s) as [-> ->]. split; [right; split; [lia|reflexivity]|lia]. }
  clearbody u. destruct W as [W1 W2].
  assert (X : forall v, warm u v -> rounds sc fuel (S reps) v = Ok t \/ rounds sc fuel 0 v = Ok t ->
              warm s t /\ (cold sc (Z.to_nat (a_iter s)) = true -> a_resets s < a_resets t)).
  { intros v V Ev. assert (V2 : warm v t) by (destruct Ev as [Ev|Ev]; apply IH in Ev; apply Ev).
    split; [exact (warm_trans _ _ _ (warm_trans _ _ _ W1 V) V2)|]. intros C. specialize (W2 C).
    pose proof (warm_trans _ _ _ V V2) as [[Y _]|[Y _]]; lia. }
  destruct (all_close (a_loc u) (a_last u)); [|injection E as <-; now split].
  destruct (Nat.leb 5 (S reps)).
  - apply (X (reset_temperature sc u)); [|now right]. destruct (reset_warm sc u) as [R1 R2]. right. rewrite R1, R2. split; [lia|reflexivity].
  - apply (X u); [now left|now left].
Qed.
