(** * Proofs about checkers *)
From Verif Require Import Prelude Prelude_Proofs Core_Model Core_Spec Core_Proofs Checkers_Model Checkers_Spec.

Section First.
Variables (A L : Type).
Variable behav : nat -> A -> L -> res bool * L.

(** Evaluating a tree leaves objects outside it alone, even if a member raises. *)
Lemma call_frame c : forall a (s : cstate L) j, ~ In j (objects c) ->
  c_last (snd (call A L behav c a s)) j = c_last s j /\ c_priv (snd (call A L behav c a s)) j = c_priv s j.
Proof.
  induction c as [i|i k c1 IH1 c2 IH2]; intros a s j Hj.
  - cbn in *. unfold call_leaf. destruct (behav i a (c_priv s i)) as [[b|e] l]; cbn; rewrite ?upd_other by intuition; auto.
  - cbn [call]. pose proof (reset_out A L behav (Comb i k c1 c2) s j Hj) as Hr. pose proof (reset_priv L (Comb i k c1 c2) s) as Hp.
    set (s0 := reset L _ s) in *. clearbody s0. cbn in Hj. rewrite in_app_iff in Hj.
    destruct (IH1 a s0 j ltac:(tauto)) as [H1 H2]. destruct (call A L behav c1 a s0) as [[b1|e1] s1]; cbn [snd] in *; [|split; congruence].
    destruct (match k with JOr => b1 | JAnd => negb b1 end); cbn [snd c_last c_priv set_last].
    + rewrite upd_other by intuition. split; congruence.
    + destruct (IH2 a s1 j ltac:(tauto)) as [H3 H4]. destruct (call A L behav c2 a s1) as [[b2|e2] s2]; cbn [snd c_last c_priv set_last] in *;
       rewrite ?upd_other by intuition; split; congruence.
Qed.

Lemma call_first c : forall a (s : cstate L), NoDup (objects c) ->
  let i := first_member c in
  c_priv (snd (call A L behav c a s)) i = snd (behav i a (c_priv s i)) /\
  forall b, fst (behav i a (c_priv s i)) = Ok b -> c_last (snd (call A L behav c a s)) i = Some b.
Proof.
  induction c as [i|i k c1 IH1 c2 IH2]; intros a s Hnd.
  - cbn. unfold call_leaf. destruct (behav i a (c_priv s i)) as [[b|e] l] eqn:E; cbn; rewrite ?upd_same; split; auto; congruence.
  - cbn [first_member]. set (j := first_member c1). cbn in Hnd. apply NoDup_cons_iff in Hnd as [Hi Hnd]. apply NoDup_app_inv in Hnd as [Hn1 [Hn2 Hd]].
    rewrite in_app_iff in Hi. cbn [call]. pose proof (reset_priv L (Comb i k c1 c2) s) as Hp.
    set (s0 := reset L _ s) in *. clearbody s0. specialize (IH1 a s0 Hn1). cbn zeta in IH1. fold j in IH1. rewrite Hp in IH1. destruct IH1 as [H1 H2].
    assert (Hj : In j (objects c1)) by (apply members_objects, first_in_members).
    assert (Hji : j <> i) by (intros ->; tauto).
    destruct (call A L behav c1 a s0) as [[b1|e1] s1]; cbn [snd] in *; [|auto].
    destruct (match k with JOr => b1 | JAnd => negb b1 end); cbn [snd c_last c_priv set_last].
    + rewrite upd_other by exact Hji. auto.
    + destruct (call_frame c2 a s1 j (Hd j Hj)) as [H3 H4].
      destruct (call A L behav c2 a s1) as [[b2|e2] s2]; cbn [snd c_last c_priv set_last] in *; rewrite ?upd_other by exact Hji; rewrite H3, H4; auto.
Qed.
End First.

(** The private state of KillsAfterConvergence after a run. *)
Fixpoint kac_run (nc : Z) (run : list mview) (p : cpriv) : cpriv :=
  match run with
  | [] => p
  | v :: run' => kac_run nc run' (if geZ (v_conv v) nc && negb (fst p) then (true, v_kills v) else p)
  end.

Lemma kac_enough nc run : forall n, kac_run nc run (true, n) = (true, n).
Proof. induction run as [|v run IH]; intro n; cbn; [reflexivity|]. rewrite andb_false_r. apply IH. Qed.

Lemma kac_spec nc run n0 :
  (kac_run nc run (false, n0) = (false, n0) /\ forall v, In v run -> (Z.of_nat (v_conv v) < nc)%Z) \/
  exists pre v0 post, run = pre ++ v0 :: post /\ (forall v, In v pre -> (Z.of_nat (v_conv v) < nc)%Z) /\
    (nc <= Z.of_nat (v_conv v0))%Z /\ kac_run nc run (false, n0) = (true, v_kills v0).
Proof.
  induction run as [|v run IH]; cbn; [left; split; [reflexivity| intros v []]|].
  rewrite andb_true_r. unfold geZ. destruct (Z.leb_spec nc (Z.of_nat (v_conv v))) as [H|H].
  - right. exists [], v, run. splits; auto; [intros w []|]. rewrite kac_enough. reflexivity.
  - destruct IH as [[H1 H2]|[pre [v0 [post [-> [H1 [H2 H3]]]]]]].
    + left. split; [exact H1|]. intros w [->|Hw]; auto.
    + right. exists (v :: pre), v0, post. splits; auto. intros w [->|Hw]; auto.
Qed.

Lemma kac_calls kinds c i nk nc run : NoDup (objects c) -> first_member c = i -> kinds i = KillsAfterConvergence nk nc ->
  forall s, c_priv (calls mview cpriv (check_behav kinds) c run s) i = kac_run nc run (c_priv s i).
Proof.
  intros Hnd Hi Hk. induction run as [|v run IH]; intro s; [reflexivity|]. cbn [calls kac_run]. rewrite IH. f_equal.
  destruct (call_first mview cpriv (check_behav kinds) c v s Hnd) as [H _]. rewrite Hi in H. rewrite H.
  unfold check_behav, check_call. rewrite Hk. destruct (c_priv s i) as [en ct]. cbn. destruct (geZ (v_conv v) nc && negb en); reflexivity.
Qed.

Lemma calls_snoc {A L} behav c run v : forall s, calls A L behav c (run ++ [v]) s = snd (call A L behav c v (calls A L behav c run s)).
Proof. induction run as [|w run IH]; intro s; [reflexivity|]. cbn. apply IH. Qed.

Lemma last_app_cons {B} (pre post : list B) x d : last (pre ++ x :: post) d = last post x.
Proof.
  induction pre as [|y pre IH]; cbn [app].
  - revert x. induction post as [|z post IH]; intro x; [reflexivity|]. change (last (x :: z :: post) d) with (last (z :: post) d). rewrite (IH z).
    destruct post; [reflexivity|]. clear. revert z b. induction post as [|w post IH]; intros z b; [reflexivity|]. cbn in *. apply (IH z).
  - rewrite <- IH. destruct pre; reflexivity.
Qed.

Lemma kac_step nk nc v p : check_call (KillsAfterConvergence nk nc) v p =
  (Ok (fst (kac_run nc [v] p) && Z.leb nk (Z.of_nat (v_kills v) - Z.of_nat (snd (kac_run nc [v] p)))), kac_run nc [v] p).
Proof. destruct p as [en ct]. cbn. destruct (geZ (v_conv v) nc && negb en); reflexivity. Qed.

Lemma kac_run_app nc r1 r2 : forall p, kac_run nc (r1 ++ r2) p = kac_run nc r2 (kac_run nc r1 p).
Proof. induction r1 as [|w r1 IH]; intro p; [reflexivity|]. cbn [app kac_run]. apply IH. Qed.

Lemma kac_value nk nc run v :
  fst (kac_run nc (run ++ [v]) cpriv0) && Z.leb nk (Z.of_nat (v_kills v) - Z.of_nat (snd (kac_run nc (run ++ [v]) cpriv0))) = true <->
  kills_due nk nc (run ++ [v]).
Proof.
  pose proof (kac_spec nc (run ++ [v]) 0) as Hs. change (false, 0) with cpriv0 in Hs.
  destruct Hs as [[H1 H2]|[pre [v0 [post [H1 [H2 [H3 H4]]]]]]].
  - rewrite H1. cbn. split; [discriminate|]. intros [pre [v0 [post [E [_ [H _]]]]]].
    assert (In v0 (run ++ [v])) by (rewrite E; apply in_app_iff; cbn; auto). specialize (H2 v0 H0). lia.
  - rewrite H4. cbn. rewrite Z.leb_le.
    assert (Hlast : last post v0 = v).
    { rewrite <- (last_app_cons pre post v0 v0), <- H1, last_last. reflexivity. }
    split.
    + intro Hle. exists pre, v0, post. rewrite Hlast. auto.
    + intros [pre' [w0 [post' [E [Ha [Hb Hc]]]]]].
      assert (pre' = pre /\ w0 = v0 /\ post' = post) as [-> [-> ->]].
      { rewrite H1 in E. clear -E Ha Hb H2 H3. revert pre' E Ha H2. induction pre as [|x pre IH]; intros [|y pre'] E Ha H2; cbn in E.
        - injection E as -> ->. auto.
        - injection E as -> ->. specialize (Ha y (or_introl eq_refl)). lia.
        - injection E as -> <-. specialize (H2 w0 (or_introl eq_refl)). lia.
        - injection E as -> E. destruct (IH pre' E) as [-> [-> ->]]; auto; intros w Hw; [apply Ha|apply H2]; right; exact Hw. }
      rewrite Hlast in Hc. exact Hc.
Qed.

Lemma kac_due kinds c i nk nc run v : NoDup (objects c) -> first_member c = i -> kinds i = KillsAfterConvergence nk nc ->
  exists b, c_last (calls mview cpriv (check_behav kinds) c (run ++ [v]) check_init) i = Some b /\
            (b = true <-> kills_due nk nc (run ++ [v])).
Proof.
  intros Hnd Hi Hk. rewrite calls_snoc. set (s := calls _ _ _ c run check_init).
  destruct (call_first mview cpriv (check_behav kinds) c v s Hnd) as [_ Hl]. rewrite Hi in Hl.
  assert (Hp : c_priv s i = kac_run nc run cpriv0) by (apply (kac_calls kinds c i nk nc run Hnd Hi Hk check_init)).
  assert (Hb : fst (check_behav kinds i v (c_priv s i)) = Ok (fst (kac_run nc (run ++ [v]) cpriv0) &&
     Z.leb nk (Z.of_nat (v_kills v) - Z.of_nat (snd (kac_run nc (run ++ [v]) cpriv0))))).
  { unfold check_behav. rewrite Hk, kac_step, Hp, kac_run_app. reflexivity. }
  eexists. split; [apply Hl, Hb| apply kac_value].
Qed.

Lemma moments_snoc kinds c i run v : forall s, moments kinds c i (run ++ [v]) s =
  moments kinds c i run s ++ (if in_dec Nat.eq_dec i (asked (answers kinds v (calls mview cpriv (check_behav kinds) c run s)) c) then [v] else []).
Proof. induction run as [|w run IH]; intro s; cbn [app moments calls]; [rewrite app_nil_r; reflexivity|]. rewrite IH, app_assoc. reflexivity. Qed.

Lemma check_ok kinds c v s i : well_made kinds c -> In i (members c) ->
  fst (check_behav kinds i v (c_priv s i)) = Ok (answers kinds v s i).
Proof.
  intros Hw Hi. unfold check_behav, answers. specialize (Hw i). destruct (kinds i) as [n|n|n|n|t a|se o|nk nc]; try reflexivity.
  - specialize (Hw se o Hi eq_refl). cbn. unfold make_max_seconds in Hw. unfold call_max_seconds.
    destruct se as [m|], o as [m'|]; cbn in *; try discriminate; [destruct (Qeq_bool m' 0); reflexivity| reflexivity|].
    destruct (Qeq_bool m' 0); [discriminate| reflexivity].
  - rewrite kac_step. reflexivity.
Qed.

Lemma kac_any kinds c i nk nc : NoDup (objects c) -> well_made kinds c -> In i (members c) -> kinds i = KillsAfterConvergence nk nc ->
  forall run s, c_priv (calls mview cpriv (check_behav kinds) c run s) i = kac_run nc (moments kinds c i run s) (c_priv s i).
Proof.
  intros Hnd Hw Hi Hk. induction run as [|v run IH]; intro s; [reflexivity|]. cbn [calls moments]. rewrite IH, kac_run_app. f_equal.
  destruct (call_after mview cpriv (check_behav kinds) c v (answers kinds v s) s Hnd) as [s' [E Ha]]; [intros j Hj; exact (check_ok kinds c v s j Hw Hj)|].
  rewrite E. cbn [snd]. rewrite (af_priv _ _ _ _ _ _ _ _ Ha).
  destruct (in_dec Nat.eq_dec i (asked (answers kinds v s) c)); [|reflexivity].
  unfold check_behav. rewrite Hk, kac_step. reflexivity.
Qed.

Lemma kac_due_any kinds c i nk nc run v : NoDup (objects c) -> well_made kinds c -> In i (members c) -> kinds i = KillsAfterConvergence nk nc ->
  match c_last (calls mview cpriv (check_behav kinds) c (run ++ [v]) check_init) i with
  | None => moments kinds c i (run ++ [v]) check_init = moments kinds c i run check_init
  | Some b => (exists m, moments kinds c i (run ++ [v]) check_init = m ++ [v]) /\
              (b = true <-> kills_due nk nc (moments kinds c i (run ++ [v]) check_init))
  end.
Proof.
  intros Hnd Hw Hi Hk. rewrite calls_snoc, moments_snoc.
  pose proof (kac_any kinds c i nk nc Hnd Hw Hi Hk run check_init) as Hp. change (c_priv check_init i) with cpriv0 in Hp.
  set (s := calls _ _ _ c run check_init) in *.
  destruct (call_after mview cpriv (check_behav kinds) c v (answers kinds v s) s Hnd) as [s' [E Ha]]; [intros j Hj; exact (check_ok kinds c v s j Hw Hj)|].
  rewrite E. cbn [snd]. rewrite (af_last _ _ _ _ _ _ _ _ Ha) by exact Hi.
  destruct (in_dec Nat.eq_dec i (asked (answers kinds v s) c)) as [H|H]; [|rewrite app_nil_r; reflexivity].
  split; [eauto|]. rewrite <- kac_value, kac_run_app, <- Hp. unfold answers. rewrite Hk, kac_step. reflexivity.
Qed.

(** ** Stability *)
Lemma nle_trans_fx b a t : nle b a = true -> nle a t = true -> nle b t = true.
Proof.
  destruct a, b, t; cbn; auto; try discriminate. rewrite !Qle_bool_iff. intros H1 H2. eapply Qle_trans; eassumption.
Qed.

Lemma check_stable k v w p q : match k with KillsAfterConvergence _ _ => False | _ => True end ->
  later v w -> fst (check_call k v p) = Ok true -> fst (check_call k w q) = Ok true.
Proof.
  intros Hk [H1 H2 H3 H4 H5 H6 H7 H8]. destruct k as [n|n|n|n|t a|s o|nk nc]; cbn; try contradiction.
  1-4: intros [= H]; unfold geZ in *; f_equal; apply Z.leb_le; apply Z.leb_le in H; lia.
  - destruct (v_fx v) as [fx|]; [|discriminate]. destruct (H5 fx eq_refl) as [b [-> Hb]]. intros [= H]. f_equal.
    eapply nle_trans_fx; eassumption.
  - unfold call_max_seconds, elapsed. rewrite H6, H7.
    assert (Hq : (match v_start v with Some t => v_now v - t | None => 0 end <= match v_start v with Some t => v_now w - t | None => 0 end)%Q).
    { destruct (v_start v); [|apply Qle_refl]. apply Qplus_le_compat; [exact H8| apply Qle_refl]. }
    destruct (truthy o); [destruct o as [c|]|destruct s as [c|]]; try discriminate; intros [= H]; f_equal;
      apply Qle_bool_iff; apply Qle_bool_iff in H; eapply Qle_trans; try exact H; destruct (truthy (v_start v)).
    + apply Qplus_le_compat; [exact Hq| apply Qle_refl].
    + apply Qle_refl.
    + exact Hq.
    + apply Qle_refl.
Qed.

Lemma check_exact k v p :
  match k with
  | MaxFuncCalls n => fst (check_call k v p) = Ok true <-> (n <= Z.of_nat (v_f v))%Z
  | MaxOptsStarted n => fst (check_call k v p) = Ok true <-> (n <= Z.of_nat (v_o v))%Z
  | MaxKills n => fst (check_call k v p) = Ok true <-> (n <= Z.of_nat (v_kills v))%Z
  | NOptConverged n => fst (check_call k v p) = Ok true <-> (n <= Z.of_nat (v_conv v))%Z
  | TargetCost t a => fst (check_call k v p) = Ok true <-> exists fx, v_fx v = Some fx /\ nle fx (nplus t a) = true
  | MaxSeconds s o =>
      make_max_seconds s o = Ok k -> (forall t, v_start v = Some t -> ~ (t == 0)%Q) ->
      (forall m, s = Some m -> ~ (m == 0)%Q -> (fst (check_call k v p) = Ok true <-> (m <= session_time v)%Q)) /\
      (forall m, o = Some m -> ~ (m == 0)%Q -> (fst (check_call k v p) = Ok true <-> (m <= session_time v + v_used v)%Q))
  | KillsAfterConvergence _ _ => True
  end.
Proof.
  destruct k as [n|n|n|n|t a|s o|nk nc]; cbn; auto.
  1-4: unfold geZ; split; [intros [= H]; apply Z.leb_le in H; lia| intro H; f_equal; apply Z.leb_le; lia].
  - destruct (v_fx v) as [fx|]; split.
    + intros [= H]. eauto.
    + intros [fx0 [[= ->] H]]. congruence.
    + discriminate.
    + intros [fx [H _]]. discriminate.
  - intros Hm Hs. unfold make_max_seconds in Hm. destruct (xorb (truthy s) (truthy o)) eqn:Ex; [|discriminate].
    assert (Hel : elapsed v = session_time v).
    { unfold elapsed, session_time, truthy. destruct (v_start v) as [t|]; [|reflexivity].
      destruct (Qeq_bool t 0) eqn:E; [|reflexivity]. apply Qeq_bool_iff in E. destruct (Hs t eq_refl E). }
    assert (Htr : forall m, ~ (m == 0)%Q -> truthy (Some m) = true).
    { intros m Hn. cbn. destruct (Qeq_bool m 0) eqn:E; [apply Qeq_bool_iff in E; contradiction| reflexivity]. }
    unfold call_max_seconds. split; intros m -> Hn; rewrite (Htr m Hn) in *; rewrite Hel.
    + destruct (truthy o); [discriminate|]. split; [intros [= H]; apply Qle_bool_iff, H| intro H; f_equal; apply Qle_bool_iff, H].
    + split; [intros [= H]; apply Qle_bool_iff, H| intro H; f_equal; apply Qle_bool_iff, H].
Qed.
