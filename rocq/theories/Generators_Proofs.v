(** * Lemmas about the generators *)
From Coq Require Import Lqa.
From Verif Require Import Prelude Prelude_Proofs Helpers_Spec Helpers_Proofs Generators_Model Generators_Spec.

Lemma checked_spec l bs : checked l = Ok bs -> l = map (fun b => (Fin (fst b), Fin (snd b))) bs /\ ordered_bounds bs.
Proof.
  unfold checked. intro H. assert (V : is_bounds_valid l true = Ok true) by (destruct (valid_cases l true) as [E|E]; [exact E| rewrite E in H; discriminate]).
  rewrite V in H. injection H as <-. apply valid_iff in V. induction V as [|b l [p [q [-> Hlt]]] _ [IH1 IH2]]; cbn; [split; [reflexivity| constructor]|].
  split; [f_equal; exact IH1| constructor; [exact Hlt| exact IH2]].
Qed.
Lemma uniform_within bs : ordered_bounds bs -> forall u, unit_draws u -> within bs (uniform bs u).
Proof.
  induction 1 as [|b bs Hb _ IH]; intros u Hu; cbn; constructor; [|apply IH; intro j; apply Hu]. destruct (Hu 0%nat) as [U1 U2]. split.
  - assert (0 <= (snd b - fst b) * u 0%nat)%Q by (apply Qmult_le_0_compat; lra). lra.
  - assert ((snd b - fst b) * u 0%nat <= (snd b - fst b) * 1)%Q by (rewrite (Qmult_comm _ (u 0%nat)), (Qmult_comm _ 1%Q); apply Qmult_le_compat_r; lra). lra.
Qed.
Lemma uniform_length bs : forall u, length (uniform bs u) = length bs.
Proof. induction bs as [|b bs IH]; intro u; cbn; [reflexivity| f_equal; apply IH]. Qed.
Lemma within_length bs x : within bs x -> length x = length bs.
Proof. induction 1; cbn; congruence. Qed.

(** ** Perturbation *)
Lemma perturb_within draw : interval_draws draw -> forall bs loc scale i x, ordered_bounds bs -> length loc = length bs -> perturb i bs loc scale draw = Ok x -> within bs x.
Proof.
  intros Hd. induction bs as [|b bs IH]; intros loc scale i x Hb Hl H; cbn [perturb] in H.
  - injection H as <-. constructor.
  - destruct loc as [|mu loc]; [discriminate|]. destruct scale as [|sigma scale]; [discriminate|]. inversion Hb as [|? ? Hb1 Hb2]; subst.
    destruct (truncnorm _ _ _ _ _) as [p|] eqn:E; [|discriminate]. destruct (perturb (S i) bs loc scale draw) as [v|] eqn:Ev; [|discriminate]. injection H as <-.
    constructor; [|eapply IH; eauto]. unfold truncnorm in E. destruct (Qcompare sigma 0) eqn:Es; [| discriminate|].
    + destruct (_ && _) eqn:Eb; [|discriminate]. injection E as <-. apply andb_true_iff in Eb as [E1 E2]. apply negb_true_iff in E1, E2. apply Qle_bool_false_lt in E1, E2. lra.
    + injection E as <-. apply Qgt_alt in Es. set (lo := ((fst b - mu) / sigma)%Q). set (hi := ((snd b - mu) / sigma)%Q).
      assert (L : (lo <= hi)%Q) by (unfold lo, hi; apply Qmult_le_compat_r; [lra| apply Qlt_le_weak, Qinv_lt_0_compat; exact Es]).
      destruct (Hd i lo hi L) as [D1 D2]. set (z := draw i lo hi) in *.
      assert (Q1 : (sigma * lo == fst b - mu)%Q) by (unfold lo; field; lra). assert (Q2 : (sigma * hi == snd b - mu)%Q) by (unfold hi; field; lra).
      assert (M1 : (sigma * lo <= sigma * z)%Q) by (rewrite !(Qmult_comm sigma); apply Qmult_le_compat_r; lra).
      assert (M2 : (sigma * z <= sigma * hi)%Q) by (rewrite !(Qmult_comm sigma); apply Qmult_le_compat_r; lra). lra.
Qed.

(** ** Exploit and explore *)
Lemma mix_within bs : forall x y a, (0 <= a <= 1)%Q -> within bs x -> within bs y -> within bs (mix a x y).
Proof.
  induction bs as [|b bs IH]; intros x y a Ha Hx Hy; inversion Hx as [|? p ? x' [X1 X2] Hx']; subst; inversion Hy as [|? q ? y' [Y1 Y2] Hy']; subst; cbn; constructor; [|apply IH; auto].
  assert (a * fst b <= a * p)%Q by (rewrite !(Qmult_comm a); apply Qmult_le_compat_r; lra). assert (a * p <= a * snd b)%Q by (rewrite !(Qmult_comm a); apply Qmult_le_compat_r; lra).
  assert ((1 - a) * fst b <= (1 - a) * q)%Q by (rewrite !(Qmult_comm (1 - a)%Q); apply Qmult_le_compat_r; lra). assert ((1 - a) * q <= (1 - a) * snd b)%Q by (rewrite !(Qmult_comm (1 - a)%Q); apply Qmult_le_compat_r; lra).
  lra.
Qed.
Lemma blend_within bs x y a : (0 <= a <= 1)%Q -> within bs x -> within bs y -> exists z, blend a x y = Ok z /\ z = mix a x y /\ within bs z.
Proof.
  intros Ha Hx Hy. unfold blend. rewrite (within_length _ _ Hx), (within_length _ _ Hy), Nat.eqb_refl. eexists. splits; [reflexivity| reflexivity|]. apply mix_within; auto.
Qed.
Lemma f_calls_unit f max : 0 < max -> (0 <= f_calls f max <= 1)%Q.
Proof.
  intro H. unfold f_calls. destruct (Qle_bool 1 _) eqn:E; [lra|]. apply Qle_bool_false_lt in E. split; [|lra].
  apply Qle_shift_div_l; [change 0%Q with (inject_Z 0); rewrite <- Zlt_Qlt; lia|]. change 0%Q with (inject_Z 0). rewrite <- inject_Z_mult, <- Zle_Qle. lia.
Qed.
Lemma f_calls_full f max : 0 < max -> max <= f -> f_calls f max = 1%Q.
Proof.
  intros H1 H2. unfold f_calls. assert (E : Qle_bool 1 (inject_Z (Z.of_nat f) / inject_Z (Z.of_nat max)) = true); [|rewrite E; reflexivity].
  apply Qle_bool_iff, Qle_shift_div_l; [change 0%Q with (inject_Z 0); rewrite <- Zlt_Qlt; lia|]. change 1%Q with (inject_Z 1). rewrite <- inject_Z_mult, <- Zle_Qle. lia.
Qed.

Lemma npmin_fin fs : fs <> [] -> exists m, npmin (map Fin fs) = Fin m /\ In m fs /\ forall f, In f fs -> (m <= f)%Q.
Proof.
  destruct fs as [|a fs]; [congruence|]. intros _. cbn [npmin map]. revert a. induction fs as [|b fs IH]; intro a.
  - exists a. splits; [reflexivity| left; reflexivity| intros f [<-|[]]; lra].
  - cbn [map fold_left]. unfold npmin2 at 2. cbn [nnan orb nlt]. destruct (Qle_bool a b) eqn:E; cbn [negb].
    + apply Qle_bool_iff in E. destruct (IH a) as [m [H1 [H2 H3]]]. exists m. splits; [exact H1| destruct H2; [left| right; right]; auto|].
      intros f [<-|[<-|Hf]]; [apply H3; left; reflexivity| | apply H3; right; exact Hf]. specialize (H3 a (or_introl eq_refl)). lra.
    + apply Qle_bool_false_lt in E. destruct (IH b) as [m [H1 [H2 H3]]]. exists m. splits; [exact H1| right; exact H2|].
      intros f [<-|Hf]; [|apply H3; exact Hf]. specialize (H3 b (or_introl eq_refl)). lra.
Qed.
Lemma npmax_fin fs : fs <> [] -> exists m, npmax (map Fin fs) = Fin m /\ In m fs /\ forall f, In f fs -> (f <= m)%Q.
Proof.
  destruct fs as [|a fs]; [congruence|]. intros _. cbn [npmax map]. revert a. induction fs as [|b fs IH]; intro a.
  - exists a. splits; [reflexivity| left; reflexivity| intros f [<-|[]]; lra].
  - cbn [map fold_left]. unfold npmax2 at 2. cbn [nnan orb nlt]. destruct (Qle_bool b a) eqn:E; cbn [negb].
    + apply Qle_bool_iff in E. destruct (IH a) as [m [H1 [H2 H3]]]. exists m. splits; [exact H1| destruct H2; [left| right; right]; auto|].
      intros f [<-|[<-|Hf]]; [apply H3; left; reflexivity| | apply H3; right; exact Hf]. specialize (H3 a (or_introl eq_refl)). lra.
    + apply Qle_bool_false_lt in E. destruct (IH b) as [m [H1 [H2 H3]]]. exists m. splits; [exact H1| right; exact H2|].
      intros f [<-|Hf]; [|apply H3; exact Hf]. specialize (H3 b (or_introl eq_refl)). lra.
Qed.
Fixpoint qsum (l : list Q) : Q := match l with [] => 0%Q | a :: l' => (a + qsum l')%Q end.
Lemma npsum_fin fs : exists s, npsum (map Fin fs) = Fin s /\ (s == qsum fs)%Q.
Proof.
  unfold npsum. assert (G : forall a, exists s, fold_left nplus (map Fin fs) (Fin a) = Fin s /\ (s == a + qsum fs)%Q).
  { induction fs as [|b fs IH]; intro a; cbn [map fold_left qsum]; [exists a; split; [reflexivity| ring]|]. destruct (IH (a + b)%Q) as [s [H1 H2]]. exists s. split; [exact H1|]. rewrite H2. ring. }
  destruct (G 0%Q) as [s [H1 H2]]. exists s. split; [exact H1|]. rewrite H2. ring.
Qed.
Lemma qsum_nonneg l : (forall x, In x l -> (0 <= x)%Q) -> (0 <= qsum l)%Q.
Proof. induction l as [|a l IH]; intro H; cbn; [lra|]. specialize (IH (fun x Hx => H x (or_intror Hx))). specialize (H a (or_introl eq_refl)). lra. Qed.
Lemma qsum_pos l : (forall x, In x l -> (0 <= x)%Q) -> (exists x, In x l /\ ~ (x == 0)%Q) -> (0 < qsum l)%Q.
Proof.
  induction l as [|a l IH]; intros H [x [Hx N]]; [destruct Hx|]. cbn. pose proof (qsum_nonneg l (fun y Hy => H y (or_intror Hy))) as P. pose proof (H a (or_introl eq_refl)) as Pa. destruct Hx as [->|Hx].
  - assert (0 < x)%Q; [|lra]. destruct (Qlt_le_dec 0 x) as [|L]; [assumption|]. destruct N. lra.
  - assert (0 < qsum l)%Q; [|lra]. apply IH; [intros y Hy; apply H; right; exact Hy| eauto].
Qed.
Lemma qsum_div l s : (qsum (map (fun x => x / s) l) == qsum l / s)%Q.
Proof. induction l as [|a l IH]; cbn; [reflexivity|]. rewrite IH. unfold Qdiv. ring. Qed.
Lemma pick_spec ps : forall r acc, (acc <= r)%Q -> (r < acc + qsum ps)%Q -> (forall p, In p ps -> 0 <= p)%Q ->
  exists p, nth_error ps (pick (map Fin ps) r acc) = Some p /\ (0 < p)%Q.
Proof.
  induction ps as [|p ps IH]; intros r acc H1 H2 H3; cbn [qsum] in H2; [lra|]. cbn [map pick]. destruct (Qle_bool (acc + p) r) eqn:E.
  - apply Qle_bool_iff in E. cbn [nth_error]. apply IH; [exact E| lra| intros q Hq; apply H3; right; exact Hq].
  - apply Qle_bool_false_lt in E. exists p. split; [reflexivity| lra].
Qed.
Lemma no_nan_fin ps : existsb nnan (map Fin ps) = false.
Proof. induction ps; cbn; auto. Qed.

(** With finite values the selection succeeds, and not with the worst. *)
Lemma roulette fs r nan_pick : fs <> [] -> (0 <= r < 1)%Q ->
  let f_track := map Fin fs in
  let shift := map (fun f => nminus f (npmin f_track)) f_track in
  let revert := map (fun s => nminus (npmax shift) s) shift in
  let prob := map (fun x => npdiv x (npsum revert)) revert in
  (forallb (fun x => neq x (Fin 0)) revert = true /\ forall f g, In f fs -> In g fs -> f == g)%Q \/
  (forallb (fun x => neq x (Fin 0)) revert = false /\ exists i f g, choice prob r nan_pick = Ok i /\ nth_error fs i = Some f /\ In g fs /\ (f < g)%Q).
Proof.
  intros Hne Hr. cbv zeta. destruct (npmin_fin fs Hne) as [m [Em [Hm Lm]]]. rewrite Em.
  assert (E1 : map (fun f => nminus f (Fin m)) (map Fin fs) = map Fin (map (fun f => f + - m)%Q fs)) by (rewrite !map_map; apply map_ext; reflexivity). rewrite E1.
  assert (Hne2 : map (fun f => f + - m)%Q fs <> []) by (destruct fs; [congruence| discriminate]).
  destruct (npmax_fin _ Hne2) as [M [EM [HM LM]]]. rewrite EM.
  assert (E2 : map (fun s => nminus (Fin M) s) (map Fin (map (fun f => f + - m)%Q fs)) = map Fin (map (fun f => M + - (f + - m))%Q fs)) by (rewrite !map_map; apply map_ext; reflexivity). rewrite E2.
  set (rev := map (fun f => M + - (f + - m))%Q fs).
  apply in_map_iff in HM as [g [Eg Hg]].
  assert (Lg : forall f, In f fs -> (f <= g)%Q). { intros f Hf. specialize (LM (f + - m)%Q (in_map _ _ _ Hf)). subst M. lra. }
  destruct (npsum_fin rev) as [s [Es Hs]]. rewrite Es.
  assert (Hrev : forall x, In x rev -> (0 <= x)%Q). { intros x Hx. apply in_map_iff in Hx as [f [<- Hf]]. specialize (Lg f Hf). subst M. lra. }
  destruct (forallb (fun x => neq x (Fin 0)) (map Fin rev)) eqn:Ef.
  - left. split; [reflexivity|]. assert (A : forall f, In f fs -> (f == g)%Q).
    { intros f Hf. rewrite forallb_forall in Ef. specialize (Ef (Fin (M + - (f + - m))%Q)). specialize (Ef (in_map Fin _ _ (in_map _ _ _ Hf))).
      unfold neq in Ef. apply andb_true_iff in Ef as [F1 F2]. cbn in F1, F2. apply Qle_bool_iff in F1, F2. subst M. lra. }
    intros f h Hf Hh. rewrite (A f Hf), (A h Hh). reflexivity.
  - right. split; [reflexivity|].
    assert (Hpos : exists x, In x rev /\ ~ (x == 0)%Q).
    { apply not_true_iff_false in Ef. destruct (Exists_dec (fun x => ~ (x == 0)%Q) rev) as [D|D].
      - intro x. destruct (Qeq_dec x 0); [right; tauto| left; assumption].
      - apply Exists_exists in D. exact D.
      - exfalso. apply Ef. apply forallb_forall. intros x Hx. apply in_map_iff in Hx as [y [<- Hy]]. destruct (Qeq_dec y 0) as [Z|Z]; [|destruct D; apply Exists_exists; eauto].
        unfold neq. cbn. apply andb_true_iff. split; apply Qle_bool_iff; lra. }
    assert (Sp : (0 < s)%Q) by (rewrite Hs; apply qsum_pos; auto).
    assert (E3 : map (fun x => npdiv x (Fin s)) (map Fin rev) = map Fin (map (fun x => x / s)%Q rev)) by (rewrite !map_map; apply map_ext; reflexivity). rewrite E3.
    unfold choice. rewrite no_nan_fin. destruct (pick_spec (map (fun x => x / s)%Q rev) r 0) as [p [P1 P2]]; [lra| | |].
    + rewrite qsum_div, <- Hs. setoid_replace (0 + s / s)%Q with 1%Q by (field; lra). lra.
    + intros p Hp. apply in_map_iff in Hp as [x [<- Hx]]. apply Qle_shift_div_l; [exact Sp|]. specialize (Hrev x Hx). lra.
    + set (i := pick _ r 0) in *. unfold rev in P1. rewrite map_map, nth_error_map in P1. destruct (nth_error fs i) as [f|] eqn:Efi; [|discriminate]. cbn in P1. injection P1 as <-.
      exists i, f, g. splits; auto. assert (0 < M + - (f + - m))%Q; [|subst M; lra].
      destruct (Qlt_le_dec 0 (M + - (f + - m))) as [|L]; [assumption|]. exfalso. apply (Qlt_not_le _ _ P2). apply Qle_shift_div_r; lra.
Qed.
Lemma find_best_nth l : numbered l -> forall i b, nth_error l i = Some b -> find_best i l = Some b.
Proof.
  intro N. assert (G : forall l k, (forall i b, nth_error l i = Some b -> b_id b = k + i) -> forall i b, nth_error l i = Some b -> find_best (k + i) l = Some b).
  { clear. induction l as [|a l IH]; intros k H i b Hi; [destruct i; discriminate|]. cbn [find_best find]. unfold find_best in *. cbn [find]. destruct i as [|i].
    - cbn in Hi. injection Hi as ->. rewrite (H 0 b eq_refl). rewrite Nat.eqb_refl. reflexivity.
    - rewrite (H 0 a eq_refl). destruct (Nat.eqb_spec (k + 0) (k + S i)); [lia|]. replace (k + S i) with (S k + i) by lia. apply IH; [|exact Hi]. intros j c Hj. rewrite (H (S j) c Hj). lia. }
  intros i b. exact (G l 0 N i b).
Qed.

(** An infinite value makes every probability NaN. *)
Lemma npsum_nan l : In NaN l -> npsum l = NaN.
Proof.
  unfold npsum. generalize (Fin 0). induction l as [|a l IH]; intros s H; [destruct H|]. cbn [fold_left]. destruct H as [->|H]; [|apply IH; exact H].
  assert (nplus s NaN = NaN) as -> by (destruct s; reflexivity). clear. induction l as [|b l IH]; [reflexivity|]. cbn. exact IH.
Qed.
Lemma npmax_inf l : In PInf l -> npmax l = NaN \/ npmax l = PInf.
Proof.
  assert (G : forall l a, (a = NaN \/ a = PInf) \/ In PInf l -> fold_left npmax2 l a = NaN \/ fold_left npmax2 l a = PInf).
  { clear. induction l as [|b l IH]; intros a H; cbn [fold_left]; [destruct H as [H|[]]; exact H|]. apply IH. destruct H as [H|[->|H]]; [left| left| right; exact H].
    - destruct H as [-> | ->]; [left; reflexivity|]. destruct b; unfold npmax2; cbn; auto.
    - destruct a; unfold npmax2; cbn; auto. }
  destruct l as [|a l]; [intros []|]. cbn [npmax]. intros [->|H]; apply G; auto.
Qed.
Lemma infinite_track fs : In PInf fs ->
  let shift := map (fun f => nminus f (npmin fs)) fs in
  let revert := map (fun s => nminus (npmax shift) s) shift in
  let prob := map (fun x => npdiv x (npsum revert)) revert in
  forallb (fun x => neq x (Fin 0)) revert = false /\ existsb nnan prob = true.
Proof.
  intros H. cbv zeta. set (shift := map (fun f => nminus f (npmin fs)) fs).
  assert (Hs : In (nminus PInf (npmin fs)) shift) by (apply in_map with (f := fun f => nminus f (npmin fs)); exact H).
  set (revert := map (fun s => nminus (npmax shift) s) shift).
  assert (Hr : In NaN revert).
  { assert (E : nminus (npmax shift) (nminus PInf (npmin fs)) = NaN).
    { assert (C : nminus PInf (npmin fs) = NaN \/ nminus PInf (npmin fs) = PInf) by (destruct (npmin fs); cbn; auto).
      destruct C as [C|C]; rewrite C in *; [destruct (npmax shift); reflexivity|]. destruct (npmax_inf shift Hs) as [-> | ->]; reflexivity. }
    rewrite <- E. apply in_map with (f := fun s => nminus (npmax shift) s). exact Hs. }
  rewrite (npsum_nan revert Hr). split.
  - apply not_true_iff_false. intro F. rewrite forallb_forall in F. specialize (F NaN Hr). discriminate.
  - apply existsb_exists. exists NaN. split; [|reflexivity]. change NaN with (npdiv NaN NaN) at 1. apply in_map with (f := fun x => npdiv x NaN). exact Hr.
Qed.

(** ** Basin hopping *)
Lemma jump_near step x : (0 <= step)%Q -> forall u, unit_draws u -> near step (jump step x u) x.
Proof.
  intro Hs. induction x as [|p x IH]; intros u Hu; cbn; constructor; [|apply IH; intro j; apply Hu]. destruct (Hu 0%nat) as [U1 U2]. apply Qabs_Qle_condition.
  assert (0 <= (step + step) * u 0%nat)%Q by (apply Qmult_le_0_compat; lra).
  assert ((step + step) * u 0%nat <= (step + step) * 1)%Q by (rewrite (Qmult_comm _ (u 0%nat)), (Qmult_comm _ 1%Q); apply Qmult_le_compat_r; lra). split; lra.
Qed.
Lemma find_best_in i l b : find_best i l = Some b -> In b l.
Proof. intro H. apply find_some in H as [H _]. exact H. Qed.
