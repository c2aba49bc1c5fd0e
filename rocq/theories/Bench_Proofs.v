(** * Lemmas about the benchmark functions *)
From Coq Require Import Ratan.
From Verif Require Import Bench_Model Bench_Spec.
Local Open Scope R_scope.

(** ** Sums and products *)
Lemma sum_app a b : sum (a ++ b) = sum a + sum b.
Proof. unfold sum. induction a as [|v a IH]; cbn; [lra | rewrite IH; lra]. Qed.
Lemma sum_nonneg l : Forall (fun v => 0 <= v) l -> 0 <= sum l.
Proof. unfold sum. induction 1; cbn; lra. Qed.
Lemma sum_map_nonneg {A} (f : A -> R) l : (forall v, 0 <= f v) -> 0 <= sum (map f l).
Proof. intro H. apply sum_nonneg, Forall_forall. intros y Hy. apply in_map_iff in Hy as [v [<- _]]. apply H. Qed.
Lemma sum_map_ge {A} (f : A -> R) m l : (forall v, In v l -> m <= f v) -> m * INR (length l) <= sum (map f l).
Proof.
  induction l as [|v l IH]; intro H; [cbn; lra|]. change (length (v :: l)) with (S (length l)). rewrite S_INR. cbn [map sum fold_right].
  assert (A1 := H v (or_introl eq_refl)). assert (A2 := IH (fun w Hw => H w (or_intror Hw))). unfold sum in *. lra.
Qed.
Lemma sum_map_le {A} (f : A -> R) m l : (forall v, In v l -> f v <= m) -> sum (map f l) <= m * INR (length l).
Proof.
  induction l as [|v l IH]; intro H; [cbn; lra|]. change (length (v :: l)) with (S (length l)). rewrite S_INR. cbn [map sum fold_right].
  assert (A1 := H v (or_introl eq_refl)). assert (A2 := IH (fun w Hw => H w (or_intror Hw))). unfold sum in *. lra.
Qed.
Lemma sum_repeat v n : sum (repeat v n) = v * INR n.
Proof. induction n as [|n IH]; [cbn; lra|]. rewrite S_INR. cbn [repeat sum fold_right]. unfold sum in IH. rewrite IH. lra. Qed.
Lemma map_repeat' {A B} (f : A -> B) v n : map f (repeat v n) = repeat (f v) n.
Proof. induction n; cbn; congruence. Qed.
Lemma sum_map_repeat {A} (f : A -> R) v n : sum (map f (repeat v n)) = f v * INR n.
Proof. rewrite map_repeat'. apply sum_repeat. Qed.
Lemma prod_repeat v n : prod (repeat v n) = v ^ n.
Proof. unfold prod. induction n as [|n IH]; cbn; [reflexivity | rewrite IH; reflexivity]. Qed.
Lemma prod_abs_le {A} (f : A -> R) m l : 0 <= m -> (forall v, In v l -> Rabs (f v) <= m) -> Rabs (prod (map f l)) <= m ^ length l.
Proof.
  intros Hm. unfold prod. induction l as [|v l IH]; intro H; cbn; [rewrite Rabs_R1; lra|]. rewrite Rabs_mult. apply Rmult_le_compat; try apply Rabs_pos.
  - apply H. left. reflexivity.
  - apply IH. intros w Hw. apply H. right. exact Hw.
Qed.
Lemma repeat_in {A} (a b : A) n : In b (repeat a n) -> b = a.
Proof. apply repeat_spec. Qed.
Lemma arange_length n : length (arange n) = n.
Proof. unfold arange. rewrite map_length, seq_length. reflexivity. Qed.
Lemma arange_in n i : In i (arange n) -> 1 <= i <= INR n.
Proof.
  unfold arange. intro H. apply in_map_iff in H as [k [<- Hk]]. apply in_seq in Hk. change 1 with (INR 1). split; apply le_INR; lia.
Qed.
Lemma map2_repeat {A B C} (f : A -> B -> C) v (l : list B) : map2 f (repeat v (length l)) l = map (f v) l.
Proof. unfold map2. induction l; cbn; [reflexivity | rewrite IHl; reflexivity]. Qed.
Lemma map2_in {A B C} (f : A -> B -> C) a b y : In y (map2 f a b) -> exists u v, In u a /\ In v b /\ y = f u v.
Proof.
  unfold map2. intro H. apply in_map_iff in H as [[u v] [<- H]]. exists u, v. split; [eapply in_combine_l; eauto|]. split; [eapply in_combine_r; eauto | reflexivity].
Qed.
Lemma map2_length {A B C} (f : A -> B -> C) a b : length (map2 f a b) = Nat.min (length a) (length b).
Proof. unfold map2. rewrite map_length. apply combine_length. Qed.
Lemma map2_map {A B C} (f : A -> B -> C) (g : A -> B) l : map2 f l (map g l) = map (fun v => f v (g v)) l.
Proof. unfold map2. induction l; cbn; [reflexivity | rewrite IHl; reflexivity]. Qed.
Lemma map2_map_l {A B C} (f : B -> A -> C) (g : A -> B) l : map2 f (map g l) l = map (fun v => f (g v) v) l.
Proof. unfold map2. induction l; cbn; [reflexivity | rewrite IHl; reflexivity]. Qed.
Lemma sum_zero l : Forall (fun v => v = 0) l -> sum l = 0.
Proof. unfold sum. induction 1; cbn; lra. Qed.
Lemma within_repeat lo hi v n : lo <= v <= hi -> within (repeat (lo, hi) n) (repeat v n).
Proof. intro H. unfold within. induction n; cbn; constructor; auto. Qed.
Lemma within_all lo hi x n : length x = n -> (forall v, In v x -> lo <= v <= hi) -> within (repeat (lo, hi) n) x.
Proof.
  intros <- H. unfold within. induction x as [|v x IH]; cbn; constructor; [apply H; left; reflexivity | apply IH; intros w Hw; apply H; right; exact Hw].
Qed.
Lemma within_inv lo hi x n : within (repeat (lo, hi) n) x -> length x = n /\ forall v, In v x -> lo <= v <= hi.
Proof.
  unfold within. intro H. split; [rewrite <- (repeat_length (lo, hi) n); induction H; cbn; congruence|]. revert n H. induction x as [|w x IH]; intros n H v Hv; [contradiction|].
  destruct n as [|n]; cbn in H; inversion H; subst. destruct Hv as [<-|Hv]; eauto.
Qed.
Lemma mean_le {A} (f : A -> R) m l d : length l = d -> (0 < d)%nat -> (forall v, In v l -> f v <= m) -> 1 / INR d * sum (map f l) <= m.
Proof.
  intros L Hd H. apply sum_map_le in H. rewrite L in H. apply lt_0_INR in Hd. apply (Rmult_le_compat_l (1 / INR d)) in H.
  - replace (1 / INR d * (m * INR d)) with m in H by (field; lra). exact H.
  - apply Rlt_le. apply Rdiv_lt_0_compat; lra.
Qed.
Lemma mean_ge {A} (f : A -> R) m l d : length l = d -> (0 < d)%nat -> (forall v, In v l -> m <= f v) -> m <= 1 / INR d * sum (map f l).
Proof.
  intros L Hd H. apply sum_map_ge in H. rewrite L in H. apply lt_0_INR in Hd. apply (Rmult_le_compat_l (1 / INR d)) in H.
  - replace (1 / INR d * (m * INR d)) with m in H by (field; lra). exact H.
  - apply Rlt_le. apply Rdiv_lt_0_compat; lra.
Qed.

(** ** Numbers *)
Lemma PI_bounds : 31415926535 / 10 ^ 10 < PI < 31415926536 / 10 ^ 10.
Proof.
  assert (H := PI_2_3_7_ineq 5). unfold PI_2_3_7_tg, tg_alt, Ratan_seq in H. cbv [sum_f_R0 Nat.mul Nat.add] in H. cbn [pow INR] in H. split; lra.
Qed.
Lemma pow_even x : 0 <= x ^ 2.
Proof. rewrite <- Rsqr_pow2. apply Rle_0_sqr. Qed.
Lemma cos_abs v : Rabs (cos v) <= 1.
Proof. apply Rabs_le. apply COS_bound. Qed.
Lemma sin_abs v : Rabs (sin v) <= 1.
Proof. apply Rabs_le. apply SIN_bound. Qed.
Lemma exp_mono x y : x <= y -> exp x <= exp y.
Proof. intros [H | ->]; [left; apply exp_increasing; exact H | right; reflexivity]. Qed.
(** Taylor bounds of the cosine. *)
Lemma cos_ge x : 1 - x ^ 2 / 2 <= cos x.
Proof.
  destruct (Rle_dec (x ^ 2) 4) as [H|H].
  - assert (B : -2 <= x <= 2) by (split; nra). destruct (pre_cos_bound x 0 (proj1 B) (proj2 B)) as [H1 _].
    unfold cos_approx, cos_term in H1. cbn in H1. lra.
  - assert (A := COS_bound x). lra.
Qed.
Lemma cos_le x : -2 <= x <= 2 -> cos x <= 1 - x ^ 2 / 2 + x ^ 4 / 24.
Proof. intros [B1 B2]. destruct (pre_cos_bound x 0 B1 B2) as [_ H1]. unfold cos_approx, cos_term in H1. cbn in H1. cbn. lra. Qed.
Lemma cos_ge4 x : -2 <= x <= 2 -> 1 - x ^ 2 / 2 + x ^ 4 / 24 - x ^ 6 / 720 <= cos x.
Proof. intros [B1 B2]. destruct (pre_cos_bound x 1 B1 B2) as [H1 _]. unfold cos_approx, cos_term in H1. cbn in H1. cbn. lra. Qed.
Lemma sin_ge x : 0 <= x <= 4 -> x - x ^ 3 / 6 <= sin x.
Proof. intros [B1 B2]. destruct (pre_sin_bound x 0 B1 B2) as [H1 _]. unfold sin_approx, sin_term in H1. cbn in H1. cbn. lra. Qed.
Lemma sin_le x : 0 <= x <= 4 -> sin x <= x - x ^ 3 / 6 + x ^ 5 / 120.
Proof. intros [B1 B2]. destruct (pre_sin_bound x 0 B1 B2) as [_ H1]. unfold sin_approx, sin_term in H1. cbn in H1. cbn. lra. Qed.

(** ** The functions with an exact minimum *)
Lemma ackley_min d a b c : (0 < d)%nat -> 0 <= a -> 0 <= b -> attains_minimum (ackley d a b c).
Proof.
  intros Hd Ha Hb. unfold attains_minimum, ackley; cbn [dims call min_x min_fx bounds]. repeat split.
  - apply repeat_length.
  - apply within_repeat. lra.
  - rewrite !sum_map_repeat. rewrite Rmult_0_r, cos_0. apply lt_0_INR in Hd. replace (1 / INR d * (0 ^ 2 * INR d)) with 0 by (field; lra).
    replace (1 / INR d * (1 * INR d)) with 1 by (field; lra). rewrite sqrt_0, Rmult_0_r, exp_0. lra.
  - intros x L. assert (C : exp (1 / INR d * sum (map (fun v => cos (c * v)) x)) <= exp 1).
    { apply exp_mono. apply mean_le; auto. intros v _. apply COS_bound. }
    assert (E : exp (- b * sqrt (1 / INR d * sum (map (fun v => v ^ 2) x))) <= 1).
    { apply Rle_trans with (exp 0); [apply exp_mono | rewrite exp_0; lra]. assert (S := sqrt_pos (1 / INR d * sum (map (fun v => v ^ 2) x))). assert (Y := Rmult_le_pos _ _ Hb S). lra. }
    assert (Y := Rmult_le_compat_l a _ _ Ha E). lra.
Qed.
Lemma alpine01_min d : attains_minimum (alpine01 d).
Proof.
  unfold attains_minimum, alpine01; cbn [dims call min_x min_fx bounds]. repeat split.
  - apply repeat_length.
  - apply within_repeat. lra.
  - rewrite sum_map_repeat. rewrite !Rmult_0_r, Rplus_0_r, Rabs_R0. lra.
  - intros x _. apply sum_map_nonneg. intro v. apply Rabs_pos.
Qed.

Lemma dec_g_range a x : 0 < a < 1 -> 0 <= dec_g a x <= 1.
Proof.
  intro Ha. unfold dec_g. destruct (Rle_dec 0 x) as [H0|]; [|lra].
  destruct (Rle_dec x (8 / 10 * a)) as [H1|H1].
  { assert (x / a <= 8 / 10) by (apply (Rmult_le_reg_r a); [lra|]; replace (x / a * a) with x by (field; lra); lra).
    assert (0 <= x / a) by (apply (Rmult_le_reg_r a); [lra|]; replace (x / a * a) with x by (field; lra); lra). lra. }
  destruct (Rle_dec x a) as [H2|H2].
  { replace (5 * x / a) with (5 * (x / a)) by (field; lra).
    assert (x / a <= 1) by (apply (Rmult_le_reg_r a); [lra|]; replace (x / a * a) with x by (field; lra); lra).
    assert (8 / 10 <= x / a) by (apply (Rmult_le_reg_r a); [lra|]; replace (x / a * a) with x by (field; lra); lra). lra. }
  destruct (Rle_dec x ((1 + 4 * a) / 5)) as [H3|H3].
  { replace (5 * (x - a) / (a - 1)) with (- (5 * ((x - a) / (1 - a)))) by (field; lra).
    assert (0 <= (x - a) / (1 - a)) by (apply (Rmult_le_reg_r (1 - a)); [lra|]; replace ((x - a) / (1 - a) * (1 - a)) with (x - a) by (field; lra); lra).
    assert ((x - a) / (1 - a) <= / 5) by (apply (Rmult_le_reg_r (1 - a)); [lra|]; replace ((x - a) / (1 - a) * (1 - a)) with (x - a) by (field; lra); lra). lra. }
  destruct (Rle_dec x 1) as [H4|H4]; [|lra].
  replace ((x - 1) / (1 - a)) with (- ((1 - x) / (1 - a))) by (field; lra).
  assert (0 <= (1 - x) / (1 - a)) by (apply (Rmult_le_reg_r (1 - a)); [lra|]; replace ((1 - x) / (1 - a) * (1 - a)) with (1 - x) by (field; lra); lra).
  assert ((1 - x) / (1 - a) <= 8 / 10) by (apply (Rmult_le_reg_r (1 - a)); [lra|]; replace ((1 - x) / (1 - a) * (1 - a)) with (1 - x) by (field; lra); lra). lra.
Qed.
Lemma dec_g_top a : 0 < a < 1 -> dec_g a a = 1.
Proof.
  intro Ha. unfold dec_g. destruct (Rle_dec 0 a); [|lra]. destruct (Rle_dec a (8 / 10 * a)); [lra|]. destruct (Rle_dec a a); [|lra]. field. lra.
Qed.
Lemma power_1 b : power 1 b = 1.
Proof. unfold power. destruct (Req_EM_T 1 0); [lra|]. unfold Rpower. rewrite ln_1, Rmult_0_r. apply exp_0. Qed.
Lemma power_le x b : 0 <= x <= 1 -> 0 <= b -> power x b <= 1.
Proof.
  intros Hx Hb. unfold power. destruct (Req_EM_T x 0) as [->|N]; [destruct (Req_EM_T b 0); lra|]. unfold Rpower. rewrite <- exp_0. apply exp_mono.
  assert (ln x <= 0) by (rewrite <- ln_1; destruct (Rle_lt_or_eq_dec x 1) as [H|H]; [lra | left; apply ln_increasing; lra | subst; lra]). nra.
Qed.
Lemma deceptive_min d b mins shift : (0 < d)%nat -> length mins = d -> Forall (fun a => 0 < a < 1) mins -> 0 <= b -> attains_minimum (deceptive d b mins shift).
Proof.
  intros Hd L F Hb. rewrite Forall_forall in F. unfold attains_minimum, deceptive; cbn [dims call min_x min_fx bounds]. repeat split.
  - exact L.
  - apply within_all; [exact L|]. intros v Hv. specialize (F v Hv). lra.
  - assert (E : 1 / INR d * sum (map2 dec_g mins mins) = 1).
    { replace (map2 dec_g mins mins) with (repeat 1 d).
      - rewrite sum_repeat. apply lt_0_INR in Hd. field. lra.
      - subst d. clear Hd. unfold map2. induction mins as [|a l IH]; cbn; [reflexivity|]. rewrite dec_g_top by (apply F; left; reflexivity). rewrite IH; [reflexivity|].
        intros v Hv. apply F. right. exact Hv. }
    rewrite E, power_1. destruct shift; lra.
  - intros x Lx. assert (R : 0 <= 1 / INR d * sum (map2 dec_g mins x) <= 1).
    { assert (Lc : length (combine mins x) = d) by (rewrite combine_length; lia). unfold map2. split.
      - apply mean_ge; auto. intros [a v] Hv. apply in_combine_l in Hv. apply dec_g_range. apply F. exact Hv.
      - apply mean_le; auto. intros [a v] Hv. apply in_combine_l in Hv. apply dec_g_range. apply F. exact Hv. }
    assert (P := power_le _ b R Hb). destruct shift; lra.
Qed.

Lemma easom_min shift : attains_minimum (easom shift).
Proof.
  unfold attains_minimum, easom; cbn [dims call min_x min_fx bounds nth]. repeat split.
  - assert (P := PI_bounds). repeat constructor; cbn; lra.
  - rewrite cos_PI. replace (PI - PI) with 0 by lra. replace (- 0 ^ 2 - 0 ^ 2) with 0 by (cbn; lra). rewrite exp_0. destruct shift; lra.
  - intros x _. set (u := nth 0 x 0). set (v := nth 1 x 0). assert (E : 0 < exp (- (u - PI) ^ 2 - (v - PI) ^ 2) <= 1).
    { split; [apply exp_pos|]. rewrite <- exp_0. apply exp_mono. assert (A1 := pow_even (u - PI)). assert (A2 := pow_even (v - PI)). lra. }
    assert (C : Rabs (cos u * cos v) <= 1).
    { rewrite Rabs_mult. replace 1 with (1 * 1) by lra. apply Rmult_le_compat; try apply Rabs_pos; apply cos_abs. }
    assert (C' : cos u * cos v <= 1) by (eapply Rle_trans; [apply Rle_abs | exact C]).
    assert (-1 <= - cos u * cos v * exp (- (u - PI) ^ 2 - (v - PI) ^ 2)) by nra. destruct shift; lra.
Qed.

Lemma griewank_min d : attains_minimum (griewank d).
Proof.
  unfold attains_minimum, griewank; cbn [dims call min_x min_fx bounds]. repeat split.
  - apply repeat_length.
  - apply within_repeat. lra.
  - rewrite sum_map_repeat, repeat_length. rewrite <- (arange_length d) at 2. rewrite map2_repeat.
    replace (map (fun i => cos (0 / sqrt i)) (arange d)) with (repeat 1 d).
    + rewrite prod_repeat, pow1. cbn. lra.
    + rewrite <- (arange_length d) at 1. induction (arange d) as [|i l IH]; cbn; [reflexivity|]. rewrite IH. f_equal. unfold Rdiv. rewrite Rmult_0_l, cos_0. reflexivity.
  - intros x _. assert (S : 0 <= sum (map (fun v => v ^ 2) x)) by (apply sum_map_nonneg; intro; apply pow_even).
    assert (P : Rabs (prod (map2 (fun v i => cos (v / sqrt i)) x (arange (length x)))) <= 1).
    { unfold map2. eapply Rle_trans; [apply (prod_abs_le _ 1); [lra | intros; apply cos_abs]|]. rewrite pow1. lra. }
    assert (prod (map2 (fun v i => cos (v / sqrt i)) x (arange (length x))) <= 1) by (eapply Rle_trans; [apply Rle_abs | exact P]). lra.
Qed.

Lemma combine_same {A} (g : list A) a b : In (a, b) (combine g g) -> a = b.
Proof. induction g as [|v g IH]; cbn; [contradiction|]. intros [H|H]; [congruence | auto]. Qed.
Lemma els_min u p_true lo hi noise eps : (length noise = length u) -> Forall (fun n => n = 0) noise -> Forall (fun p => lo <= p <= hi) p_true ->
  attains_minimum (els u p_true noise lo hi eps).
Proof.
  intros L Z F. unfold attains_minimum, els; cbn [dims call min_x min_fx bounds].
  assert (E : map2 (fun g n => g * (1 + n)) (els_g u p_true) noise = els_g u p_true).
  { assert (Lg : length noise = length (els_g u p_true)) by (unfold els_g; rewrite map_length; exact L). clear L. revert noise Z Lg. unfold map2.
    induction (els_g u p_true) as [|g l IH]; intros [|n ns] Z Lg; try discriminate; [reflexivity|]. inversion Z; subst. cbn. rewrite IH by (auto; cbn in Lg; lia). f_equal. lra. }
  assert (S0 : forall (g : list R) (f : R -> R -> R), (forall v, f v v = 0) -> sum (map2 f g g) = 0).
  { intros g f Hf. apply sum_zero, Forall_forall. intros y Hy. unfold map2 in Hy. apply in_map_iff in Hy as [[a b] [<- Hab]]. cbn.
    apply combine_same in Hab. subst. apply Hf. }
  repeat split.
  - apply within_all; [reflexivity|]. rewrite Forall_forall in F. exact F.
  - rewrite E. rewrite (S0 _ (fun g t => (g - t) ^ 2)) by (intro; cbn; lra). apply sum_zero, Forall_forall. intros y Hy. apply in_map_iff in Hy as [e [<- He]].
    unfold map2 in He. apply in_map_iff in He as [[a b] [<- Hab]]. cbn [fst snd]. apply combine_same in Hab. subst. cbn. lra.
  - intros x _. rewrite E. rewrite (S0 _ (fun g t => (g - t) ^ 2)) by (intro; cbn; lra). apply sum_map_nonneg. intro. apply pow_even.
Qed.

Lemma levy_min d : (0 < d)%nat -> attains_minimum (levy d).
Proof.
  intro Hd. unfold attains_minimum, levy; cbn [dims call min_x min_fx bounds]. repeat split.
  - apply repeat_length.
  - apply within_repeat. lra.
  - cbv zeta. rewrite map_repeat'. replace (levy_w 1) with 1 by (unfold levy_w; field).
    assert (H : hd 0 (repeat 1 d) = 1) by (destruct d; [lia | reflexivity]). assert (T : last (repeat 1 d) 0 = 1).
    { clear H. destruct d as [|d]; [lia|]. clear Hd. induction d as [|d IH]; [reflexivity|]. cbn [repeat] in *. exact IH. }
    rewrite H, T, Rmult_1_r, sin_PI, sum_map_repeat. cbn. lra.
  - intros x _. cbv zeta. assert (A1 := pow_even (sin (PI * hd 0 (map levy_w x)))). set (w := map levy_w x) in *.
    assert (A2 : 0 <= sum (map (fun v => (v - 1) ^ 2 * (1 + 10 * sin (PI * v + 1) ^ 2)) w)).
    { apply sum_map_nonneg. intro v. apply Rmult_le_pos; [apply pow_even|]. assert (X := pow_even (sin (PI * v + 1))). lra. }
    assert (A3 : 0 <= (last w 0 - 1) ^ 2 * (1 + sin (2 * PI * last w 0) ^ 2)).
    { apply Rmult_le_pos; [apply pow_even|]. assert (X := pow_even (sin (2 * PI * last w 0))). lra. }
    lra.
Qed.

Lemma qing_min d : (d <= 1000 * 250)%nat -> attains_minimum (qing d).
Proof.
  intro Hd. unfold attains_minimum, qing; cbn [dims call min_x min_fx bounds]. repeat split.
  - rewrite map_length. apply arange_length.
  - apply within_all; [rewrite map_length; apply arange_length|]. intros v Hv. apply in_map_iff in Hv as [i [<- Hi]]. apply arange_in in Hi.
    assert (0 <= sqrt i) by apply sqrt_pos. assert (INR d <= 250000).
    { apply le_INR in Hd. rewrite mult_INR in Hd. replace (INR 1000) with 1000 in Hd by (rewrite INR_IZR_INZ; reflexivity).
      replace (INR 250) with 250 in Hd by (rewrite INR_IZR_INZ; reflexivity). lra. }
    split; [lra|]. replace 500 with (sqrt (500 * 500)) by (apply sqrt_square; lra). apply sqrt_le_1; lra.
  - rewrite map2_map_l. apply sum_zero, Forall_forall. intros y Hy. apply in_map_iff in Hy as [i [<- Hi]]. apply arange_in in Hi.
    rewrite pow2_sqrt by lra. cbn. lra.
  - intros x _. unfold map2. apply sum_map_nonneg. intro. apply pow_even.
Qed.

Lemma rastrigin_min d : attains_minimum (rastrigin d).
Proof.
  unfold attains_minimum, rastrigin; cbn [dims call min_x min_fx bounds]. repeat split.
  - apply repeat_length.
  - apply within_repeat. lra.
  - rewrite sum_map_repeat, Rmult_0_r, cos_0. cbn. lra.
  - intros x L. assert (-10 * INR (length x) <= sum (map (fun v => v ^ 2 - 10 * cos (2 * PI * v)) x)).
    { apply sum_map_ge. intros v _. assert (A := pow_even v). assert (B := COS_bound (2 * PI * v)). lra. }
    rewrite L in H. lra.
Qed.

Lemma rosenbrock_min d : attains_minimum (rosenbrock d).
Proof.
  unfold attains_minimum, rosenbrock; cbn [dims call min_x min_fx bounds]. repeat split.
  - apply repeat_length.
  - apply within_repeat. lra.
  - induction d as [|[|d] IH]; [reflexivity | reflexivity|]. change (rosen (repeat 1 (S (S d)))) with (100 * (1 - 1 ^ 2) ^ 2 + (1 - 1) ^ 2 + rosen (repeat 1 (S d))).
    rewrite IH. cbn. lra.
  - intros x _. induction x as [|a [|b x] IH]; [cbn; lra | cbn; lra|].
    change (rosen (a :: b :: x)) with (100 * (b - a ^ 2) ^ 2 + (1 - a) ^ 2 + rosen (b :: x)). assert (A := pow_even (b - a ^ 2)). assert (B := pow_even (1 - a)). lra.
Qed.

Lemma stochastic_min d e : length e = d -> Forall (fun r => 0 <= r) e -> attains_minimum (stochastic d e).
Proof.
  intros L F. unfold attains_minimum, stochastic; cbn [dims call min_x min_fx bounds]. repeat split.
  - rewrite map_length. apply arange_length.
  - apply within_all; [rewrite map_length; apply arange_length|]. intros v Hv. apply in_map_iff in Hv as [i [<- Hi]]. apply arange_in in Hi.
    assert (0 < 1 / i) by (apply Rdiv_lt_0_compat; lra). assert (1 / i <= 1); [|lra]. apply (Rmult_le_reg_r i); [lra|]. replace (1 / i * i) with 1 by (field; lra). lra.
  - apply sum_zero, Forall_forall. intros y Hy. unfold map2 in Hy. apply in_map_iff in Hy as [[[r v] i] [<- H]]. cbn [fst snd].
    assert (v = 1 / i) as ->.
    { clear L F. revert e H. generalize (arange d). clear. intros l. induction l as [|j l IH]; intros e H; [destruct e; contradiction|]. destruct e as [|r0 e]; [contradiction|].
      cbn in H. destruct H as [H|H]; [injection H; intros; subst; reflexivity|]. eapply (IH e); eauto. }
    replace (1 / i - 1 / i) with 0 by lra. rewrite Rabs_R0. lra.
  - intros x _. apply sum_nonneg, Forall_forall. intros y Hy. unfold map2 in Hy. apply in_map_iff in Hy as [[[r v] i] [<- H]]. cbn [fst snd].
    apply in_combine_l in H. apply in_combine_l in H. rewrite Forall_forall in F. apply Rmult_le_pos; [apply F; exact H | apply Rabs_pos].
Qed.

Lemma trigonometric_min d : attains_minimum (trigonometric d).
Proof.
  unfold attains_minimum, trigonometric; cbn [dims call min_x min_fx bounds]. repeat split.
  - apply repeat_length.
  - apply within_repeat. lra.
  - rewrite sum_map_repeat. cbv zeta. replace (9 / 10 - 9 / 10) with 0 by lra. replace (0 ^ 2) with 0 by (cbn; lra). rewrite !Rmult_0_r, sin_0. cbn. lra.
  - intros x _. assert (0 <= sum (map (fun v => let core := (v - 9 / 10) ^ 2 in 8 * sin (7 * core) ^ 2 + 6 * sin (14 * core) ^ 2 + core) x)); [|lra].
    apply sum_map_nonneg. intro v. cbv zeta. assert (A := pow_even (v - 9 / 10)). assert (B := pow_even (sin (7 * (v - 9 / 10) ^ 2))). assert (C := pow_even (sin (14 * (v - 9 / 10) ^ 2))). lra.
Qed.

(** ** The functions with rounded minima *)
Lemma small_powers y : 0 <= y <= 2 -> 0 <= y ^ 2 <= 4 /\ 0 <= y ^ 3 <= 8 /\ 0 <= y ^ 4 <= 16.
Proof.
  intros [H0 H2]. repeat split; try (apply pow_le; assumption).
  - replace 4 with (2 ^ 2) by lra. apply pow_incr. lra.
  - replace 8 with (2 ^ 3) by lra. apply pow_incr. lra.
  - replace 16 with (2 ^ 4) by lra. apply pow_incr. lra.
Qed.
(** The tangent at the minimum: the quotient is positive. *)
Lemma schwefel_poly y : 0 <= y <= 2 -> ((51050880621 / 2500000000) + y) ^ 2 * (1 - y ^ 2 / 2 + y ^ 4 / 24) <= 4189829 / 10000.
Proof.
  intro H. destruct (small_powers y H) as [A [B D]].
  assert (Id : 4189829 / 10000 - ((51050880621 / 2500000000) + y) ^ 2 * (1 - y ^ 2 / 2 + y ^ 4 / 24) =
    (y - (9717073322057 / 100000000000000)) ^ 2 * ((101270233119748575560054174882149807543291851948403202267999 / 480000000000000000000000000000000000000000000000000000000) + (102555352094327668801903985532246458428540807 / 6000000000000000000000000000000000000000000) * y + (-1376520516017720591838970551249 / 80000000000000000000000000000) * y ^ 2 + (-2051752298162057 / 1200000000000000) * y ^ 3 + (-1 / 24) * y ^ 4) + ((58717217818609337720678557435531352539066948030943960996360462298891396129979249 / 4800000000000000000000000000000000000000000000000000000000000000000000000000000000000) + (-19988970584638260236364454870214291106431145931526489702057 / 40000000000000000000000000000000000000000000000000000000000000000000000) * y)) by field.
  assert (0 <= (y - (9717073322057 / 100000000000000)) ^ 2 * ((101270233119748575560054174882149807543291851948403202267999 / 480000000000000000000000000000000000000000000000000000000) + (102555352094327668801903985532246458428540807 / 6000000000000000000000000000000000000000000) * y + (-1376520516017720591838970551249 / 80000000000000000000000000000) * y ^ 2 + (-2051752298162057 / 1200000000000000) * y ^ 3 + (-1 / 24) * y ^ 4)).
  { apply Rmult_le_pos; [apply pow_even | lra]. }
  lra.
Qed.
Lemma sin_shift y : sin (y + 13 / 2 * PI) = cos y.
Proof. replace (y + 13 / 2 * PI) with ((PI / 2 + y) + 2 * INR 3 * PI) by (cbn; field). rewrite sin_period. rewrite sin_plus, sin_PI2, cos_PI2. lra. Qed.
Lemma sqrt_between v a b : 0 <= a -> a <= b -> a ^ 2 <= v <= b ^ 2 -> a <= sqrt v <= b.
Proof.
  intros Ha Hab [H1 H2]. assert (0 <= a ^ 2) by apply pow_even. split.
  - rewrite <- (sqrt_pow2 a Ha). apply sqrt_le_1; lra.
  - rewrite <- (sqrt_pow2 b) by lra. apply sqrt_le_1; lra.
Qed.
Lemma schwefel_one v : -500 <= v <= 500 -> v * sin (sqrt (Rabs v)) <= 4189829 / 10000.
Proof.
  intro H. destruct (Rle_dec (Rabs v) 418) as [S|S].
  - assert (A := sin_abs (sqrt (Rabs v))). eapply Rle_trans; [apply Rle_abs|]. rewrite Rabs_mult.
    apply Rle_trans with (418 * 1); [apply Rmult_le_compat; try apply Rabs_pos; assumption | lra].
  - assert (B : 418 < Rabs v <= 500) by (split; [lra | apply Rabs_le; lra]). assert (P := PI_bounds).
    assert (Q : 2044 / 100 <= sqrt (Rabs v) <= 2237 / 100) by (apply sqrt_between; lra).
    set (s := sqrt (Rabs v)) in *. assert (Sq : s ^ 2 = Rabs v) by (apply pow2_sqrt; apply Rabs_pos). clearbody s.
    replace s with ((s - 13 / 2 * PI) + 13 / 2 * PI) at 1 by lra. rewrite sin_shift. set (y := s - 13 / 2 * PI) in *.
    assert (Y : 0 <= y <= 2) by (unfold y; lra). destruct (small_powers y Y) as [Y2 [Y3 Y4]].
    destruct (Rle_dec 0 v) as [V|V].
    + rewrite Rabs_right in Sq by lra. rewrite <- Sq. apply Rle_trans with (s ^ 2 * (1 - y ^ 2 / 2 + y ^ 4 / 24)).
      * apply Rmult_le_compat_l; [apply pow_even | apply cos_le; lra].
      * destruct (Rle_dec 0 (1 - y ^ 2 / 2 + y ^ 4 / 24)) as [N|N].
        -- eapply Rle_trans; [|apply (schwefel_poly y Y)]. apply Rmult_le_compat_r; [exact N|]. apply pow_incr. unfold y in *. lra.
        -- assert (0 <= s ^ 2) by apply pow_even. assert (0 <= s ^ 2 * - (1 - y ^ 2 / 2 + y ^ 4 / 24)) by (apply Rmult_le_pos; lra). lra.
    + rewrite Rabs_left in Sq by lra. replace (v * cos y) with (- v * - cos y) by lra. rewrite <- Sq.
      assert (C : - cos y <= 8 / 10).
      { assert (G := cos_ge4 y ltac:(lra)). assert (Y6 : y ^ 6 = y ^ 2 * y ^ 4) by ring. assert (Z4 : y ^ 4 = y ^ 2 * y ^ 2) by ring.
        assert (Y195 : y ^ 2 <= 3803 / 1000) by (replace (3803 / 1000) with ((195 / 100) ^ 2 + 1 / 2000) by field; assert (y ^ 2 <= (195 / 100) ^ 2) by (apply pow_incr; unfold y in *; lra); lra).
        rewrite Y6, Z4 in G. set (z := y ^ 2) in *. clearbody z. nra. }
      assert (s ^ 2 <= 501) by (rewrite Sq; lra). assert (0 <= s ^ 2) by apply pow_even. destruct (Rle_dec 0 (- cos y)); [|nra].
      apply Rle_trans with (501 * (8 / 10)); [apply Rmult_le_compat; lra | lra].
Qed.
Lemma schwefel_at : 418982887 / 1000000 <= 4209687 / 10000 * sin (sqrt (Rabs (4209687 / 10000))) <= 418982888 / 1000000.
Proof.
  rewrite (Rabs_right (4209687 / 10000)) by lra. assert (P := PI_bounds).
  assert (Q : 205175217801 / 10 ^ 10 <= sqrt (4209687 / 10000) <= 205175217802 / 10 ^ 10) by (apply sqrt_between; lra).
  set (s := sqrt (4209687 / 10000)) in *. clearbody s. replace s with ((s - 13 / 2 * PI) + 13 / 2 * PI) by lra. rewrite sin_shift. set (y := s - 13 / 2 * PI) in *.
  assert (Y : (971695317 / 10000000000) <= y <= (1943390649 / 20000000000)) by (unfold y; lra). clearbody y. assert (G := cos_ge4 y ltac:(lra)). assert (L := cos_le y ltac:(lra)).
  assert (Y2 : (971695317 / 10000000000) ^ 2 <= y ^ 2 <= (1943390649 / 20000000000) ^ 2) by (split; apply pow_incr; lra). assert (Y4 : (971695317 / 10000000000) ^ 4 <= y ^ 4 <= (1943390649 / 20000000000) ^ 4) by (split; apply pow_incr; lra).
  assert (Y6 : y ^ 6 <= (1943390649 / 20000000000) ^ 6) by (apply pow_incr; lra). lra.
Qed.

(** The values of Styblinski-Tang: a square plus a positive quadratic. *)
Lemma styblinski_one v : - (3916616570377142 / 10 ^ 14) <= 1 / 2 * (v ^ 4 - 16 * v ^ 2 + 5 * v).
Proof.
  set (a := (-2903534027771177095118917595509 / 10 ^ 30)). assert (Id : 1 / 2 * (v ^ 4 - 16 * v ^ 2 + 5 * v) + 3916616570377142 / 10 ^ 14 =
    1 / 2 * ((v - a) ^ 2 * (v + a) ^ 2) + 1 / 2 * ((v - a) ^ 2 * (2 * a ^ 2 - 16)) + 1 / 2 * (4 * a ^ 3 - 32 * a + 5) * (v - a)
    + (1 / 2 * (a ^ 4 - 16 * a ^ 2 + 5 * a) + 3916616570377142 / 10 ^ 14)) by field.
  assert (A : 0 <= (v - a) ^ 2 * (v + a) ^ 2) by (apply Rmult_le_pos; apply pow_even).
  assert (M : 8 / 10 <= 2 * a ^ 2 - 16) by (unfold a; lra). assert (S : Rabs (4 * a ^ 3 - 32 * a + 5) <= / 10 ^ 20) by (apply Rabs_le; unfold a; lra).
  assert (T : 4 / 10 ^ 15 <= 1 / 2 * (a ^ 4 - 16 * a ^ 2 + 5 * a) + 3916616570377142 / 10 ^ 14) by (unfold a; lra).
  set (m := 2 * a ^ 2 - 16) in *. set (e := 4 * a ^ 3 - 32 * a + 5) in *. set (p := 1 / 2 * (a ^ 4 - 16 * a ^ 2 + 5 * a) + 3916616570377142 / 10 ^ 14) in *. clearbody m e p.
  set (t := v - a) in *. assert (0 <= 1 / 2 * (t ^ 2 * m) + 1 / 2 * e * t + p); [|lra].
  assert (B : Rabs (e * t) <= / 10 ^ 20 * (1 + t ^ 2)).
  { rewrite Rabs_mult. apply Rmult_le_compat; try apply Rabs_pos; [exact S|]. unfold Rabs. destruct (Rcase_abs t); nra. }
  assert (N : - Rabs (e * t) <= e * t) by (unfold Rabs; destruct (Rcase_abs (e * t)); lra). assert (0 <= t ^ 2) by apply pow_even. assert (8 / 10 * t ^ 2 <= t ^ 2 * m) by nra. lra.
Qed.
Lemma styblinski_at : let v := - (2903534018185960 / 10 ^ 15) in
  6 / 10 ^ 15 <= 1 / 2 * (v ^ 4 - 16 * v ^ 2 + 5 * v) + 3916616570377142 / 10 ^ 14 <= 7 / 10 ^ 15.
Proof. cbv zeta. lra. Qed.
