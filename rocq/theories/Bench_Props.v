(** * C49, C54: the benchmark functions *)
From Verif Require Import Bench_Model Bench_Spec Bench_Proofs BenchNum_Proofs Lennard_Proofs.
Local Open Scope R_scope.

(** ** Functions which attain their documented minimum exactly, over all vectors of any length *)
Theorem C49_ackley : forall d a b c, (0 < d)%nat -> 0 <= a -> 0 <= b -> attains_minimum (ackley d a b c).
Proof. exact ackley_min. Qed.
Print Assumptions C49_ackley.
Theorem C49_alpine01 : forall d, attains_minimum (alpine01 d).
Proof. exact alpine01_min. Qed.
Print Assumptions C49_alpine01.
Theorem C49_deceptive : forall d b mins shift, (0 < d)%nat -> length mins = d -> Forall (fun a => 0 < a < 1) mins -> 0 <= b ->
  attains_minimum (deceptive d b mins shift).
Proof. exact deceptive_min. Qed.
Print Assumptions C49_deceptive.
Theorem C49_easom : forall shift, attains_minimum (easom shift).
Proof. exact easom_min. Qed.
Print Assumptions C49_easom.
Theorem C49_griewank : forall d, attains_minimum (griewank d).
Proof. exact griewank_min. Qed.
Print Assumptions C49_griewank.
(** Without fixed noise; any noise of the evaluation. *)
Theorem C49_least_squares : forall u p_true lo hi noise eps, length noise = length u -> Forall (fun n => n = 0) noise -> Forall (fun p => lo <= p <= hi) p_true ->
  attains_minimum (els u p_true noise lo hi eps).
Proof. exact els_min. Qed.
Print Assumptions C49_least_squares.
Theorem C49_levy : forall d, (0 < d)%nat -> attains_minimum (levy d).
Proof. exact levy_min. Qed.
Print Assumptions C49_levy.
(** With more dimensions the square roots leave the search space. *)
Theorem C49_qing : forall d, (d <= 1000 * 250)%nat -> attains_minimum (qing d).
Proof. exact qing_min. Qed.
Print Assumptions C49_qing.
Theorem C49_rastrigin : forall d, attains_minimum (rastrigin d).
Proof. exact rastrigin_min. Qed.
Print Assumptions C49_rastrigin.
Theorem C49_rosenbrock : forall d, attains_minimum (rosenbrock d).
Proof. exact rosenbrock_min. Qed.
Print Assumptions C49_rosenbrock.
Theorem C49_stochastic : forall d e, length e = d -> Forall (fun r => 0 <= r) e -> attains_minimum (stochastic d e).
Proof. exact stochastic_min. Qed.
Print Assumptions C49_stochastic.
Theorem C49_trigonometric : forall d, attains_minimum (trigonometric d).
Proof. exact trigonometric_min. Qed.
Print Assumptions C49_trigonometric.
Example C49_exact_met :
  attains_minimum (ackley 2 20 (1 / 5) (2 * PI)) /\ attains_minimum (deceptive 2 2 [1 / 3; 3 / 4] true) /\
  attains_minimum (els [1; 2; 5] [1 / 2; -1] [0; 0; 0] (-2) 2 (1 / 10)) /\ attains_minimum (stochastic 2 [1 / 3; 9 / 10]) /\
  attains_minimum (qing 3) /\ attains_minimum (levy 4).
Proof.
  repeat match goal with |- _ /\ _ => split end.
  - apply C49_ackley; (lia || lra).
  - apply C49_deceptive; [lia | reflexivity | repeat constructor; lra | lra].
  - apply C49_least_squares; [reflexivity | repeat constructor | repeat constructor; lra].
  - apply C49_stochastic; [reflexivity | repeat constructor; lra].
  - apply C49_qing. lia.
  - apply C49_levy. lia.
Qed.
(** They are not constant. *)
Example C49_not_constant : call (rosenbrock 3) [0; 2; 1] = 1302 /\ call (qing 2) [0; 0] = 5 /\ call (rastrigin 2) [1; 2] = 5 /\
  call (zerosum 2) [1; -1] = 0 /\ call (zerosum 2) [2; 2] = 201.
Proof.
  repeat match goal with |- _ /\ _ => split end.
  - cbn. lra.
  - cbn. lra.
  - cbn [call rastrigin map sum fold_right]. replace (2 * PI * 1) with (2 * PI) by lra. replace (2 * PI * 2) with (2 * PI + 2 * PI) by lra. rewrite cos_plus, cos_2PI, sin_2PI. cbn. lra.
  - cbn. destruct (Req_EM_T (1 + (-1 + 0)) 0); [reflexivity | lra].
  - cbn. destruct (Req_EM_T (2 + (2 + 0)) 0); [lra|]. rewrite Rabs_right by lra. replace ((2 + (2 + 0)) * 10000) with (200 * 200) by lra. rewrite sqrt_square by lra. lra.
Qed.

(** ** Functions whose documented numbers are rounded *)
(** Schwefel: the documented value is a lower bound; the documented point is above it by a bit more than 1e-5 per dimension. *)
Theorem C49_schwefel_partial : forall d shift,
  (forall x, within (bounds (schwefel d shift)) x -> min_fx (schwefel d shift) <= call (schwefel d shift) x) /\
  within (bounds (schwefel d shift)) (min_x (schwefel d shift)) /\
  12 / 10 ^ 6 * INR d <= call (schwefel d shift) (min_x (schwefel d shift)) - min_fx (schwefel d shift) <= 13 / 10 ^ 6 * INR d.
Proof.
  intros d shift. unfold schwefel; cbn [dims call min_x min_fx bounds]. repeat match goal with |- _ /\ _ => split end.
  - intros x W. apply within_inv in W as [L W]. assert (A : - (4189829 / 10000) * INR (length x) <= sum (map (fun v => - v * sin (sqrt (Rabs v))) x)).
    { apply sum_map_ge. intros v Hv. assert (B := schwefel_one v (W v Hv)). lra. }
    rewrite L in A. destruct shift; lra.
  - apply within_repeat. lra.
  - rewrite sum_map_repeat. assert (A := schwefel_at). assert (D := pos_INR d). destruct shift; nra.
  - rewrite sum_map_repeat. assert (A := schwefel_at). assert (D := pos_INR d). destruct shift; nra.
Qed.
Print Assumptions C49_schwefel_partial.
(** Styblinski-Tang: likewise, over all vectors, with 7e-15. *)
Theorem C49_styblinski_partial : forall d,
  (forall x, length x = d -> min_fx (styblinski d) <= call (styblinski d) x) /\
  within (bounds (styblinski d)) (min_x (styblinski d)) /\
  6 / 10 ^ 15 * INR d <= call (styblinski d) (min_x (styblinski d)) - min_fx (styblinski d) <= 7 / 10 ^ 15 * INR d.
Proof.
  intros d. unfold styblinski; cbn [dims call min_x min_fx bounds]. repeat match goal with |- _ /\ _ => split end.
  - intros x L. assert (A : - (3916616570377142 / 10 ^ 14) * 2 * INR (length x) <= sum (map (fun v => v ^ 4 - 16 * v ^ 2 + 5 * v) x)).
    { apply sum_map_ge. intros v Hv. assert (B := styblinski_one v). lra. }
    rewrite L in A. lra.
  - apply within_repeat. lra.
  - rewrite sum_map_repeat. assert (A := styblinski_at). cbv zeta in A. assert (D := pos_INR d). nra.
  - rewrite sum_map_repeat. assert (A := styblinski_at). cbv zeta in A. assert (D := pos_INR d). nra.
Qed.
Print Assumptions C49_styblinski_partial.
(** Vincent: likewise, with 1e-8. *)
Theorem C49_vincent_partial : forall d,
  (forall x, length x = d -> min_fx (vincent d) <= call (vincent d) x) /\
  within (bounds (vincent d)) (min_x (vincent d)) /\
  0 <= call (vincent d) (min_x (vincent d)) - min_fx (vincent d) <= / 10 ^ 8 * INR d.
Proof.
  intros d. unfold vincent; cbn [dims call min_x min_fx bounds]. repeat match goal with |- _ /\ _ => split end.
  - intros x L. assert (A : sum (map (fun v => sin (10 * ln v)) x) <= 1 * INR (length x)) by (apply sum_map_le; intros; apply SIN_bound). rewrite L in A. lra.
  - apply within_repeat. lra.
  - rewrite sum_map_repeat. assert (A := vincent_at). assert (D := pos_INR d). nra.
  - rewrite sum_map_repeat. assert (A := vincent_at). assert (D := pos_INR d). nra.
Qed.
Print Assumptions C49_vincent_partial.
(** Alpine02: 2.81 bounds every factor, ... *)
Theorem C49_alpine02_partial : forall d x, within (bounds (alpine02 d)) x -> - (281 / 100) ^ d <= call (alpine02 d) x.
Proof.
  intros d x W. unfold alpine02 in *; cbn [dims call min_x min_fx bounds] in *. apply within_inv in W as [L W].
  assert (A := prod_abs_le (fun v => sin v * sqrt v) (281 / 100) x ltac:(lra) (fun v Hv => alpine02_one v (W v Hv))). rewrite L in A.
  assert (B := Rle_abs (prod (map (fun v => sin v * sqrt v) x))). lra.
Qed.
Print Assumptions C49_alpine02_partial.
(** ... but the documented point is already below the documented minimum. *)
Theorem C49_alpine02_refuted : forall d, (0 < d)%nat ->
  within (bounds (alpine02 d)) (min_x (alpine02 d)) /\ call (alpine02 d) (min_x (alpine02 d)) < min_fx (alpine02 d).
Proof.
  intros d Hd. unfold alpine02; cbn [dims call min_x min_fx bounds]. split; [apply within_repeat; lra|]. rewrite map_repeat', prod_repeat.
  assert (A := alpine02_at). apply Ropp_lt_contravar. destruct d as [|d]; [lia|]. clear Hd. cbn [pow]. set (u := sin (7917 / 1000) * sqrt (7917 / 1000)) in *. clearbody u.
  assert ((2808 / 1000) ^ d <= u ^ d) by (apply pow_incr; lra). assert (0 < (2808 / 1000) ^ d) by (apply pow_lt; lra). nra.
Qed.
Print Assumptions C49_alpine02_refuted.

(** ** Functions whose documented minimum is wrong *)
(** Rana: a better point in every search space of at least two dimensions. *)
Theorem C49_rana_refuted : forall d, (2 <= d)%nat -> exists x, within (bounds (rana d)) x /\ call (rana d) x < min_fx (rana d).
Proof. intros d Hd. eexists. apply (rana_lower d Hd). Qed.
Print Assumptions C49_rana_refuted.
(** Shekel with the default arguments: the documented point is better than the documented minimum; ... *)
Theorem C49_shekel_refuted : exists x, within (bounds (shekel 2 10 false)) x /\ call (shekel 2 10 false) x < min_fx (shekel 2 10 false).
Proof.
  exists [4; 4]. split; [repeat constructor; cbn; lra|]. cbn. 
  replace (/ (1 / 10 + ((4 - 4) * ((4 - 4) * 1) + ((4 - 4) * ((4 - 4) * 1) + 0)))) with 10 by field.
  assert (P : forall q, 0 < q -> 0 < / q) by (intros; apply Rinv_0_lt_compat; assumption).
  assert (A : / (3 / 10 + ((4 - 5) * ((4 - 5) * 1) + ((4 - 5) * ((4 - 5) * 1) + 0))) = 10 / 23) by field.
  assert (B : / (5 / 10 + ((4 - 6) * ((4 - 6) * 1) + ((4 - 2) * ((4 - 2) * 1) + 0))) = 10 / 85) by field.
  assert (C : / (4 / 10 + ((4 - 6) * ((4 - 6) * 1) + ((4 - 6) * ((4 - 6) * 1) + 0))) = 10 / 84) by field.
  rewrite A, B, C.
  assert (H1 := P (2 / 10 + ((4 - 1) * ((4 - 1) * 1) + ((4 - 1) * ((4 - 1) * 1) + 0))) ltac:(lra)).
  assert (H2 := P (2 / 10 + ((4 - 8) * ((4 - 8) * 1) + ((4 - 8) * ((4 - 8) * 1) + 0))) ltac:(lra)).
  assert (H3 := P (4 / 10 + ((4 - 3) * ((4 - 3) * 1) + ((4 - 7) * ((4 - 7) * 1) + 0))) ltac:(lra)).
  assert (H4 := P (6 / 10 + ((4 - 2) * ((4 - 2) * 1) + ((4 - 9) * ((4 - 9) * 1) + 0))) ltac:(lra)).
  assert (H5 := P (7 / 10 + ((4 - 8) * ((4 - 8) * 1) + ((4 - 1) * ((4 - 1) * 1) + 0))) ltac:(lra)).
  assert (H6 := P (5 / 10 + ((4 - 7) * ((4 - 7) * 1) + ((4 - 36 / 10) * ((4 - 36 / 10) * 1) + 0))) ltac:(lra)).
  lra.
Qed.
Print Assumptions C49_shekel_refuted.
(** ... and the shift which should make it positive does not. *)
Theorem C49_shekel_shift_refuted : exists x, within (bounds (shekel 1 10 true)) x /\ call (shekel 1 10 true) x < 0.
Proof.
  exists [4]. split; [repeat constructor; cbn; lra|]. cbn.
  replace (/ (1 / 10 + ((4 - 4) * ((4 - 4) * 1) + 0))) with 10 by field.
  assert (P : forall q, 0 < q -> 0 < / q) by (intros; apply Rinv_0_lt_compat; assumption).
  assert (A : / (3 / 10 + ((4 - 5) * ((4 - 5) * 1) + 0)) = 10 / 13) by field.
  assert (B : / (4 / 10 + ((4 - 3) * ((4 - 3) * 1) + 0)) = 10 / 14) by field.
  assert (C : / (4 / 10 + ((4 - 6) * ((4 - 6) * 1) + 0)) = 10 / 44) by field.
  assert (D : / (5 / 10 + ((4 - 6) * ((4 - 6) * 1) + 0)) = 10 / 45) by field.
  assert (E : / (6 / 10 + ((4 - 2) * ((4 - 2) * 1) + 0)) = 10 / 46) by field.
  rewrite A, B, C, D, E.
  assert (H1 := P (2 / 10 + ((4 - 1) * ((4 - 1) * 1) + 0)) ltac:(lra)).
  assert (H2 := P (2 / 10 + ((4 - 8) * ((4 - 8) * 1) + 0)) ltac:(lra)).
  assert (H5 := P (7 / 10 + ((4 - 8) * ((4 - 8) * 1) + 0)) ltac:(lra)).
  assert (H6 := P (5 / 10 + ((4 - 7) * ((4 - 7) * 1) + 0)) ltac:(lra)).
  lra.
Qed.
Print Assumptions C49_shekel_shift_refuted.
(** Shubert, style 3 in two dimensions: the sign of the function is wrong, there are much lower values. *)
Theorem C49_shubert_sign_refuted : exists x m, within (repeat (-10, 10) 2) x /\ shubert_min_fx 2 3 false = Some m /\ shubert_call 3 false x < m - 3.
Proof.
  exists [-11 / 10; -11 / 10]. eexists. split; [repeat constructor; cbn; lra|]. split; [reflexivity|]. cbn [shubert_call map sum fold_right]. assert (A := shubert_low). lra.
Qed.
Print Assumptions C49_shubert_sign_refuted.
(** Shubert in one dimension: no point comes near the documented minimum. *)
Theorem C49_shubert_one_dimension_refuted : forall style x, exists m, shubert_min_fx 1 style false = Some m /\ m + 9 < shubert_call style false [x].
Proof.
  intros style x. assert (C := shubert_abs cos x cos_abs). assert (S := shubert_abs sin x sin_abs).
  assert (C' : -15 <= shubert_g cos x) by (assert (B := Rle_abs (- shubert_g cos x)); rewrite Rabs_Ropp in B; lra).
  assert (S' : -15 <= shubert_g sin x) by (assert (B := Rle_abs (- shubert_g sin x)); rewrite Rabs_Ropp in B; lra).
  unfold shubert_min_fx, shubert_call. cbn [Nat.ltb Nat.leb map prod sum fold_right].
  destruct style as [|[|[|[|style]]]]; eexists; (split; [reflexivity|]); lra.
Qed.
Print Assumptions C49_shubert_one_dimension_refuted.
(** ZeroSum has the minimum of another function. *)
Theorem C49_zerosum : forall d x, length x = d -> 0 <= call (zerosum d) x /\ (call (zerosum d) x = 0 <-> sum x = 0).
Proof.
  intros d x _. cbn [zerosum call]. destruct (Req_EM_T (sum x) 0) as [E|N]; [split; [lra | tauto]|].
  assert (A := sqrt_pos (Rabs (sum x) * 10000)). split; [lra|]. split; intro; [lra | contradiction].
Qed.
Print Assumptions C49_zerosum.
Theorem C49_zerosum_refuted : forall d, (0 < d)%nat -> (forall x, min_fx (zerosum d) < call (zerosum d) x) /\ 0 < call (zerosum d) (min_x (zerosum d)).
Proof.
  intros d Hd. assert (D := lt_0_INR d Hd). split.
  - intro x. destruct (C49_zerosum (length x) x eq_refl) as [A _]. cbn [zerosum call min_fx] in *. lra.
  - cbn [zerosum call min_x]. rewrite sum_repeat. destruct (Req_EM_T (770628098 / 10 ^ 8 * INR d) 0) as [E|N]; [nra|].
    assert (A := sqrt_pos (Rabs (770628098 / 10 ^ 8 * INR d) * 10000)). lra.
Qed.
Print Assumptions C49_zerosum_refuted.
(** Langermann: the documented point has the documented value up to 1e-4; that no point is lower is only shown against the sum of the heights of the five terms. *)
Theorem C49_langermann_partial : forall shift : bool,
  within (bounds (langermann shift)) (min_x (langermann shift)) /\
  Rabs (call (langermann shift) (min_x (langermann shift)) - min_fx (langermann shift)) <= 1 / 10 ^ 4 /\
  forall x, (if shift then 52 / 10 else 0) - 13 <= call (langermann shift) x.
Proof.
  intros shift. split; [|split; [apply langermann_at | intros x; apply langermann_ge]].
  cbn [langermann bounds min_x repeat]. repeat constructor; cbn [fst snd]; lra.
Qed.
Print Assumptions C49_langermann_partial.
(** Michalewicz: within the bounds the values lie between minus the number of dimensions and 0; ... *)
Theorem C49_michalewicz_partial : forall m d x, within (michalewicz_bounds d) x -> - INR d <= michalewicz m x <= 0.
Proof.
  intros m d x W. apply within_inv in W as [L W]. assert (A := michalewicz_range m x 1 (proj2 (Forall_forall _ _) W)). unfold michalewicz. rewrite <- L. lra.
Qed.
Print Assumptions C49_michalewicz_partial.
(** ... the documented point is as bad as a point can be and never has the documented value, ... *)
Theorem C49_michalewicz_point_refuted : forall m d v, michalewicz_min_fx d = Some v ->
  within (michalewicz_bounds d) (michalewicz_min_x d) /\ v + 18 / 10 < michalewicz m (michalewicz_min_x d) /\
  forall x, within (michalewicz_bounds d) x -> michalewicz m x <= michalewicz m (michalewicz_min_x d).
Proof.
  intros m d v E. assert (P := PI_bounds). unfold michalewicz_min_x. rewrite michalewicz_zero. split; [|split].
  - apply within_repeat. lra.
  - unfold michalewicz_min_fx in E. destruct (Nat.eqb d 2); [injection E as <-; lra|]. destruct (Nat.eqb d 5); [injection E as <-; lra|].
    destruct (Nat.eqb d 10); [injection E as <-; lra | discriminate].
  - intros x W. exact (proj2 (C49_michalewicz_partial m d x W)).
Qed.
Print Assumptions C49_michalewicz_point_refuted.
Example C49_michalewicz_met : michalewicz_min_fx 5 = Some (- (4687658 / 10 ^ 6)) /\ within (michalewicz_bounds 2) [21 / 10; PI / 2] /\ michalewicz_min_fx 3 = None.
Proof. assert (P := PI_bounds). split; [reflexivity | split; [|reflexivity]]. cbn [michalewicz_bounds repeat]. repeat constructor; cbn [fst snd]; lra. Qed.
(** ... and the documented value does not depend on the steepness, with which the minimum changes. *)
Theorem C49_michalewicz_steepness_refuted : exists m x v, within (michalewicz_bounds 2) x /\ michalewicz_min_fx 2 = Some v /\ michalewicz m x < v.
Proof. exists 1%nat, [21 / 10; PI / 2], (- (18013 / 10 ^ 4)). split; [apply C49_michalewicz_met | split; [reflexivity | exact michalewicz_m1]]. Qed.
Print Assumptions C49_michalewicz_steepness_refuted.
(** Training points can only be given explicitly in the number of n_train. *)
Theorem C49_given_points_refuted : exists k n_train, (2 < k)%nat /\ els_constructible (Some k) n_train = false.
Proof. exists 3%nat, 10%nat. split; [lia | reflexivity]. Qed.
Print Assumptions C49_given_points_refuted.

(** ** C54: Lennard-Jones *)
(** No configuration is below -epsilon for every pair; two atoms reach it. *)
Theorem C54_lower_bound : forall n d eps sigma X, 0 <= eps -> - eps * (INR n * (INR n - 1) / 2) <= lj n d eps sigma X.
Proof.
  intros n d eps sigma X He. assert (A := lj_ge n d eps sigma X He). replace (INR n * (INR n - 1) / 2) with (INR (length (triu n))); [exact A|].
  assert (L := f_equal INR (triu_length n)). rewrite !mult_INR in L. destruct n as [|n].
  - cbn. lra.
  - rewrite minus_INR in L by lia. change (INR 2) with (1 + 1) in L. change (INR 1) with 1 in L. lra.
Qed.
Print Assumptions C54_lower_bound.
Theorem C54_two_atoms : forall eps sigma, 0 < sigma -> exists X, configuration 2 1 X /\ lj 2 1 eps sigma X = - eps * (INR 2 * (INR 2 - 1) / 2).
Proof. intros eps sigma Hs. destruct (two_atoms eps sigma Hs) as [X [H E]]. exists X. split; [exact H|]. rewrite E. cbn. lra. Qed.
Print Assumptions C54_two_atoms.
(** The jacobian is the gradient if sigma = 1 ... *)
Theorem C54_gradient_partial : forall n d eps X k c, configuration n d X -> separated X -> (k < n)%nat -> (c < d)%nat ->
  derivable_pt_lim (fun t => lj n d eps 1 (moved X k c t)) (coord X k c) (lj_jacobian n d eps 1 X k c).
Proof. exact gradient_unit. Qed.
Print Assumptions C54_gradient_partial.
Lemma triangle_separated : separated [[0; 0]; [1; 0]; [0; 2]].
Proof.
  intros i j p q Hij Hp Hq. destruct i as [|[|[|i]]], j as [|[|[|j]]]; try lia; cbn in Hp, Hq; try discriminate; try (destruct j; discriminate);
    injection Hp as <-; injection Hq as <-; unfold distance_sq; cbn; lra.
Qed.
Example C54_gradient_met : configuration 3 2 [[0; 0]; [1; 0]; [0; 2]] /\ separated [[0; 0]; [1; 0]; [0; 2]] /\
  lj 3 2 1 1 [[0; 0]; [1; 0]; [0; 2]] <> 0 /\ lj_jacobian 3 2 1 1 [[0; 0]; [1; 0]; [0; 2]] 0 0 = 24.
Proof.
  split; [repeat constructor|]. split; [apply triangle_separated|]. split.
  - unfold lj, triu, dist_sq, coord. cbn [seq flat_map Nat.sub map app nth fst snd sum fold_right]. unfold lj_pair.
    repeat match goal with |- context[Req_EM_T ?a 0] => destruct (Req_EM_T a 0); [lra|] end.
    replace (1 ^ 2 / ((0 - 1) ^ 2 + ((0 - 0) ^ 2 + 0))) with 1 by field. replace (1 ^ 2 / ((0 - 0) ^ 2 + ((0 - 2) ^ 2 + 0))) with (1 / 4) by field.
    replace (1 ^ 2 / ((1 - 0) ^ 2 + ((0 - 2) ^ 2 + 0))) with (1 / 5) by field. lra.
  - unfold lj_jacobian, triu, dist_sq, coord. cbn [seq flat_map Nat.sub map app nth fst snd sum fold_right Nat.eqb]. unfold lj_factor.
    repeat match goal with |- context[Req_EM_T ?a 0] => destruct (Req_EM_T a 0); [lra|] end.
    replace (((0 - 1) ^ 2 + ((0 - 0) ^ 2 + 0)) ^ 7) with 1 by ring. replace (((0 - 1) ^ 2 + ((0 - 0) ^ 2 + 0)) ^ 4) with 1 by ring. cbn. lra.
Qed.
(** ... and not otherwise: wrong powers of sigma. *)
Theorem C54_gradient_refuted : exists n d eps sigma X k c l, configuration n d X /\ separated X /\ (k < n)%nat /\ (c < d)%nat /\
  derivable_pt_lim (fun t => lj n d eps sigma (moved X k c t)) (coord X k c) l /\ lj_jacobian n d eps sigma X k c <> l.
Proof.
  assert (HX : configuration 2 1 [[0]; [1]]) by (repeat constructor).
  assert (S : separated [[0]; [1]]).
  { intros i j p q Hij Hp Hq. destruct i as [|[|i]], j as [|[|j]]; try lia; cbn in Hp, Hq; try discriminate; try (destruct j; discriminate); injection Hp as <-; injection Hq as <-; unfold distance_sq; cbn; lra. }
  exists 2%nat, 1%nat, 1, 2, [[0]; [1]], 0%nat, 0%nat. eexists. split; [exact HX|]. split; [exact S|]. split; [lia|]. split; [lia|].
  split; [apply (deriv_lj 2 1 1 2 [[0]; [1]] 0 0 HX); try lia; apply (separated_dist 2 1 _ HX S)|].
  unfold lj_jacobian, triu, dist_sq, coord, pair_slope, lj_factor. cbn [seq flat_map Nat.sub map app nth fst snd sum fold_right Nat.eqb ind].
  destruct (Req_EM_T ((0 - 1) ^ 2 + 0) 0); [lra|].
  replace (((0 - 1) ^ 2 + 0) ^ 7) with 1 by ring. replace (((0 - 1) ^ 2 + 0) ^ 4) with 1 by ring. rewrite Rinv_1. lra.
Qed.
Print Assumptions C54_gradient_refuted.
(** Coinciding atoms have no energy at all instead of an infinite one. *)
Theorem C54_coincident_atoms_refuted : exists X Y, configuration 2 1 X /\ configuration 2 1 Y /\ ~ separated X /\ separated Y /\ lj 2 1 1 1 X < lj 2 1 1 1 Y.
Proof.
  exists [[0]; [0]], [[0]; [1 / 2]]. split; [repeat constructor|]. split; [repeat constructor|]. split; [|split].
  - intro S. apply (S 0%nat 1%nat [0] [0]); [lia | reflexivity | reflexivity|]. unfold distance_sq. cbn. lra.
  - intros i j p q Hij Hp Hq. destruct i as [|[|i]], j as [|[|j]]; try lia; cbn in Hp, Hq; try discriminate; try (destruct j; discriminate); injection Hp as <-; injection Hq as <-; unfold distance_sq; cbn; lra.
  - unfold lj, triu, dist_sq, coord. cbn [seq flat_map Nat.sub map app nth fst snd sum fold_right]. unfold lj_pair.
    destruct (Req_EM_T ((0 - 0) ^ 2 + 0) 0) as [_|N]; [|elim N; ring]. destruct (Req_EM_T ((0 - 1 / 2) ^ 2 + 0) 0); [lra|].
    replace (1 ^ 2 / ((0 - 1 / 2) ^ 2 + 0)) with 4 by field. lra.
Qed.
Print Assumptions C54_coincident_atoms_refuted.
(** The estimate of the minimum in three dimensions is only given for a single atom. *)
Theorem C54_estimate_refuted : forall n, (2 <= n)%nat -> lj_has_estimate n 3 = false /\ lj_has_estimate 3 1 = true.
Proof. intros n H. split; [apply Nat.eqb_neq; lia | reflexivity]. Qed.
Print Assumptions C54_estimate_refuted.
