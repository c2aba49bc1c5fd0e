(** * Numerical bounds for the benchmark functions with rounded or wrong minima *)
From Coq Require Import SeqProp AltSeries.
From Verif Require Import Bench_Model Bench_Spec Bench_Proofs.
Local Open Scope R_scope.

(** ** Alpine02 *)
Lemma sin_shift' y : sin (y + 5 / 2 * PI) = cos y.
Proof. replace (y + 5 / 2 * PI) with ((PI / 2 + y) + 2 * INR 1 * PI) by (cbn; field). rewrite sin_period. rewrite sin_plus, sin_PI2, cos_PI2. lra. Qed.
Lemma abs_le_by_squares a b : 0 <= b -> a ^ 2 <= b ^ 2 -> Rabs a <= b.
Proof. intros Hb H. rewrite <- (Rabs_right b) by lra. apply Rsqr_le_abs_0. rewrite !Rsqr_pow2. exact H. Qed.
Lemma alpine02_one v : 0 <= v <= 10 -> Rabs (sin v * sqrt v) <= 281 / 100.
Proof.
  intro H. apply abs_le_by_squares; [lra|]. rewrite Rpow_mult_distr, pow2_sqrt by lra. assert (S : (sin v) ^ 2 <= 1).
  { assert (B := SIN_bound v). nra. }
  assert (S0 := pow_even (sin v)). destruct (Rle_dec v (7896 / 1000)) as [V|V]; [nra|].
  assert (P := PI_bounds). set (y := v - 5 / 2 * PI). assert (Y : 4 / 100 <= y <= 2147 / 1000) by (unfold y; lra).
  replace v with (y + 5 / 2 * PI) in S, S0 |- * at 1 by (unfold y; lra). rewrite sin_shift' in *.
  destruct (Rle_dec y (165 / 100)) as [Ys|Ys].
  - assert (G := sin_ge y ltac:(lra)). assert (C : cos y ^ 2 <= 1 - y ^ 2 + y ^ 4 / 3).
    { assert (T := sin2_cos2 y). rewrite !Rsqr_pow2 in T. assert (0 <= y - y ^ 3 / 6) by nra. assert ((y - y ^ 3 / 6) ^ 2 <= sin y ^ 2) by (apply pow_incr; lra).
      assert (0 <= y ^ 6) by (apply pow_le; lra). replace ((y - y ^ 3 / 6) ^ 2) with (y ^ 2 - y ^ 4 / 3 + y ^ 6 / 36) in H1 by field. lra. }
    apply Rle_trans with ((1 - y ^ 2 + y ^ 4 / 3) * v); [apply Rmult_le_compat_r; lra|].
    assert (Hv : v <= y + 78539817 / 10000000) by (unfold y in *; lra). assert (0 <= 1 - y ^ 2 + y ^ 4 / 3) by (assert (0 <= cos y ^ 2) by apply pow_even; lra).
    apply Rle_trans with ((1 - y ^ 2 + y ^ 4 / 3) * (y + 78539817 / 10000000)); [apply Rmult_le_compat_l; lra|].
    clearbody y. clear - Y Ys.
    assert (Br : 77 / 100 <= 7853 / 1000 + y - 2619 / 1000 * y ^ 2 - y ^ 3 / 3 /\ (y <= 1 / 2 -> 76 / 10 <= 7853 / 1000 + y - 2619 / 1000 * y ^ 2 - y ^ 3 / 3) /\
      (y <= 13 / 10 -> 39 / 10 <= 7853 / 1000 + y - 2619 / 1000 * y ^ 2 - y ^ 3 / 3)).
    { assert (G : forall m, y <= m -> y ^ 2 <= m * y /\ y ^ 3 <= m ^ 2 * y).
      { intros m Hm. split; [nra|]. assert (y ^ 2 <= m ^ 2) by (apply pow_incr; lra). replace (y ^ 3) with (y ^ 2 * y) by ring. apply Rmult_le_compat_r; lra. }
      repeat split.
      - destruct (G (165 / 100) Ys). lra.
      - intro A. destruct (G _ A). lra.
      - intro A. destruct (G _ A). lra. }
    destruct Br as [B1 [B2 B3]]. set (br := 7853 / 1000 + y - 2619 / 1000 * y ^ 2 - y ^ 3 / 3) in *.
    assert (Id : (1 - y ^ 2 + y ^ 4 / 3) * (y + 78539817 / 10000000) <= 78539817 / 10000000 + y - y ^ 2 * br).
    { assert (0 <= y ^ 2) by apply pow_even. assert (0 <= y ^ 4) by (apply pow_le; lra).
      replace ((1 - y ^ 2 + y ^ 4 / 3) * (y + 78539817 / 10000000)) with
        (78539817 / 10000000 + y - y ^ 2 * br - (y ^ 2 * (78539817 / 10000000 - 7853 / 1000) + y ^ 4 * (2619 / 1000 - 78539817 / 30000000))) by (unfold br; field). lra. }
    eapply Rle_trans; [exact Id|]. clearbody br. clear Id. destruct (Rle_dec y (1 / 2)) as [A|A]; [specialize (B2 A)|].
    + assert (y ^ 2 * (76 / 10) <= y ^ 2 * br) by (apply Rmult_le_compat_l; [apply pow_even | exact B2]). assert (0 <= (y - 5 / 76) ^ 2) by apply pow_even. lra.
    + destruct (Rle_dec y (13 / 10)) as [A'|A']; [specialize (B3 A')|].
      * assert (y ^ 2 * (39 / 10) <= y ^ 2 * br) by (apply Rmult_le_compat_l; [apply pow_even | exact B3]). nra.
      * assert (y ^ 2 * (77 / 100) <= y ^ 2 * br) by (apply Rmult_le_compat_l; [apply pow_even | exact B1]). nra.
  - assert (T : Rabs (cos y) <= 6 / 10).
    { replace y with (PI / 2 + (y - PI / 2)) by lra. rewrite cos_plus, cos_PI2, sin_PI2. set (z := y - PI / 2) in *. assert (Z : 0 <= z <= 6 / 10) by (unfold z; lra).
      assert (U := sin_le z ltac:(lra)). assert (Lz := sin_ge z ltac:(lra)). clearbody z. replace (0 * cos z - 1 * sin z) with (- sin z) by lra. rewrite Rabs_Ropp.
      assert (Z3 : 0 <= z ^ 3) by (apply pow_le; lra).
      assert (Z2 : 0 <= z ^ 2 <= 1) by (split; [apply pow_even | replace 1 with (1 ^ 2) by lra; apply pow_incr; lra]).
      assert (z ^ 3 <= z) by (replace (z ^ 3) with (z ^ 2 * z) by ring; nra). assert (z ^ 5 <= z ^ 3) by (replace (z ^ 5) with (z ^ 2 * z ^ 3) by ring; nra). apply Rabs_le. split; lra. }
    assert (cos y ^ 2 <= (6 / 10) ^ 2) by (rewrite <- (pow2_abs (cos y)); apply pow_incr; split; [apply Rabs_pos | exact T]). nra.
Qed.
Lemma alpine02_at : 2808 / 1000 < sin (7917 / 1000) * sqrt (7917 / 1000) < 28082 / 10000.
Proof.
  assert (P := PI_bounds). assert (Q : 281371 / 100000 <= sqrt (7917 / 1000) <= 281372 / 100000) by (apply sqrt_between; lra).
  replace (sin (7917 / 1000)) with (cos (7917 / 1000 - 5 / 2 * PI)) by (rewrite <- sin_shift'; f_equal; lra). set (y := 7917 / 1000 - 5 / 2 * PI) in *.
  assert (Y : 63018 / 1000000 <= y <= 63019 / 1000000) by (unfold y; lra). clearbody y. assert (G := cos_ge y). assert (L := cos_le y ltac:(lra)).
  assert (Y2 : (63018 / 1000000) ^ 2 <= y ^ 2 <= (63019 / 1000000) ^ 2) by (split; apply pow_incr; lra). assert (Y4 : y ^ 4 <= (63019 / 1000000) ^ 4) by (apply pow_incr; lra).
  set (s := sqrt (7917 / 1000)) in *. clearbody s. set (c := cos y) in *. clearbody c. assert (C : 998014 / 1000000 <= c <= 998016 / 1000000) by lra. split; nra.
Qed.

(** ** exp and ln: alternating series *)
Lemma exp_neg_bounds h N : 0 <= h <= 1 ->
  sum_f_R0 (tg_alt (fun n => h ^ n / INR (fact n))) (S (2 * N)) <= exp (- h) <= sum_f_R0 (tg_alt (fun n => h ^ n / INR (fact n))) (2 * N).
Proof.
  intro H. apply alternated_series_ineq.
  - intro n. rewrite fact_simpl, mult_INR. assert (0 < INR (fact n)) by apply INR_fact_lt_0. assert (1 <= INR (S n)) by (change 1 with (INR 1); apply le_INR; lia).
    assert (0 <= h ^ n) by (apply pow_le; lra). cbn [pow]. apply (Rmult_le_reg_r (INR (S n) * INR (fact n))); [nra|].
    replace (h * h ^ n / (INR (S n) * INR (fact n)) * (INR (S n) * INR (fact n))) with (h * h ^ n) by (field; lra).
    replace (h ^ n / INR (fact n) * (INR (S n) * INR (fact n))) with (h ^ n * INR (S n)) by (field; lra). nra.
  - apply cv_speed_pow_fact.
  - unfold exp. destruct (exist_exp (- h)) as [l Hl]. cbn. unfold exp_in, infinite_sum in Hl. intros e He. destruct (Hl e He) as [M HM]. exists M. intros n Hn. specialize (HM n Hn).
    replace (sum_f_R0 (tg_alt (fun n => h ^ n / INR (fact n))) n) with (sum_f_R0 (fun i => / INR (fact i) * (- h) ^ i) n); [exact HM|]. clear. apply sum_eq. intros i _. unfold tg_alt.
    replace (- h) with (-1 * h) by lra. rewrite Rpow_mult_distr. unfold Rdiv. ring.
Qed.
Lemma exp_4 a : exp a ^ 4 = exp (4 * a).
Proof. cbn [pow]. rewrite Rmult_1_r, <- !exp_plus. f_equal. lra. Qed.
Ltac facts B :=
  try change (Z.of_nat (fact 0)) with 1%Z in B; try change (Z.of_nat (fact 1)) with 1%Z in B; try change (Z.of_nat (fact 2)) with 2%Z in B;
  try change (Z.of_nat (fact 3)) with 6%Z in B; try change (Z.of_nat (fact 4)) with 24%Z in B; try change (Z.of_nat (fact 5)) with 120%Z in B;
  try change (Z.of_nat (fact 6)) with 720%Z in B; try change (Z.of_nat (fact 7)) with 5040%Z in B; try change (Z.of_nat (fact 8)) with 40320%Z in B.
Lemma vincent_at : 1 - / 10 ^ 8 <= sin (10 * ln (770628098 / 10 ^ 8)) <= 1.
Proof.
  assert (P := PI_bounds). set (x := 770628098 / 10 ^ 8). assert (X : 0 < x) by (unfold x; lra).
  assert (E : 65 / 100 * PI - / 10 ^ 5 <= ln x <= 65 / 100 * PI + / 10 ^ 5).
  { split.
    - assert (exp (2042026 / 10 ^ 6) <= x).
      { assert (B := proj1 (exp_neg_bounds (510506500 / 10 ^ 9) 3 ltac:(lra))). cbv [sum_f_R0 Nat.mul Nat.add tg_alt] in B. rewrite !INR_IZR_INZ in B. facts B.
        replace (exp (2042026 / 10 ^ 6)) with (/ (exp (- (510506500 / 10 ^ 9)) ^ 4)).
        - set (t := exp (- (510506500 / 10 ^ 9))) in *. clearbody t. assert (T : 600191 / 10 ^ 6 <= t) by lra.
          assert (T4 : (600191 / 10 ^ 6) ^ 4 <= t ^ 4) by (apply pow_incr; lra). assert (0 < t ^ 4) by (apply pow_lt; lra).
          apply (Rmult_le_reg_r (t ^ 4)); [assumption|]. rewrite Rinv_l by lra. unfold x. lra.
        - replace (exp (- (510506500 / 10 ^ 9)) ^ 4) with (exp (- (2042026 / 10 ^ 6))) by (rewrite exp_4; f_equal; lra).
          rewrite exp_Ropp, Rinv_inv. reflexivity. }
      rewrite <- (exp_ln x X) in H. destruct (Rle_lt_dec (2042026 / 10 ^ 6) (ln x)) as [G|G]; [lra|]. apply exp_increasing in G. lra.
    - assert (x <= exp (2042044 / 10 ^ 6)).
      { assert (B := proj2 (exp_neg_bounds (510511000 / 10 ^ 9) 4 ltac:(lra))). cbv [sum_f_R0 Nat.mul Nat.add tg_alt] in B. rewrite !INR_IZR_INZ in B. facts B.
        replace (exp (2042044 / 10 ^ 6)) with (/ (exp (- (510511000 / 10 ^ 9)) ^ 4)).
        - assert (T0 := exp_pos (- (510511000 / 10 ^ 9))). set (t := exp (- (510511000 / 10 ^ 9))) in *. clearbody t. assert (T : t <= 6001895 / 10 ^ 7) by lra.
          assert (T4 : t ^ 4 <= (6001895 / 10 ^ 7) ^ 4) by (apply pow_incr; lra). assert (0 < t ^ 4) by (apply pow_lt; lra).
          apply (Rmult_le_reg_r (t ^ 4)); [assumption|]. rewrite Rinv_l by lra. unfold x. lra.
        - replace (exp (- (510511000 / 10 ^ 9)) ^ 4) with (exp (- (2042044 / 10 ^ 6))) by (rewrite exp_4; f_equal; lra).
          rewrite exp_Ropp, Rinv_inv. reflexivity. }
      rewrite <- (exp_ln x X) in H. destruct (Rle_lt_dec (ln x) (2042044 / 10 ^ 6)) as [G|G]; [lra|]. apply exp_increasing in G. lra. }
  split; [|apply SIN_bound]. replace (10 * ln x) with ((10 * ln x - 13 / 2 * PI) + 13 / 2 * PI) by lra. rewrite sin_shift. set (y := 10 * ln x - 13 / 2 * PI) in *.
  assert (Y : - / 10 ^ 4 <= y <= / 10 ^ 4) by (unfold y; lra). assert (G := cos_ge y). assert (y ^ 2 <= (/ 10 ^ 4) ^ 2).
  { rewrite <- (pow2_abs y). apply pow_incr. split; [apply Rabs_pos|]. apply Rabs_le. exact Y. }
  lra.
Qed.

(** ** Rana *)
Lemma sin_10pi y : sin (y + 10 * PI) = sin y.
Proof. replace (y + 10 * PI) with (y + 2 * INR 5 * PI) by (cbn; lra). apply sin_period. Qed.
Lemma cos_10pi y : cos (y + 10 * PI) = cos y.
Proof. replace (y + 10 * PI) with (y + 2 * INR 5 * PI) by (cbn; lra). apply cos_period. Qed.
Definition rana_term (x0 v : R) : R :=
  v * sin (sqrt (Rabs (x0 - v + 1))) * cos (sqrt (Rabs (x0 + v + 1))) + (x0 + 1) * sin (sqrt (Rabs (x0 + v + 1))) * cos (sqrt (Rabs (x0 - v + 1))).
Lemma rana_500 : -474 <= rana_term (-500) (-500).
Proof.
  unfold rana_term. replace (-500 - -500 + 1) with 1 by lra. replace (-500 + -500 + 1) with (-(999)) by lra. rewrite Rabs_Ropp, !Rabs_right by lra. rewrite sqrt_1.
  assert (P := PI_bounds). assert (Q : 31606 / 1000 <= sqrt 999 <= 31607 / 1000) by (apply sqrt_between; lra). set (s := sqrt 999) in *. clearbody s.
  replace s with ((s - 10 * PI) + 10 * PI) by lra. rewrite sin_10pi, cos_10pi. set (y := s - 10 * PI) in *. assert (Y : 19 / 100 <= y <= 192 / 1000) by (unfold y; lra). clearbody y.
  assert (S1 : 0 <= sin 1 <= 842 / 1000) by (assert (A := sin_le 1 ltac:(lra)); assert (B := sin_ge 1 ltac:(lra)); lra).
  assert (C1 : 0 <= cos 1 <= 542 / 1000) by (assert (A := cos_le 1 ltac:(lra)); assert (B := cos_ge 1); lra).
  assert (Sy : 0 <= sin y <= 192 / 1000).
  { assert (A := sin_le y ltac:(lra)). assert (B := sin_ge y ltac:(lra)). assert (0 <= y ^ 3) by (apply pow_le; lra). assert (0 <= y ^ 2 <= 1) by nra.
    assert (y ^ 3 <= y) by (replace (y ^ 3) with (y ^ 2 * y) by ring; nra). assert (y ^ 5 <= y ^ 3) by (replace (y ^ 5) with (y ^ 2 * y ^ 3) by ring; nra). lra. }
  assert (Cy : cos y <= 1) by apply COS_bound. assert (Cy0 : 0 <= cos y) by (assert (B := cos_ge y); nra).
  assert (sin 1 * cos y <= 842 / 1000 * 1) by (apply Rmult_le_compat; lra). assert (sin y * cos 1 <= 192 / 1000 * (542 / 1000)) by (apply Rmult_le_compat; lra). lra.
Qed.
Lemma rana_497 : rana_term (-500) (-497) <= -480.
Proof.
  unfold rana_term. replace (-500 - -497 + 1) with (-(2)) by lra. replace (-500 + -497 + 1) with (-(996)) by lra. rewrite !Rabs_Ropp, !Rabs_right by lra.
  assert (P := PI_bounds). assert (Q : 31559 / 1000 <= sqrt 996 <= 31560 / 1000) by (apply sqrt_between; lra). set (s := sqrt 996) in *. clearbody s.
  assert (T : 1414 / 1000 <= sqrt 2 <= 1415 / 1000) by (apply sqrt_between; lra). set (t := sqrt 2) in *. clearbody t.
  replace s with ((s - 10 * PI) + 10 * PI) by lra. rewrite sin_10pi, cos_10pi. set (y := s - 10 * PI) in *. assert (Y : 143 / 1000 <= y <= 145 / 1000) by (unfold y; lra). clearbody y.
  assert (St : 98 / 100 <= sin t).
  { destruct (pre_sin_bound t 1 ltac:(lra) ltac:(lra)) as [A _]. unfold sin_approx, sin_term in A. cbn in A.
    assert (t ^ 3 <= (1415 / 1000) ^ 3) by (apply pow_incr; lra). assert ((1414 / 1000) ^ 5 <= t ^ 5) by (apply pow_incr; lra). assert (t ^ 7 <= (1415 / 1000) ^ 7) by (apply pow_incr; lra). lra. }
  assert (Ct : 0 <= cos t).
  { assert (A := cos_ge4 t ltac:(lra)). assert (t ^ 2 <= (1415 / 1000) ^ 2) by (apply pow_incr; lra). assert ((1414 / 1000) ^ 4 <= t ^ 4) by (apply pow_incr; lra).
    assert (t ^ 6 <= (1415 / 1000) ^ 6) by (apply pow_incr; lra). lra. }
  assert (Sy : 0 <= sin y).
  { assert (B := sin_ge y ltac:(lra)). assert (0 <= y ^ 2 <= 1) by nra. assert (y ^ 3 <= y) by (replace (y ^ 3) with (y ^ 2 * y) by ring; nra). lra. }
  assert (Cy : 989 / 1000 <= cos y) by (assert (B := cos_ge y); assert (y ^ 2 <= (145 / 1000) ^ 2) by (apply pow_incr; lra); lra).
  assert (98 / 100 * (989 / 1000) <= sin t * cos y) by (apply Rmult_le_compat; lra). assert (0 <= sin y * cos t) by (apply Rmult_le_pos; assumption). lra.
Qed.
Lemma rana_lower d : (2 <= d)%nat -> let x := -500 :: -497 :: repeat (-500) (d - 2) in within (bounds (rana d)) x /\ call (rana d) x < min_fx (rana d).
Proof.
  intros Hd x. destruct d as [|[|d]]; try lia. subst x. replace (S (S d) - 2)%nat with d by lia. split.
  - apply (within_all _ _ _ (S (S d))); [cbn; rewrite repeat_length; reflexivity|]. intros v [<-|[<-|Hv]]; [lra | lra|]. apply repeat_spec in Hv. subst. lra.
  - change (call (rana (S (S d))) (-500 :: -497 :: repeat (-500) d)) with (rana_term (-500) (-500) + (rana_term (-500) (-497) + sum (map (rana_term (-500)) (repeat (-500) d)))).
    change (min_fx (rana (S (S d)))) with (rana_term (-500) (-500) + (rana_term (-500) (-500) + sum (map (rana_term (-500)) (repeat (-500) d)))).
    assert (A := rana_500). assert (B := rana_497). lra.
Qed.

(** ** Shubert *)
Lemma shubert_abs f x : (forall v, Rabs (f v) <= 1) -> Rabs (shubert_g f x) <= 15.
Proof.
  intro H. unfold shubert_g, arange. cbn [seq map sum fold_right INR].
  assert (G : forall v, -1 <= f v <= 1).
  { intro v. specialize (H v). assert (A := Rle_abs (f v)). assert (B := Rle_abs (- f v)). rewrite Rabs_Ropp in B. lra. }
  apply Rabs_le.
  assert (A1 := G ((1 + 1) * x + 1)). assert (A2 := G ((1 + 1 + 1) * x + (1 + 1))). assert (A3 := G ((1 + 1 + 1 + 1) * x + (1 + 1 + 1))).
  assert (A4 := G ((1 + 1 + 1 + 1 + 1) * x + (1 + 1 + 1 + 1))). assert (A5 := G ((1 + 1 + 1 + 1 + 1 + 1) * x + (1 + 1 + 1 + 1 + 1))). lra.
Qed.
Lemma sin_neg_le s : 12 / 10 <= s <= 16 / 10 -> sin (- s) <= -91 / 100.
Proof.
  intro H. rewrite sin_neg. assert (A := sin_ge s ltac:(lra)). assert (Z : 91 / 100 <= s - s ^ 3 / 6); [|lra].
  assert (0 <= (s - 12 / 10) * (16 / 10 - s) * (s + 28 / 10)) by (apply Rmult_le_pos; [apply Rmult_le_pos|]; lra). lra.
Qed.
Lemma shubert_low : shubert_g sin (-11 / 10) <= -1365 / 100.
Proof.
  unfold shubert_g, arange. cbn [seq map sum fold_right INR].
  assert (A1 := sin_neg_le (12 / 10) ltac:(lra)). assert (A2 := sin_neg_le (13 / 10) ltac:(lra)). assert (A3 := sin_neg_le (14 / 10) ltac:(lra)).
  assert (A4 := sin_neg_le (15 / 10) ltac:(lra)). assert (A5 := sin_neg_le (16 / 10) ltac:(lra)).
  replace ((1 + 1) * (-11 / 10) + 1) with (- (12 / 10)) by lra. replace ((1 + 1 + 1) * (-11 / 10) + (1 + 1)) with (- (13 / 10)) by lra.
  replace ((1 + 1 + 1 + 1) * (-11 / 10) + (1 + 1 + 1)) with (- (14 / 10)) by lra. replace ((1 + 1 + 1 + 1 + 1) * (-11 / 10) + (1 + 1 + 1 + 1)) with (- (15 / 10)) by lra.
  replace ((1 + 1 + 1 + 1 + 1 + 1) * (-11 / 10) + (1 + 1 + 1 + 1 + 1)) with (- (16 / 10)) by lra. lra.
Qed.

(** ** Langermann *)
Definition lt_of (c r : R) : R := c * cos (PI * r) / exp (r / PI).
Lemma lt_abs c r : 0 <= c -> 0 <= r -> Rabs (lt_of c r) <= c.
Proof.
  intros C R. change (lt_of c r) with (c * cos (PI * r) * / exp (r / PI)). rewrite !Rabs_mult, (Rabs_right c) by lra. assert (A : Rabs (cos (PI * r)) <= 1) by (apply Rabs_le, COS_bound).
  assert (P := PI_bounds). assert (E : 1 <= exp (r / PI)). { rewrite <- exp_0. apply exp_mono. unfold Rdiv. apply Rmult_le_pos; [lra|]. left. apply Rinv_0_lt_compat. lra. }
  assert (I : 0 < / exp (r / PI) <= 1). { split; [apply Rinv_0_lt_compat; lra|]. rewrite <- Rinv_1. apply Rinv_le_contravar; lra. }
  rewrite (Rabs_right (/ _)) by lra. assert (B := Rabs_pos (cos (PI * r))). set (u := Rabs (cos (PI * r))) in *. set (v := / exp (r / PI)) in *. clearbody u v.
  assert (u * v <= 1) by nra. assert (0 <= c * (1 - u * v)) by (apply Rmult_le_pos; lra). replace (c * u * v) with (c * (u * v)) by ring. lra.
Qed.
(** Bounds for exp (- h) from bounds for a fourth or an eighth of it. *)
Lemma exp_part (n : nat) h a b lo hi : (0 < n)%nat -> 0 <= lo -> a <= h <= b -> lo <= exp (- (b / INR n)) -> exp (- (a / INR n)) <= hi -> lo ^ n <= exp (- h) <= hi ^ n.
Proof.
  intros N L Q A B. assert (M : 0 < INR n) by (apply lt_0_INR; exact N).
  assert (E : forall t, exp (- (t / INR n)) ^ n = exp (- t)).
  { intros t. clear - M. assert (G : forall k u, exp u ^ k = exp (INR k * u)).
    { induction k as [|k IH]; intros u; [cbn; rewrite Rmult_0_l, exp_0; reflexivity|]. cbn [pow]. rewrite IH, <- exp_plus, S_INR. f_equal. ring. }
    rewrite G. f_equal. field. lra. }
  assert (X := exp_pos (- (b / INR n))). assert (Y := exp_pos (- (a / INR n))). split.
  - apply Rle_trans with (exp (- (b / INR n)) ^ n); [apply pow_incr; lra|]. rewrite E. apply exp_mono. lra.
  - apply Rle_trans with (exp (- (a / INR n)) ^ n); [|apply pow_incr; lra]. rewrite E. apply exp_mono. lra.
Qed.
Lemma div_PI r a b : 0 <= a -> 0 <= b -> a * (31415926536 / 10 ^ 10) <= r <= b * (31415926535 / 10 ^ 10) -> a <= r / PI <= b.
Proof.
  intros A B R. assert (P := PI_bounds). split.
  - apply (Rmult_le_reg_r PI); [lra|]. unfold Rdiv. rewrite Rmult_assoc, Rinv_l, Rmult_1_r by lra. nra.
  - apply (Rmult_le_reg_r PI); [lra|]. unfold Rdiv. rewrite Rmult_assoc, Rinv_l, Rmult_1_r by lra. nra.
Qed.
Lemma lt_exp c r : lt_of c r = c * cos (PI * r) * exp (- (r / PI)).
Proof. unfold lt_of. rewrite exp_Ropp. reflexivity. Qed.
Lemma cos_near y l h : 0 <= l -> h <= 1 -> - h <= y <= - l -> 1 - h ^ 2 / 2 <= cos y <= 1 - l ^ 2 / 2 + h ^ 4 / 24.
Proof.
  intros L H Y. assert (G := cos_ge y). assert (K := cos_le y ltac:(lra)).
  assert (Y2 : l ^ 2 <= y ^ 2 <= h ^ 2) by (replace (y ^ 2) with ((- y) ^ 2) by ring; split; apply pow_incr; lra).
  assert (Y4 : y ^ 4 <= h ^ 4) by (replace (y ^ 4) with ((- y) ^ 4) by ring; apply pow_incr; lra). lra.
Qed.
Lemma lt_near10 r : 99694 / 10000 <= r <= 99700 / 10000 -> 83310 / 10 ^ 6 <= lt_of 2 r <= 83370 / 10 ^ 6.
Proof.
  intros R. rewrite lt_exp. assert (P := PI_bounds). replace (PI * r) with (PI * (r - 10) + 2 * INR 5 * PI) by (cbn; ring). rewrite cos_period.
  assert (Y : - (963 / 10000) <= PI * (r - 10) <= - (942 / 10000)) by nra.
  assert (C := cos_near _ (942 / 10000) (963 / 10000) ltac:(lra) ltac:(lra) Y). set (u := cos (PI * (r - 10))) in *. clearbody u.
  assert (Q := div_PI r (317335 / 10 ^ 5) (317356 / 10 ^ 5) ltac:(lra) ltac:(lra) ltac:(lra)).
  assert (B1 := proj1 (exp_neg_bounds (79339 / 10 ^ 5) 3 ltac:(lra))). cbv [sum_f_R0 Nat.mul Nat.add tg_alt] in B1. rewrite !INR_IZR_INZ in B1. facts B1.
  assert (B2 := proj2 (exp_neg_bounds (793337 / 10 ^ 6) 4 ltac:(lra))). cbv [sum_f_R0 Nat.mul Nat.add tg_alt] in B2. rewrite !INR_IZR_INZ in B2. facts B2.
  assert (E := exp_part 4 (r / PI) _ _ (45230 / 10 ^ 5) (45234 / 10 ^ 5) ltac:(lia) ltac:(lra) Q).
  replace (317356 / 10 ^ 5 / INR 4) with (79339 / 10 ^ 5) in E by (cbn; lra).
  assert (E' : exp (- (317335 / 10 ^ 5 / INR 4)) <= exp (- (793337 / 10 ^ 6))) by (apply exp_mono; cbn; lra).
  destruct E as [E1 E2]; [lra|lra|]. set (v := exp (- (r / PI))) in *. clearbody v. clear - C E1 E2. nra.
Qed.
Lemma lt_first r : 169452 / 10000 <= r <= 169454 / 10000 -> - (4490 / 10 ^ 6) <= lt_of 1 r <= - (4465 / 10 ^ 6).
Proof.
  intros R. rewrite lt_exp. assert (P := PI_bounds). replace (PI * r) with ((PI * (r - 17) + PI) + 2 * INR 8 * PI) by (cbn; ring). rewrite cos_period, neg_cos.
  assert (Y : - (1722 / 10000) <= PI * (r - 17) <= - (1715 / 10000)) by nra.
  assert (C := cos_near _ (1715 / 10000) (1722 / 10000) ltac:(lra) ltac:(lra) Y). set (u := cos (PI * (r - 17))) in *. clearbody u.
  assert (Q := div_PI r (53938 / 10 ^ 4) (53940 / 10 ^ 4) ltac:(lra) ltac:(lra) ltac:(lra)).
  assert (B1 := proj1 (exp_neg_bounds (67425 / 10 ^ 5) 3 ltac:(lra))). cbv [sum_f_R0 Nat.mul Nat.add tg_alt] in B1. rewrite !INR_IZR_INZ in B1. facts B1.
  assert (B2 := proj2 (exp_neg_bounds (674225 / 10 ^ 6) 3 ltac:(lra))). cbv [sum_f_R0 Nat.mul Nat.add tg_alt] in B2. rewrite !INR_IZR_INZ in B2. facts B2.
  assert (E := exp_part 8 (r / PI) _ _ (50953 / 10 ^ 5) (50957 / 10 ^ 5) ltac:(lia) ltac:(lra) Q).
  replace (53940 / 10 ^ 4 / INR 8) with (67425 / 10 ^ 5) in E by (cbn; lra).
  assert (E' : exp (- (53938 / 10 ^ 4 / INR 8)) <= exp (- (674225 / 10 ^ 6))) by (apply exp_mono; cbn; lra).
  destruct E as [E1 E2]; [lra|lra|]. set (v := exp (- (r / PI))) in *. clearbody v. clear - C E1 E2. nra.
Qed.
Lemma lt_third r : 46 / 10 ^ 6 <= r <= 47 / 10 ^ 6 -> 499992 / 10 ^ 5 <= lt_of 5 r <= 499993 / 10 ^ 5.
Proof.
  intros R. rewrite lt_exp. assert (P := PI_bounds).
  assert (Y : 0 <= PI * r <= 2 / 10 ^ 4) by nra. assert (G := cos_ge (PI * r)). assert (K := COS_bound (PI * r)).
  assert (Y2 : (PI * r) ^ 2 <= (2 / 10 ^ 4) ^ 2) by (apply pow_incr; lra). set (u := cos (PI * r)) in *. set (y := PI * r) in *. clearbody u y.
  assert (Q := div_PI r (146 / 10 ^ 7) (150 / 10 ^ 7) ltac:(lra) ltac:(lra) ltac:(lra)).
  assert (E1 := exp_ineq1_le (- (r / PI))). assert (E2 := exp_ineq1_le (r / PI)).
  assert (E3 : exp (r / PI) * exp (- (r / PI)) = 1) by (rewrite <- exp_plus, <- exp_0; f_equal; ring).
  assert (E4 := exp_pos (- (r / PI))). set (v := exp (- (r / PI))) in *. set (w := exp (r / PI)) in *. set (q := r / PI) in *. clearbody v w q.
  assert (V : v <= 1 - 145 / 10 ^ 7) by nra. assert (U : 1 - 2 / 10 ^ 8 <= u <= 1) by lra. clear - V U E1 Q E4. nra.
Qed.
Lemma lt_last r : 88 <= r -> - (1 / 10 ^ 6) <= lt_of 3 r <= 1 / 10 ^ 6.
Proof.
  intros R. rewrite lt_exp. assert (P := PI_bounds). assert (K := COS_bound (PI * r)).
  assert (B2 := proj2 (exp_neg_bounds 1 1 ltac:(lra))). cbv [sum_f_R0 Nat.mul Nat.add tg_alt] in B2. rewrite !INR_IZR_INZ in B2. facts B2.
  assert (Q : 24 <= r / PI). { apply (Rmult_le_reg_r PI); [lra|]. unfold Rdiv. rewrite Rmult_assoc, Rinv_l, Rmult_1_r by lra. lra. }
  assert (E := exp_part 24 24 24 24 0 (1 / 2) ltac:(lia) ltac:(lra) ltac:(lra)).
  replace (24 / INR 24) with 1 in E by (cbn; lra).
  destruct E as [_ E2]; [left; apply exp_pos|lra|]. assert (M : exp (- (r / PI)) <= exp (Ropp 24)) by (apply exp_mono; lra).
  assert (E4 := exp_pos (- (r / PI))). set (v := exp (- (r / PI))) in *. set (u := cos (PI * r)) in *. clearbody u v.
  assert (V : v <= 1 / 10 ^ 7) by lra. clear - V E4 K. nra.
Qed.
Lemma langermann_sum shift x : call (langermann shift) x =
  (if shift then 52 / 10 else 0) - (lt_of 1 ((nth 0 x 0 - 3) ^ 2 + (nth 1 x 0 - 5) ^ 2) + (lt_of 2 ((nth 0 x 0 - 5) ^ 2 + (nth 1 x 0 - 2) ^ 2) +
   (lt_of 5 ((nth 0 x 0 - 2) ^ 2 + (nth 1 x 0 - 1) ^ 2) + (lt_of 2 ((nth 0 x 0 - 1) ^ 2 + (nth 1 x 0 - 4) ^ 2) + lt_of 3 ((nth 0 x 0 - 7) ^ 2 + (nth 1 x 0 - 9) ^ 2))))).
Proof. unfold langermann, call, langermann_term, lt_of. cbn [map sum fold_right fst snd]. destruct shift; ring. Qed.
Lemma langermann_at shift : Rabs (call (langermann shift) (min_x (langermann shift)) - min_fx (langermann shift)) <= 1 / 10 ^ 4.
Proof.
  rewrite langermann_sum. cbn [langermann min_x min_fx nth].
  set (r1 := (200299219 / 10 ^ 8 - 3) ^ 2 + (1006096 / 10 ^ 6 - 5) ^ 2). set (r2 := (200299219 / 10 ^ 8 - 5) ^ 2 + (1006096 / 10 ^ 6 - 2) ^ 2). set (r3 := (200299219 / 10 ^ 8 - 2) ^ 2 + (1006096 / 10 ^ 6 - 1) ^ 2). set (r4 := (200299219 / 10 ^ 8 - 1) ^ 2 + (1006096 / 10 ^ 6 - 4) ^ 2). set (r5 := (200299219 / 10 ^ 8 - 7) ^ 2 + (1006096 / 10 ^ 6 - 9) ^ 2).
  assert (A1 := lt_first r1 ltac:(unfold r1; lra)). assert (A2 := lt_near10 r2 ltac:(unfold r2; lra)). assert (A3 := lt_third r3 ltac:(unfold r3; lra)).
  assert (A4 := lt_near10 r4 ltac:(unfold r4; lra)). assert (A5 := lt_last r5 ltac:(unfold r5; lra)). clearbody r1 r2 r3 r4 r5.
  apply Rabs_le. destruct shift; lra.
Qed.
Lemma langermann_ge (shift : bool) x : (if shift then 52 / 10 else 0) - 13 <= call (langermann shift) x <= (if shift then 52 / 10 else 0) + 13.
Proof.
  rewrite langermann_sum.
  assert (S : forall a b : R, 0 <= a ^ 2 + b ^ 2) by (intros; nra).
  assert (A1 := lt_abs 1 _ ltac:(lra) (S (nth 0 x 0 - 3) (nth 1 x 0 - 5))). assert (A2 := lt_abs 2 _ ltac:(lra) (S (nth 0 x 0 - 5) (nth 1 x 0 - 2))).
  assert (A3 := lt_abs 5 _ ltac:(lra) (S (nth 0 x 0 - 2) (nth 1 x 0 - 1))). assert (A4 := lt_abs 2 _ ltac:(lra) (S (nth 0 x 0 - 1) (nth 1 x 0 - 4))).
  assert (A5 := lt_abs 3 _ ltac:(lra) (S (nth 0 x 0 - 7) (nth 1 x 0 - 9))).
  assert (I : forall a b, Rabs a <= b -> - b <= a <= b) by (intros a b H; unfold Rabs in H; destruct (Rcase_abs a); lra).
  apply I in A1, A2, A3, A4, A5. destruct shift; lra.
Qed.

(** ** Michalewicz *)
Lemma michalewicz_range m x k : Forall (fun v => 0 <= v <= PI) x ->
  0 <= sum (map (fun p => sin (snd p) * sin (INR (fst p) * snd p ^ 2 / PI) ^ (2 * m)) (combine (seq k (length x)) x)) <= INR (length x).
Proof.
  intros F. revert k. induction F as [|v x V F IH]; intros k; [cbn; lra|].
  cbn [length seq combine map]. unfold sum in *. cbn [fold_right fst snd]. rewrite S_INR. specialize (IH (S k)).
  assert (A := sin_ge_0 v (proj1 V) (proj2 V)). assert (A' := SIN_bound v).
  set (s := sin (INR k * v ^ 2 / PI)). assert (B := SIN_bound (INR k * v ^ 2 / PI)). fold s in B. clearbody s.
  assert (C : 0 <= s ^ (2 * m) <= 1). { rewrite pow_mult. assert (D : 0 <= s ^ 2 <= 1) by nra. split; [apply pow_le; lra|]. rewrite <- (pow1 m). apply pow_incr. lra. }
  set (w := s ^ (2 * m)) in *. clearbody w. clear - IH A A' C. nra.
Qed.
Lemma michalewicz_zero m d : michalewicz m (repeat 0 d) = 0.
Proof.
  unfold michalewicz. rewrite repeat_length. remember (seq 1 d) as l eqn:L. assert (N : length l = d) by (subst; apply seq_length). clear L. revert l N. induction d as [|d IH]; intros l N; [destruct l; cbn; ring|].
  destruct l as [|k l]; [discriminate|]. cbn [repeat combine map]. unfold sum in *. cbn [fold_right fst snd]. rewrite sin_0, Rmult_0_l, Rplus_0_l. apply IH. injection N as N. exact N.
Qed.
Lemma michalewicz_m1 : michalewicz 1 [21 / 10; PI / 2] < - (18013 / 10 ^ 4).
Proof.
  unfold michalewicz. cbn [length seq combine map fst snd]. unfold sum. cbn [fold_right]. change (2 * 1)%nat with 2%nat. assert (P := PI_bounds).
  replace (INR 2 * (PI / 2) ^ 2 / PI) with (PI / 2) by (cbn; field; lra). rewrite sin_PI2.
  replace (INR 1 * (21 / 10) ^ 2 / PI) with ((441 / 100) / PI) by (cbn; field; lra).
  assert (Q := div_PI (441 / 100) (14037 / 10 ^ 4) (14038 / 10 ^ 4) ltac:(lra) ltac:(lra) ltac:(lra)). set (q := 441 / 100 / PI) in *. clearbody q.
  assert (A := cos_ge (PI / 2 - 21 / 10)). rewrite cos_shift in A. assert (B := cos_ge (PI / 2 - q)). rewrite cos_shift in B.
  assert (A2 : (PI / 2 - 21 / 10) ^ 2 <= 281 / 1000) by nra. assert (B2 : (PI / 2 - q) ^ 2 <= 28 / 1000) by nra.
  set (a := sin (21 / 10)) in *. set (b := sin q) in *. clearbody a b. assert (A3 : 859 / 1000 <= a) by lra. assert (B3 : 985 / 1000 <= b) by lra.
  assert (B4 : 970 / 1000 <= b ^ 2) by nra. set (c := b ^ 2) in *. clearbody c. clear - A3 B4. nra.
Qed.
