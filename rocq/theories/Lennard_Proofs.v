(** * Lennard-Jones: bound and gradient *)
From Verif Require Import Bench_Model Bench_Spec Bench_Proofs.
Local Open Scope R_scope.

Lemma triu_in n i j : In (i, j) (triu n) <-> (i < j < n)%nat.
Proof.
  unfold triu. rewrite in_flat_map. split.
  - intros [k [Hk H]]. apply in_map_iff in H as [m [E Hm]]. injection E as -> ->. apply in_seq in Hk, Hm. lia.
  - intro H. exists i. split; [apply in_seq; lia|]. apply in_map_iff. exists j. split; [reflexivity | apply in_seq; lia].
Qed.
Lemma flat_map_length' {A B} (f : A -> list B) l : length (flat_map f l) = list_sum (map (fun a => length (f a)) l).
Proof. induction l; cbn; [reflexivity|]. rewrite app_length, IHl. reflexivity. Qed.
Lemma triu_length n : (2 * length (triu n) = n * (n - 1))%nat.
Proof.
  unfold triu. rewrite flat_map_length'.
  replace (map (fun i => length (map (fun j => (i, j)) (seq (S i) (n - S i)))) (seq 0 n)) with (map (fun i => n - S i)%nat (seq 0 n)) by (apply map_ext; intro; rewrite map_length, seq_length; reflexivity).
  assert (G : forall m s, (s + m = n)%nat -> (2 * list_sum (map (fun i => n - S i)%nat (seq s m)) = m * (m - 1))%nat).
  { induction m as [|m IH]; intros s H; [reflexivity|]. cbn [seq map list_sum fold_right]. specialize (IH (S s) ltac:(lia)). unfold list_sum in IH. destruct m; nia. }
  apply G. lia.
Qed.

(** ** Bound *)
Lemma pair_ge sigma r2 : - (1 / 4) <= lj_pair sigma r2.
Proof.
  unfold lj_pair. destruct (Req_EM_T r2 0); [lra|]. set (u := sigma ^ 2 / r2). replace (u ^ 6) with (u ^ 3 * u ^ 3) by ring. assert (A := pow_even (u ^ 3 - 1 / 2)). lra.
Qed.
Lemma lj_ge n d eps sigma X : 0 <= eps -> - eps * INR (length (triu n)) <= lj n d eps sigma X.
Proof.
  intro He. unfold lj. assert (A := sum_map_ge (fun ij => lj_pair sigma (dist_sq d X ij)) (- (1 / 4)) (triu n) (fun v _ => pair_ge _ _)).
  apply (Rmult_le_compat_r (4 * eps)) in A; lra.
Qed.
(** Two atoms at the right distance. *)
Lemma sixth_root : exists r, 0 < r /\ r ^ 6 = 2.
Proof.
  exists (Rpower 2 (1 / 6)). split; [apply exp_pos|]. rewrite <- Rpower_pow by apply exp_pos. rewrite Rpower_mult. replace (1 / 6 * INR 6) with 1 by (cbn; field). apply Rpower_1. lra.
Qed.
Lemma two_atoms eps sigma : 0 < sigma -> exists X, configuration 2 1 X /\ lj 2 1 eps sigma X = - eps.
Proof.
  intro Hs. destruct sixth_root as [r [Hr R6]]. exists [[0]; [sigma * r]]. split; [repeat constructor|].
  unfold lj, triu, dist_sq, coord. cbn [seq flat_map Nat.sub map app nth fst snd sum fold_right]. unfold lj_pair.
  assert (P : 0 < (0 - sigma * r) ^ 2 + 0) by (assert (0 < sigma * r) by (apply Rmult_lt_0_compat; assumption); nra).
  destruct (Req_EM_T ((0 - sigma * r) ^ 2 + 0) 0); [lra|].
  replace ((sigma ^ 2 / ((0 - sigma * r) ^ 2 + 0)) ^ 6) with (/ (r ^ 6 * r ^ 6)) by (field; repeat split; nra).
  replace ((sigma ^ 2 / ((0 - sigma * r) ^ 2 + 0)) ^ 3) with (/ (r ^ 6)) by (field; repeat split; nra). rewrite R6. lra.
Qed.

(** ** Gradient *)
Lemma nth_put {A} (l : list A) : forall i j a dft, nth j (put l i a) dft = if (Nat.eqb j i && Nat.ltb j (length l))%bool then a else nth j l dft.
Proof.
  induction l as [|b l IH]; intros i j a dft; [destruct j; cbn; rewrite Bool.andb_false_r; reflexivity|]. destruct i as [|i], j as [|j]; cbn [put nth Nat.eqb]; try reflexivity.
  rewrite IH. reflexivity.
Qed.
Lemma coord_moved n d X k c t i c' : configuration n d X -> (k < n)%nat -> (c < d)%nat ->
  coord (moved X k c t) i c' = if (Nat.eqb i k && Nat.eqb c' c)%bool then t else coord X i c'.
Proof.
  intros [L F] Hk Hc. unfold coord, moved. rewrite nth_put. assert (Lk : length (nth k X []) = d).
  { rewrite Forall_forall in F. apply F. apply nth_In. lia. }
  destruct (Nat.eqb_spec i k) as [->|N]; cbn [andb]; [|reflexivity]. replace (Nat.ltb k (length X)) with true by (symmetry; apply Nat.ltb_lt; lia).
  rewrite nth_put. destruct (Nat.eqb_spec c' c) as [->|N]; cbn [andb]; [|reflexivity]. replace (Nat.ltb c (length (nth k X []))) with true by (symmetry; apply Nat.ltb_lt; lia). reflexivity.
Qed.
Lemma deriv_ext f g x l : (forall t, f t = g t) -> derivable_pt_lim f x l -> derivable_pt_lim g x l.
Proof. intros E H e He. destruct (H e He) as [del D]. exists del. intros h H1 H2. rewrite <- !E. apply D; assumption. Qed.
Lemma deriv_val f x l l' : l = l' -> derivable_pt_lim f x l -> derivable_pt_lim f x l'.
Proof. intros ->. auto. Qed.
Lemma deriv_sum {A} (F : A -> R -> R) (D : A -> R) x (l : list A) :
  (forall a, In a l -> derivable_pt_lim (F a) x (D a)) -> derivable_pt_lim (fun t => sum (map (fun a => F a t) l)) x (sum (map D l)).
Proof.
  induction l as [|a l IH]; intro H; [apply derivable_pt_lim_const|].
  change (derivable_pt_lim (fun t => F a t + sum (map (fun a => F a t) l)) x (D a + sum (map D l))).
  apply (derivable_pt_lim_plus (F a) (fun t => sum (map (fun a => F a t) l))); [apply H; left; reflexivity | apply IH; intros b Hb; apply H; right; exact Hb].
Qed.
Definition ind (b : bool) : R := if b then 1 else 0.
Lemma deriv_coord n d X k c i c' : configuration n d X -> (k < n)%nat -> (c < d)%nat -> forall x,
  derivable_pt_lim (fun t => coord (moved X k c t) i c') x (ind (Nat.eqb i k && Nat.eqb c' c)).
Proof.
  intros HX Hk Hc x. eapply deriv_ext; [intro t; symmetry; apply (coord_moved n d); assumption|]. unfold ind. destruct (Nat.eqb i k && Nat.eqb c' c)%bool.
  - apply derivable_pt_lim_id.
  - apply derivable_pt_lim_const.
Qed.
Lemma moved_same n d X k c i c' : configuration n d X -> (k < n)%nat -> (c < d)%nat -> coord (moved X k c (coord X k c)) i c' = coord X i c'.
Proof.
  intros HX Hk Hc. rewrite (coord_moved n d) by assumption. destruct (Nat.eqb_spec i k) as [->|]; [|reflexivity]. destruct (Nat.eqb_spec c' c) as [->|]; reflexivity.
Qed.
Lemma sum_single (v : R) c d : (c < d)%nat -> sum (map (fun c' => if Nat.eqb c' c then v else 0) (seq 0 d)) = v.
Proof.
  intro H. assert (G : forall m s, sum (map (fun c' => if Nat.eqb c' c then v else 0) (seq s m)) = if (Nat.leb s c && Nat.ltb c (s + m))%bool then v else 0).
  { induction m as [|m IH]; intro s.
    - destruct (Nat.leb_spec s c), (Nat.ltb_spec c (s + 0)); cbn [andb map seq sum fold_right]; (reflexivity || lia).
    - cbn [seq map sum fold_right]. unfold sum in IH. rewrite IH. destruct (Nat.eqb_spec s c), (Nat.leb_spec (S s) c), (Nat.ltb_spec c (S s + m)), (Nat.leb_spec s c), (Nat.ltb_spec c (s + S m)); cbn; try lia; lra. }
  rewrite G. destruct (Nat.ltb_spec c (0 + d)); [cbn; reflexivity | lia].
Qed.
Lemma deriv_dist n d X k c ij : configuration n d X -> (k < n)%nat -> (c < d)%nat ->
  derivable_pt_lim (fun t => dist_sq d (moved X k c t) ij) (coord X k c)
    (2 * (coord X (fst ij) c - coord X (snd ij) c) * (ind (Nat.eqb (fst ij) k) - ind (Nat.eqb (snd ij) k))).
Proof.
  intros HX Hk Hc. unfold dist_sq.
  apply (deriv_val _ _ (sum (map (fun c' => 2 * (coord X (fst ij) c' - coord X (snd ij) c') * (ind (Nat.eqb (fst ij) k && Nat.eqb c' c) - ind (Nat.eqb (snd ij) k && Nat.eqb c' c))) (seq 0 d)))).
  - rewrite <- (sum_single (2 * (coord X (fst ij) c - coord X (snd ij) c) * (ind (Nat.eqb (fst ij) k) - ind (Nat.eqb (snd ij) k))) c d Hc). f_equal. apply map_ext. intro c'.
    destruct (Nat.eqb_spec c' c) as [->|N]; [rewrite !Bool.andb_true_r; reflexivity|]. rewrite !Bool.andb_false_r. cbn [ind]. ring.
  - apply (deriv_sum (fun c' t => (coord (moved X k c t) (fst ij) c' - coord (moved X k c t) (snd ij) c') ^ 2)). intros c' _.
    assert (A := derivable_pt_lim_minus _ _ _ _ _ (deriv_coord n d X k c (fst ij) c' HX Hk Hc (coord X k c)) (deriv_coord n d X k c (snd ij) c' HX Hk Hc (coord X k c))).
    assert (B := derivable_pt_lim_mult _ _ _ _ _ A A). unfold minus_fct, mult_fct in B.
    eapply deriv_ext; [|eapply deriv_val; [|exact B]].
    + intro t. cbn. ring.
    + cbv beta. rewrite !(moved_same n d) by assumption. ring.
Qed.
Definition pair_slope (sigma r : R) : R := -6 * sigma ^ 12 * / r ^ 7 + 3 * sigma ^ 6 * / r ^ 4.
Lemma deriv_inv_pow a m r : r <> 0 -> derivable_pt_lim (fun t => (a / t) ^ S m) r (- INR (S m) * a ^ S m * / r ^ S (S m)).
Proof.
  intro Hr. assert (I : derivable_pt_lim (fun t => a / t) r (- a * / r ^ 2)).
  { assert (A := derivable_pt_lim_div (fct_cte a) id r 0 1 (derivable_pt_lim_const a r) (derivable_pt_lim_id r) Hr). unfold div_fct, fct_cte, id in A.
    eapply deriv_val; [|exact A]. unfold Rsqr. field. exact Hr. }
  assert (P := derivable_pt_lim_comp _ _ _ _ _ I (derivable_pt_lim_pow (a / r) (S m))). unfold comp in P. eapply deriv_val; [|exact P]. cbn [pred].
  unfold Rdiv. rewrite Rpow_mult_distr, pow_inv. cbn [pow]. field. split; [apply pow_nonzero|]; exact Hr.
Qed.
Lemma deriv_pair sigma r : 0 < r -> derivable_pt_lim (lj_pair sigma) r (pair_slope sigma r).
Proof.
  intro Hr. apply (derivable_pt_lim_locally_ext (fun t => (sigma ^ 2 / t) ^ 6 - (sigma ^ 2 / t) ^ 3) _ r (r / 2) (2 * r)); [lra | |].
  - intros z Hz. unfold lj_pair. destruct (Req_EM_T z 0); [lra | reflexivity].
  - assert (A := derivable_pt_lim_minus _ _ _ _ _ (deriv_inv_pow (sigma ^ 2) 5 r ltac:(lra)) (deriv_inv_pow (sigma ^ 2) 2 r ltac:(lra))). unfold minus_fct in A.
    eapply deriv_val; [|exact A]. unfold pair_slope. cbn [INR]. field. lra.
Qed.
Lemma dist_nonneg d X ij : 0 <= dist_sq d X ij.
Proof. unfold dist_sq. apply sum_map_nonneg. intro. apply pow_even. Qed.
Lemma deriv_lj n d eps sigma X k c : configuration n d X -> (k < n)%nat -> (c < d)%nat -> (forall ij, In ij (triu n) -> dist_sq d X ij <> 0) ->
  derivable_pt_lim (fun t => lj n d eps sigma (moved X k c t)) (coord X k c)
    (sum (map (fun ij => 4 * eps * (pair_slope sigma (dist_sq d X ij) * (2 * (coord X (fst ij) c - coord X (snd ij) c) * (ind (Nat.eqb (fst ij) k) - ind (Nat.eqb (snd ij) k))))) (triu n))).
Proof.
  intros HX Hk Hc Hd. apply (deriv_ext (fun t => sum (map (fun ij => 4 * eps * lj_pair sigma (dist_sq d (moved X k c t) ij)) (triu n)))).
  - intro t. unfold lj. generalize (triu n). intro l. induction l as [|ij l IH]; cbn; [lra|]. unfold sum in IH. rewrite IH. ring.
  - apply (deriv_sum (fun ij t => 4 * eps * lj_pair sigma (dist_sq d (moved X k c t) ij))). intros ij Hij. apply derivable_pt_lim_scal.
    assert (A := derivable_pt_lim_comp _ (lj_pair sigma) _ _ (pair_slope sigma (dist_sq d X ij)) (deriv_dist n d X k c ij HX Hk Hc)). apply A.
    assert (E : dist_sq d (moved X k c (coord X k c)) ij = dist_sq d X ij).
    { unfold dist_sq. f_equal. apply map_ext. intro c'. rewrite !(moved_same n d) by assumption. reflexivity. }
    rewrite E. apply deriv_pair. assert (B := dist_nonneg d X ij). specialize (Hd ij Hij). lra.
Qed.
(** The distance of the code and that of the specification. *)
Lemma dist_spec n d X i j p q : configuration n d X -> nth_error X i = Some p -> nth_error X j = Some q -> dist_sq d X (i, j) = distance_sq p q.
Proof.
  intros [L F] Hp Hq. rewrite Forall_forall in F. assert (Lp : length p = d) by (apply F; eapply nth_error_In; eauto). assert (Lq : length q = d) by (apply F; eapply nth_error_In; eauto).
  unfold dist_sq, coord, distance_sq. cbn [fst snd]. rewrite (nth_error_nth X i [] Hp), (nth_error_nth X j [] Hq). clear - Lp Lq.
  assert (G : forall s p q, length p = length q -> sum (map (fun c => (nth (c - s) p 0 - nth (c - s) q 0) ^ 2) (seq s (length p))) =
    fold_right Rplus 0 (map (fun uv => (fst uv - snd uv) * (fst uv - snd uv)) (combine p q))).
  { clear. intros s p. revert s. induction p as [|u p IH]; intros s [|v q] H; try discriminate; [reflexivity|]. cbn [length seq map sum fold_right combine fst snd].
    rewrite Nat.sub_diag. cbn [nth]. rewrite <- (IH (S s) q) by (cbn in H; lia). f_equal; [ring|]. unfold sum. f_equal. apply map_ext_in. intros a Ha. apply in_seq in Ha.
    replace (a - s)%nat with (S (a - S s)) by lia. reflexivity. }
  rewrite <- (G 0%nat p q) by congruence. rewrite Lp. f_equal. apply map_ext. intro c. rewrite Nat.sub_0_r. reflexivity.
Qed.
Lemma separated_dist n d X : configuration n d X -> separated X -> forall ij, In ij (triu n) -> dist_sq d X ij <> 0.
Proof.
  intros HX S [i j] H. apply triu_in in H. assert (L := proj1 HX). destruct (nth_error X i) as [p|] eqn:Ep; [|apply nth_error_None in Ep; lia].
  destruct (nth_error X j) as [q|] eqn:Eq; [|apply nth_error_None in Eq; lia]. rewrite (dist_spec n d X i j p q HX Ep Eq). apply (S i j p q); [lia | assumption | assumption].
Qed.
Lemma gradient_unit n d eps X k c : configuration n d X -> separated X -> (k < n)%nat -> (c < d)%nat ->
  derivable_pt_lim (fun t => lj n d eps 1 (moved X k c t)) (coord X k c) (lj_jacobian n d eps 1 X k c).
Proof.
  intros HX S Hk Hc. assert (D := separated_dist n d X HX S). eapply deriv_val; [|apply (deriv_lj n d eps 1 X k c HX Hk Hc D)].
  unfold lj_jacobian. f_equal. apply map_ext_in. intros ij Hij. cbv zeta. unfold lj_factor. destruct (Req_EM_T (dist_sq d X ij) 0) as [E|N]; [elim (D ij Hij E)|].
  unfold pair_slope. rewrite !pow1. destruct (Nat.eqb (fst ij) k), (Nat.eqb (snd ij) k); cbn [ind]; field; exact N.
Qed.
