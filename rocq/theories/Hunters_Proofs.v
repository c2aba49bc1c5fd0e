(** * Proofs about hunters *)
From Coq Require Import Reals Qreals Lra.
From Verif Require Import Prelude Prelude_Proofs Logger_Model Hunters_Model HuntersR_Model Hunters_Spec.

Lemma nums_of_CF fs : nums_of (map CF fs) = fs.
Proof. induction fs as [|f fs IH]; [reflexivity|]. cbn. f_equal. exact IH. Qed.
Lemma points_of_CX xs : points_of (map CX xs) = xs.
Proof. induction xs as [|f fs IH]; [reflexivity|]. cbn. f_equal. exact IH. Qed.

Lemma recorded_fx l i xs fs : recorded l i xs fs -> fx_history i l = Ok fs.
Proof. intros [_ H]. unfold fx_history. rewrite H, nums_of_CF. reflexivity. Qed.
Lemma recorded_x l i xs fs : recorded l i xs fs -> x_history i l = Ok xs.
Proof. intros [H _]. unfold x_history. rewrite H, points_of_CX. reflexivity. Qed.

Lemma recorded_len l i xs fs : recorded l i xs fs -> len_opt i l = length fs.
Proof.
  intros [_ H]. unfold get_history in H. unfold len_opt. destruct (has_iter_history i l).
  - destruct (nget i (l_store l)) as [e|]; [|discriminate]. destruct (sget "fx" (e_cols e)) as [c|]; [|discriminate].
    injection H as ->. apply map_length.
  - injection H as H. destruct fs; [reflexivity| discriminate].
Qed.

Lemma min_func_calls_spec l h v xs fs n : recorded l v xs fs ->
  (min_func_calls n l h v = Ok true <-> n <= length fs).
Proof.
  intro Hr. unfold min_func_calls. rewrite (recorded_len _ _ _ _ Hr).
  split; [intros [= H]; apply Nat.leb_le, H| intro H; f_equal; apply Nat.leb_le, H].
Qed.

(** ** Minimum *)
Lemma nlt_false_nle a b : nnan a = false -> nnan b = false -> nlt a b = false -> nle b a = true.
Proof.
  destruct a, b; cbn; auto; try discriminate. intros _ _. rewrite negb_false_iff. auto.
Qed.
Lemma nlt_nle a b : nlt a b = true -> nle a b = true.
Proof.
  destruct a, b; cbn; auto; try discriminate. rewrite negb_true_iff. intro H. apply Qle_bool_iff.
  apply Qlt_le_weak, Qnot_le_lt. intro H1. apply Qle_bool_iff in H1. congruence.
Qed.
Lemma nle_trans a b c : nle a b = true -> nle b c = true -> nle a c = true.
Proof. destruct a, b, c; cbn; auto; try discriminate. rewrite !Qle_bool_iff. apply Qle_trans. Qed.
Lemma nle_refl a : nnan a = false -> nle a a = true.
Proof. destruct a; cbn; auto; try discriminate. intros _. apply Qle_bool_iff, Qle_refl. Qed.

Lemma pymin_fold l : forall a, nnan a = false -> (forall v, In v l -> nnan v = false) ->
  let m := fold_left (fun m v => if nlt v m then v else m) l a in
  (m = a \/ In m l) /\ nnan m = false /\ nle m a = true /\ forall v, In v l -> nle m v = true.
Proof.
  induction l as [|b l IH]; intros a Ha Hl; cbn.
  - split; [left; reflexivity|]. split; [exact Ha|]. split; [apply nle_refl, Ha| intros v []].
  - assert (Hb : nnan b = false) by (apply Hl; left; reflexivity).
    destruct (nlt b a) eqn:E.
    + destruct (IH b Hb) as [H1 [H2 [H3 H4]]]; [intros v Hv; apply Hl; right; exact Hv|]. splits; auto.
      * destruct H1 as [->|H1]; auto.
      * eapply nle_trans; [exact H3| apply nlt_nle, E].
      * intros v [->|Hv]; auto.
    + destruct (IH a Ha) as [H1 [H2 [H3 H4]]]; [intros v Hv; apply Hl; right; exact Hv|]. splits; auto.
      * destruct H1 as [H1|H1]; auto.
      * intros v [->|Hv]; auto. eapply nle_trans; [exact H3| apply nlt_false_nle; assumption].
Qed.

Lemma pymin_least l : l <> [] -> (forall v, In v l -> nnan v = false) -> exists m, pymin l = Ok m /\ least m l.
Proof.
  destruct l as [|a l]; [congruence|]. intros _ Hl. cbn. eexists. split; [reflexivity|].
  destruct (pymin_fold l a) as [H1 [H2 [H3 H4]]]; [apply Hl; left; reflexivity| intros v Hv; apply Hl; right; exact Hv|].
  split.
  - destruct H1 as [H1|H1]; [left; symmetry; exact H1| right; exact H1].
  - intros v [<-|Hv]; auto.
Qed.

Lemma best_unmoving_short l h v xs fs calls tol : recorded l v xs fs -> length fs <= calls ->
  best_unmoving calls tol l h v = Ok false.
Proof.
  intros Hr Hn. unfold best_unmoving. rewrite (recorded_fx _ _ _ _ Hr), (recorded_len _ _ _ _ Hr). cbn.
  apply Nat.leb_le in Hn. rewrite Hn. reflexivity.
Qed.

Lemma best_unmoving_spec l h v xs old new calls tol : recorded l v xs (old ++ new) -> length new = calls -> 0 < calls -> old <> [] ->
  (forall f, In f (old ++ new) -> nnan f = false) ->
  exists a b, least a old /\ least b (old ++ new) /\
    best_unmoving calls tol l h v = Ok (nle (nabs (nminus b a)) (nabs (nmul a tol))).
Proof.
  intros Hr Hn Hc Ho Hf. unfold best_unmoving. rewrite (recorded_fx _ _ _ _ Hr), (recorded_len _ _ _ _ Hr). cbn [rbind].
  assert (E : Nat.leb (length (old ++ new)) calls = false).
  { apply Nat.leb_gt. rewrite app_length, Hn. destruct old; [congruence| cbn; lia]. }
  rewrite E. assert (Hd : drop_last_n calls (old ++ new) = old).
  { unfold drop_last_n. destruct calls; [lia|]. rewrite app_length, Hn.
    replace (length old + S calls - S calls) with (length old) by lia.
    rewrite firstn_app, Nat.sub_diag, firstn_all, firstn_O, app_nil_r. reflexivity. }
  rewrite Hd. destruct (pymin_least old Ho) as [a [Ha La]]; [intros f Hin; apply Hf, in_app_iff; auto|].
  destruct (pymin_least (old ++ new)) as [b [Hb Lb]]; [destruct old; discriminate || congruence| exact Hf|].
  rewrite Ha. cbn. rewrite Hb. exists a, b. auto.
Qed.

(** A NaN at the start of the history is never replaced by min(). *)
Lemma pymin_nan l : pymin (NaN :: l) = Ok NaN.
Proof. cbn. f_equal. induction l as [|b l IH]; [reflexivity|]. cbn. replace (nlt b NaN) with false by (destruct b; reflexivity). exact IH. Qed.

Lemma best_unmoving_nan l h v xs fs calls tol : recorded l v xs (NaN :: fs) -> 0 < calls -> best_unmoving calls tol l h v = Ok false.
Proof.
  intros Hr Hc. unfold best_unmoving. rewrite (recorded_fx _ _ _ _ Hr), (recorded_len _ _ _ _ Hr). cbn [rbind].
  destruct (Nat.leb (length (NaN :: fs)) calls) eqn:E; [reflexivity|]. apply Nat.leb_gt in E. cbn [length] in E.
  unfold drop_last_n. destruct calls as [|c]; [lia|]. cbn [length].
  replace (S (length fs) - S c) with (S (length fs - S c)) by lia.
  cbn [firstn]. rewrite !pymin_nan. reflexivity.
Qed.

(** ** LastPointsInvalid *)
Lemma last_n_app {A} (old new : list A) : new <> [] -> last_n (length new) (old ++ new) = new.
Proof.
  intro H. unfold last_n. destruct (length new) eqn:E; [destruct new; [congruence| discriminate]|].
  rewrite <- E, app_length. replace (length old + length new - length new) with (length old) by lia.
  rewrite skipn_app, skipn_all, Nat.sub_diag. reflexivity.
Qed.
Lemma last_n_short {A} n (l : list A) : length l <= n -> last_n n l = l.
Proof. intro H. unfold last_n. destruct n; [reflexivity|]. replace (length l - S n) with 0 by lia. reflexivity. Qed.
Lemma split_last {A} n (l : list A) : n <= length l -> exists old new, l = old ++ new /\ length new = n.
Proof.
  intro H. exists (firstn (length l - n) l), (skipn (length l - n) l). split; [symmetry; apply firstn_skipn|]. rewrite skipn_length. lia.
Qed.

Lemma last_points_invalid_spec l h v xs fs n : recorded l v xs fs -> 0 < n ->
  (last_points_invalid n l h v = Ok true <->
   exists old new, fs = old ++ new /\ length new = n /\ forall f, In f new -> nfinite f = false).
Proof.
  intros Hr Hn. unfold last_points_invalid. rewrite (recorded_fx _ _ _ _ Hr). cbn [rbind]. split.
  - intros [= H]. apply andb_true_iff in H as [H1 H2]. apply Nat.leb_le in H1. apply negb_true_iff in H2.
    destruct (Nat.le_gt_cases n (length fs)) as [Hle|Hgt].
    + destruct (split_last n fs Hle) as [old [new [-> Hnew]]]. exists old, new. splits; auto.
      assert (Hne : new <> []) by (destruct new; cbn in Hnew; [lia| discriminate]).
      rewrite <- Hnew in H2. rewrite (last_n_app old new Hne) in H2. intros f Hf. destruct (nfinite f) eqn:E; [|reflexivity].
      assert (existsb nfinite new = true) by (apply existsb_exists; eauto). congruence.
    + rewrite last_n_short in H1 by lia. lia.
  - intros [old [new [-> [<- H]]]]. assert (Hne : new <> []) by (destruct new; cbn in Hn; [lia| discriminate]).
    rewrite (last_n_app old new Hne), Nat.leb_refl. f_equal. apply negb_true_iff. destruct (existsb nfinite new) eqn:E; [|reflexivity].
    apply existsb_exists in E as [f [H1 H2]]. rewrite H in H2 by exact H1. discriminate.
Qed.

(** ** Real arithmetic *)
Lemma Q2R_le_iff a b : Qle_bool a b = true <-> (Q2R a <= Q2R b)%R.
Proof. rewrite Qle_bool_iff. split; [apply Qle_Rle| apply Rle_Qle]. Qed.

Lemma nsum_fin qs : exists s, nsum (map Fin qs) = Fin s /\ Q2R s = rsum (reals qs).
Proof.
  induction qs as [|q qs [s [H1 H2]]].
  - exists 0%Q. split; [reflexivity| apply RMicromega.Q2R_0].
  - change (nsum (map Fin (q :: qs))) with (nplus (Fin q) (nsum (map Fin qs))). rewrite H1. exists (q + s)%Q. split; [reflexivity|]. rewrite Q2R_plus, H2. reflexivity.
Qed.

Lemma Q2R_inv_nat n : 0 < n -> Q2R (1 # Pos.of_nat n) = (/ INR n)%R.
Proof.
  intro H. unfold Q2R. cbn. rewrite Rmult_1_l. f_equal. rewrite INR_IZR_INZ. f_equal.
  rewrite <- positive_nat_Z, Nat2Pos.id by lia. reflexivity.
Qed.

Lemma nmean_fin qs : qs <> [] -> exists m, nmean (map Fin qs) = Fin m /\ Q2R m = rmean (reals qs).
Proof.
  intro Hne. destruct (nsum_fin qs) as [s [H1 H2]].
  assert (E : nmean (map Fin qs) = nmul (Fin (1 # Pos.of_nat (length (map Fin qs)))) (nsum (map Fin qs))) by (destruct qs; [congruence| reflexivity]).
  rewrite E, H1, map_length. cbn [nmul]. eexists. split; [reflexivity|].
  rewrite Q2R_mult, H2, Q2R_inv_nat by (destruct qs; [congruence| cbn; lia]). unfold rmean, reals. rewrite map_length. unfold Rdiv. ring.
Qed.

Lemma nvar_fin qs : qs <> [] -> exists w, nvar (map Fin qs) = Fin w /\
  Q2R w = rmean (map (fun v => (v - rmean (reals qs)) ^ 2)%R (reals qs)).
Proof.
  intro Hne. destruct (nmean_fin qs Hne) as [m [H1 H2]]. unfold nvar. cbv zeta. rewrite H1.
  assert (E : map (fun v => nsq (nminus v (Fin m))) (map Fin qs) = map Fin (map (fun q => (q + - m) * (q + - m))%Q qs)).
  { rewrite !map_map. reflexivity. }
  rewrite E. destruct (nmean_fin (map (fun q => (q + - m) * (q + - m))%Q qs)) as [w [H3 H4]].
  { destruct qs; [congruence| discriminate]. }
  exists w. split; [exact H3|]. rewrite H4. f_equal. unfold reals. rewrite !map_map. apply map_ext. intro q.
  rewrite Q2R_mult, Q2R_plus, Q2R_opp, H2. unfold reals. ring.
Qed.

Lemma rsum_nonneg l : (forall x, In x l -> (0 <= x)%R) -> (0 <= rsum l)%R.
Proof. induction l as [|a l IH]; cbn; intro H; [lra|]. specialize (IH (fun x Hx => H x (or_intror Hx))). specialize (H a (or_introl eq_refl)). unfold rsum in IH. lra. Qed.

Lemma rmean_nonneg l : (forall x, In x l -> (0 <= x)%R) -> (0 <= rmean l)%R.
Proof.
  intro H. unfold rmean. destruct l as [|a l]; [cbn; unfold Rdiv; rewrite Rmult_0_l; lra|].
  apply Rmult_le_pos; [apply rsum_nonneg, H|]. left. apply Rinv_0_lt_compat. apply lt_0_INR. cbn. lia.
Qed.

Lemma sqrt_le_sq a b : (0 <= a)%R -> (0 <= b)%R -> ((sqrt a <= b)%R <-> (a <= b ^ 2)%R).
Proof.
  intros Ha Hb. split; intro H.
  - rewrite <- (pow2_sqrt a Ha). apply pow_incr. split; [apply sqrt_pos| exact H].
  - rewrite <- (sqrt_pow2 b Hb). apply sqrt_le_1_alt, H.
Qed.

Lemma evals_unmoving_short l h v xs fs calls tol : recorded l v xs fs -> length fs < calls ->
  evals_unmoving calls tol l h v = Ok false.
Proof.
  intros Hr Hn. unfold evals_unmoving. rewrite (recorded_fx _ _ _ _ Hr), (recorded_len _ _ _ _ Hr). cbn [rbind].
  apply Nat.ltb_lt in Hn. rewrite Hn. reflexivity.
Qed.

Lemma evals_unmoving_spec l h v xs old new z calls tol : recorded l v xs (old ++ map Fin (new ++ [z])) -> length (new ++ [z]) = calls ->
  exists b, evals_unmoving calls (Fin tol) l h v = Ok b /\
    (b = true <-> (std_dev (reals (new ++ [z])) <= Rabs (Q2R z * Q2R tol))%R).
Proof.
  intros Hr Hn. unfold evals_unmoving. rewrite (recorded_fx _ _ _ _ Hr), (recorded_len _ _ _ _ Hr). cbn [rbind].
  assert (E : Nat.ltb (length (old ++ map Fin (new ++ [z]))) calls = false) by (apply Nat.ltb_ge; rewrite app_length, map_length; lia).
  rewrite E. assert (Hl : last_n calls (old ++ map Fin (new ++ [z])) = map Fin (new ++ [z])).
  { rewrite <- Hn. rewrite <- (map_length Fin (new ++ [z])). apply last_n_app. rewrite map_app. destruct (map Fin new); discriminate. }
  rewrite Hl. rewrite map_app, app_assoc, rev_app_distr. cbn [rev app map]. change [Fin z] with (map Fin [z]). rewrite <- map_app.
  destruct (nvar_fin (new ++ [z])) as [w [H1 H2]]; [destruct new; discriminate|]. rewrite H1. cbn [nsq nmul].
  eexists. split; [reflexivity|]. cbn [nle]. rewrite Q2R_le_iff. unfold std_dev. rewrite <- H2.
  rewrite sqrt_le_sq.
  - unfold nsq. rewrite pow2_abs, !Q2R_mult. replace ((Q2R z * Q2R tol) ^ 2)%R with (Q2R z * Q2R tol * (Q2R z * Q2R tol))%R by ring. tauto.
  - rewrite H2. apply rmean_nonneg. intros x Hx. apply in_map_iff in Hx as [y [<- _]]. apply pow2_ge_0.
  - apply Rabs_pos.
Qed.

(** Infinite or NaN values in the window. *)
Lemma nplus_fin a b : nfinite (nplus a b) = true -> nfinite a = true /\ nfinite b = true.
Proof. destruct a, b; cbn; auto; try discriminate. Qed.

Lemma nsum_cases l v : In v l -> nfinite v = false ->
  nsum l = NaN \/ (nsum l = PInf /\ v = PInf) \/ (nsum l = NInf /\ v = NInf).
Proof.
  induction l as [|a l IH]; [intros []|]. intros Hin Hv. cbn. destruct Hin as [->|Hin].
  - fold (nsum l). destruct v, (nsum l); cbn in *; try discriminate; auto.
  - destruct (IH Hin Hv) as [E|[[E ->]|[E ->]]]; fold (nsum l); rewrite E; destruct a; cbn; auto.
Qed.

Lemma nsum_nan l : In NaN l -> nsum l = NaN.
Proof.
  intro H. destruct (nsum_cases l NaN H eq_refl) as [E|[[_ E]|[_ E]]]; [exact E| discriminate| discriminate].
Qed.

Lemma nmul_pos_inf p a : nmul (Fin (1 # p)) a = match a with Fin q => Fin ((1 # p) * q) | x => x end.
Proof. destruct a; reflexivity. Qed.

Lemma nvar_nonfinite l v : In v l -> nfinite v = false -> nvar l = NaN.
Proof.
  intros Hin Hv. unfold nvar. cbv zeta. set (m := nmean l).
  assert (Hm : nminus v m = NaN).
  { subst m. unfold nmean. destruct l as [|a l]; [destruct Hin|]. rewrite nmul_pos_inf.
    destruct (nsum_cases (a :: l) v Hin Hv) as [E|[[E ->]|[E ->]]]; rewrite E; cbn; [destruct v; reflexivity| reflexivity| reflexivity]. }
  assert (Hn : In NaN (map (fun v => nsq (nminus v m)) l)) by (apply in_map_iff; exists v; rewrite Hm; auto).
  unfold nmean. destruct (map (fun v => nsq (nminus v m)) l) as [|a l'] eqn:E; [destruct Hn|].
  rewrite nmul_pos_inf, nsum_nan by exact Hn. reflexivity.
Qed.

Lemma evals_unmoving_nonfinite l h v xs old new calls tol f : recorded l v xs (old ++ new) -> length new = calls ->
  In f new -> nfinite f = false -> evals_unmoving calls tol l h v = Ok false.
Proof.
  intros Hr Hn Hin Hf. unfold evals_unmoving. rewrite (recorded_fx _ _ _ _ Hr), (recorded_len _ _ _ _ Hr). cbn [rbind].
  assert (E : Nat.ltb (length (old ++ new)) calls = false) by (apply Nat.ltb_ge; rewrite app_length; lia).
  assert (Hne : new <> []) by (destruct new; [destruct Hin| discriminate]).
  rewrite E. rewrite <- Hn, (last_n_app old new Hne). rewrite (nvar_nonfinite new f Hin Hf).
  destruct (rev (old ++ new)) as [|z r] eqn:Er; [|reflexivity].
  apply (f_equal (@length num)) in Er. rewrite rev_length, app_length in Er. destruct new; [congruence| cbn in Er; lia].
Qed.

(** ** ParameterDistance *)
Lemma dist2_fin p : forall q, exists d, dist2 (map Fin p) (map Fin q) = Fin d /\
  Q2R d = rsum (map (fun ab => (fst ab - snd ab) ^ 2)%R (combine (reals p) (reals q))).
Proof.
  induction p as [|a p IH]; intros [|b q]; cbn.
  1-3: exists 0%Q; split; [reflexivity| apply RMicromega.Q2R_0].
  destruct (IH q) as [d [H1 H2]]. rewrite H1. cbn. eexists. split; [reflexivity|].
  rewrite Q2R_plus, H2, Q2R_mult, Q2R_plus, Q2R_opp. unfold rsum, reals. cbn. ring.
Qed.

Lemma sqdist_nonneg (p q : list R) : (0 <= rsum (map (fun ab => (fst ab - snd ab) ^ 2)%R (combine p q)))%R.
Proof. apply rsum_nonneg. intros x Hx. apply in_map_iff in Hx as [y [<- _]]. apply pow2_ge_0. Qed.

Lemma close_iff p q lo hi rel : (0 < rel)%Q ->
  nle (dist2 (map Fin p) (map Fin q)) (nmul (nsq (Fin rel)) (dist2 (map Fin lo) (map Fin hi))) = true <->
  (euclid (reals p) (reals q) <= Q2R rel * euclid (reals lo) (reals hi))%R.
Proof.
  intro Hrel. destruct (dist2_fin p q) as [d [-> Hd]]. destruct (dist2_fin lo hi) as [s [-> Hs]].
  cbn [nsq nmul nle]. unfold nsq. cbn [nmul nle]. rewrite Q2R_le_iff. unfold euclid. rewrite <- Hd, <- Hs.
  assert (0 <= Q2R rel)%R by (rewrite <- RMicromega.Q2R_0; apply Qle_Rle, Qlt_le_weak, Hrel).
  assert (0 <= Q2R d)%R by (rewrite Hd; apply sqdist_nonneg).
  assert (0 <= Q2R s)%R by (rewrite Hs; apply sqdist_nonneg).
  rewrite sqrt_le_sq; [|assumption| apply Rmult_le_pos; [assumption| apply sqrt_pos]].
  rewrite Rpow_mult_distr, pow2_sqrt by assumption. rewrite !Q2R_mult. replace (Q2R rel ^ 2)%R with (Q2R rel * Q2R rel)%R by ring. tauto.
Qed.

Lemma make_pd_inv lo hi rel all pd :
  make_parameter_distance (combine (map Fin lo) (map Fin hi)) (Fin rel) all = Ok pd -> length lo = length hi ->
  (0 < rel)%Q /\ pd = mkPD (Fin rel) (dist2 (map Fin lo) (map Fin hi)) all.
Proof.
  intros H Hlen. unfold make_parameter_distance in H. destruct (nlt (Fin 0) (Fin rel)) eqn:E; [|discriminate].
  destruct (bounds_valid _) as [b|e]; [|discriminate]. injection H as <-. split.
  - cbn in E. apply negb_true_iff in E. apply Qnot_le_lt. intro Hle. apply Qle_bool_iff in Hle. congruence.
  - f_equal. f_equal.
    + clear -Hlen. revert hi Hlen. induction lo as [|a lo IH]; intros [|b hi] H; cbn in *; try discriminate; [reflexivity|]. f_equal. apply IH. lia.
    + clear -Hlen. revert hi Hlen. induction lo as [|a lo IH]; intros [|b hi] H; cbn in *; try discriminate; [reflexivity|]. f_equal. apply IH. lia.
Qed.

Lemma pd_loop_spec l v pv lo hi rel all js : (0 < rel)%Q -> last_point l v pv ->
  (forall j, In j js -> no_point l j \/ exists p, last_point l j p) ->
  exists b, pd_loop (mkPD (Fin rel) (dist2 (map Fin lo) (map Fin hi)) all) js l v = Ok b /\
    (b = true <-> exists j p, In j js /\ j <> v /\ last_point l j p /\
                  (euclid (reals p) (reals pv) <= Q2R rel * euclid (reals lo) (reals hi))%R).
Proof.
  intros Hrel [xv [fv Hv]]. induction js as [|j js IH]; intros Hj; cbn [pd_loop].
  - exists false. split; [reflexivity|]. split; [discriminate|]. intros [j [p [[] _]]].
  - destruct IH as [b [Hb Hiff]]; [intros k Hk; apply Hj; right; exact Hk|].
    assert (Hskip : (b = true <-> exists j p, In j js /\ j <> v /\ last_point l j p /\
                  (euclid (reals p) (reals pv) <= Q2R rel * euclid (reals lo) (reals hi))%R) ->
       ~ (j <> v /\ exists p, last_point l j p /\ (euclid (reals p) (reals pv) <= Q2R rel * euclid (reals lo) (reals hi))%R) ->
       (b = true <-> exists j0 p, In j0 (j :: js) /\ j0 <> v /\ last_point l j0 p /\
                  (euclid (reals p) (reals pv) <= Q2R rel * euclid (reals lo) (reals hi))%R)).
    { intros Hi Hno. rewrite Hi. split.
      - intros [k [p [H1 H2]]]. exists k, p. split; [right; exact H1| exact H2].
      - intros [k [p [[<-|H1] [H2 [H3 H4]]]]]; [destruct Hno; eauto|]. exists k, p. auto. }
    destruct (Nat.eqb j v) eqn:Ejv.
    + apply Nat.eqb_eq in Ejv. exists b. split; [exact Hb|]. apply Hskip; [exact Hiff|]. tauto.
    + apply Nat.eqb_neq in Ejv. destruct (Hj j (or_introl eq_refl)) as [[fs Hn]|[p Hp]].
      * rewrite (recorded_x _ _ _ _ Hn). cbn. exists b. split; [exact Hb|]. apply Hskip; [exact Hiff|].
        intros [_ [p [[xs [fs' Hr]] _]]]. pose proof (recorded_x _ _ _ _ Hr) as E1. rewrite (recorded_x _ _ _ _ Hn) in E1.
        injection E1 as E1. destruct xs; discriminate.
      * assert (Huniq : forall p', last_point l j p' -> p' = p).
        { intros p' [x1 [f1 H1]]. destruct Hp as [x2 [f2 H2]]. pose proof (recorded_x _ _ _ _ H1) as E1.
          rewrite (recorded_x _ _ _ _ H2) in E1. injection E1 as E1. apply app_inj_tail in E1 as [_ E1]. symmetry in E1.
          clear -E1. revert p E1. induction p' as [|a p' IH]; intros [|b p] E; try discriminate; [reflexivity|].
          cbn in E. injection E as -> E. f_equal. apply IH, E. }
        assert (Hp' := Hp). destruct Hp' as [xs [fs Hr]]. rewrite (recorded_x _ _ _ _ Hr). cbn [rbind].
        rewrite rev_app_distr. cbn [rev app]. rewrite (recorded_x _ _ _ _ Hv). cbn [rbind]. rewrite rev_app_distr. cbn [rev app pd_rel pd_space2].
        pose proof (close_iff p pv lo hi rel Hrel) as Hclose.
        destruct (nle (dist2 (map Fin p) (map Fin pv)) _).
        -- exists true. split; [reflexivity|]. split; [intros _|auto]. exists j, p. splits; auto. left. reflexivity. apply Hclose. reflexivity.
        -- exists b. split; [exact Hb|]. apply Hskip; [exact Hiff|]. intros [_ [p' [H1 H2]]]. rewrite (Huniq p' H1) in H2.
           apply Hclose in H2. discriminate.
Qed.

(** ** TypeHunter *)
Lemma type_hunter_spec ty l h v t : get_metadata v "opt_type" l = Ok t -> (type_hunter ty l h v = Ok true <-> ty = t).
Proof. intro H. unfold type_hunter. rewrite H. split; [intros [= E]; apply String.eqb_eq, E| intros ->; rewrite String.eqb_refl; reflexivity]. Qed.

(** ** StepSize *)
Lemma rsum2_fin p : forall q, rsum2 (map Fin p) (map Fin q) =
  Some (rsum (map (fun ab => (fst ab - snd ab) ^ 2)%R (combine (reals p) (reals q)))).
Proof.
  induction p as [|a p IH]; intros [|b q]; try reflexivity. cbn [map rsum2]. rewrite IH. reflexivity.
Qed.
Lemma rdistance_fin p q : rdistance (map Fin p) (map Fin q) = Some (euclid (reals p) (reals q)).
Proof. unfold rdistance. rewrite rsum2_fin. reflexivity. Qed.

Lemma osum_steps l : osum (steps (map (map Fin) l)) = Some (path_length (map reals l)).
Proof.
  induction l as [|a [|b l] IH]; try reflexivity.
  change (steps (map (map Fin) (a :: b :: l))) with (rdistance (map Fin b) (map Fin a) :: steps (map (map Fin) (b :: l))).
  rewrite rdistance_fin. cbn [osum]. rewrite IH. reflexivity.
Qed.
Lemma steps_length l : length (steps l) = length l - 1.
Proof. induction l as [|a [|b l] IH]; try reflexivity. change (S (length (steps (b :: l))) = S (length l)). rewrite IH. cbn. lia. Qed.

Lemma step_size_short l h v xs fs space calls tol : recorded l v xs fs -> length xs < calls -> step_size space calls tol l h v = Ok false.
Proof.
  intros Hr Hn. unfold step_size. rewrite (recorded_x _ _ _ _ Hr). cbn. rewrite last_n_short by lia.
  apply Nat.leb_gt in Hn. rewrite Hn. reflexivity.
Qed.

Lemma step_size_spec l h v old new fs space calls tol : recorded l v (old ++ map (map Fin) new) fs -> length new = calls -> 2 <= calls ->
  exists b, step_size space calls tol l h v = Ok b /\
    (b = true <-> (path_length (map reals new) / INR (calls - 1) <= tol * space)%R).
Proof.
  intros Hr Hn Hc. unfold step_size. rewrite (recorded_x _ _ _ _ Hr). cbn [rbind].
  assert (Hl : last_n calls (old ++ map (map Fin) new) = map (map Fin) new).
  { rewrite <- Hn, <- (map_length (map Fin) new). apply last_n_app. destruct new; [cbn in Hn; lia| discriminate]. }
  rewrite Hl, map_length, Hn, Nat.leb_refl. eexists. split; [reflexivity|].
  assert (Hm : omean (steps (map (map Fin) new)) = Some (path_length (map reals new) / INR (calls - 1))%R).
  { unfold omean. rewrite osum_steps. pose proof (steps_length (map (map Fin) new)) as Hs. rewrite map_length, Hn in Hs.
    destruct (steps (map (map Fin) new)) eqn:E; [cbn in Hs; lia|]. rewrite Hs. reflexivity. }
  rewrite Hm. destruct (Rle_dec _ _) as [H|H]; split; auto; discriminate || contradiction.
Qed.

Lemma step_size_one l h v old new fs space tol : recorded l v (old ++ [new]) fs -> step_size space 1 tol l h v = Ok false.
Proof.
  intros Hr. unfold step_size. rewrite (recorded_x _ _ _ _ Hr). cbn [rbind].
  change 1 with (length [new]). rewrite last_n_app by discriminate. reflexivity.
Qed.

(** ** TimeAnnealing *)
Lemma time_annealing_spec l h v n m crit u : len_opt h l = n -> len_opt v l = m -> 0 < m -> (0 < crit)%Q ->
  exists b, time_annealing crit u l h v = Ok b /\
    (b = true <-> (inject_Z (Z.of_nat n) / inject_Z (Z.of_nat m) / crit < u)%Q).
Proof.
  intros Hh Hv Hm Hc. unfold time_annealing. rewrite Hh, Hv. destruct m as [|m]; [lia|]. eexists. split; [reflexivity|].
  set (r := (inject_Z (Z.of_nat n) / inject_Z (Z.of_nat (S m)))%Q). clearbody r.
  rewrite negb_true_iff. split.
  - intro H. apply Qnot_le_lt. intro Hle. assert (Hx : Qle_bool (crit * u) r = true).
    { apply Qle_bool_iff. rewrite Qmult_comm. apply (Qmult_le_compat_r _ _ crit) in Hle; [|apply Qlt_le_weak, Hc].
      unfold Qdiv in Hle. rewrite <- Qmult_assoc, (Qmult_comm (/ crit)), Qmult_inv_r, Qmult_1_r in Hle; [exact Hle|].
      intro E. rewrite E in Hc. discriminate. }
    congruence.
  - intro H. destruct (Qle_bool (crit * u) r) eqn:E; [|reflexivity]. apply Qle_bool_iff in E.
    exfalso. apply (Qlt_not_le _ _ H). apply Qle_shift_div_l; [exact Hc|]. rewrite Qmult_comm. exact E.
Qed.

Lemma time_annealing_never l h v n m crit u : len_opt h l = n -> len_opt v l = m -> 0 < m ->
  (0 < crit)%Q -> (u <= 1)%Q -> (crit <= inject_Z (Z.of_nat n) / inject_Z (Z.of_nat m))%Q ->
  time_annealing crit u l h v = Ok false.
Proof.
  intros Hh Hv Hm Hc Hu Hr. destruct (time_annealing_spec l h v n m crit u Hh Hv Hm Hc) as [b [Hb Hiff]].
  rewrite Hb. destruct b; [|reflexivity]. destruct Hiff as [H _]. specialize (H eq_refl). exfalso.
  apply (Qlt_not_le _ _ H). apply (Qle_trans _ 1); [exact Hu|]. apply Qle_shift_div_l; [exact Hc|]. rewrite Qmult_1_l. exact Hr.
Qed.

(** ** ValueAnnealing *)
Lemma va_never l h v fh fv mkc u : best_fx l h fh -> best_fx l v fv -> nle fv fh = true ->
  value_annealing mkc u l h v = Ok false.
Proof.
  intros [bh [Hh <-]] [bv [Hv <-]] Hle. unfold value_annealing. rewrite Hh, Hv. cbn [rbind]. rewrite Hle, orb_true_r. reflexivity.
Qed.

Lemma va_spec l h v a b mkc u : best_fx l h (Fin a) -> best_fx l v (Fin b) -> ~ (a == 0)%Q -> (a < b)%Q ->
  exists r, value_annealing mkc u l h v = Ok r /\ (r = true <-> (survival mkc (Q2R a) (Q2R b) < u)%R).
Proof.
  intros [bh [Hh Ea]] [bv [Hv Eb]] Hz Hlt. unfold value_annealing. rewrite Hh, Hv. cbn [rbind]. rewrite Ea, Eb.
  assert (H1 : neq (Fin a) (Fin 0) = false).
  { unfold neq. cbn. destruct (Qle_bool a 0) eqn:E1, (Qle_bool 0 a) eqn:E2; try reflexivity. apply Qle_bool_iff in E1, E2.
    destruct Hz. apply Qle_antisym; assumption. }
  assert (H2 : nle (Fin b) (Fin a) = false).
  { cbn. destruct (Qle_bool b a) eqn:E; [|reflexivity]. apply Qle_bool_iff in E. exfalso. exact (Qlt_not_le _ _ Hlt E). }
  rewrite H1, H2. cbn [orb]. eexists. split; [reflexivity|]. unfold survival, strictness.
  destruct (Rlt_dec _ _); split; auto; discriminate || contradiction.
Qed.

Lemma survival_range mkc a b : (0 < mkc < 1)%R -> (0 < survival mkc a b <= 1)%R.
Proof.
  intros [H1 H2]. unfold survival. split; [apply exp_pos|]. rewrite <- exp_0.
  assert (ln mkc < 0)%R by (rewrite <- ln_1; apply ln_increasing; assumption).
  assert (0 <= Rabs ((a - b) / a))%R by apply Rabs_pos.
  destruct (Req_dec (Rabs ((a - b) / a) * ln mkc) 0) as [E|E]; [rewrite E; lra|].
  left. apply exp_increasing. nra.
Qed.

Lemma survival_twice mkc a : (0 < mkc)%R -> (a <> 0)%R -> survival mkc a (2 * a) = mkc.
Proof.
  intros H1 H2. unfold survival. replace ((a - 2 * a) / a)%R with (-1)%R by (field; exact H2).
  replace (Rabs (-1)) with 1%R by (rewrite Rabs_left; lra). rewrite Rmult_1_l. apply exp_ln, H1.
Qed.

Lemma survival_decreasing mkc a b c : (0 < mkc < 1)%R -> (a <> 0)%R -> (a < b)%R -> (b < c)%R -> (survival mkc a c < survival mkc a b)%R.
Proof.
  intros [H1 H2] Ha Hab Hbc. unfold survival. apply exp_increasing.
  assert (ln mkc < 0)%R by (rewrite <- ln_1; apply ln_increasing; assumption).
  unfold Rdiv. rewrite !Rabs_mult, !Rabs_inv.
  assert (0 < Rabs a)%R by (apply Rabs_pos_lt, Ha).
  rewrite (Rabs_left (a - b)), (Rabs_left (a - c)) by lra.
  assert (0 < / Rabs a)%R by (apply Rinv_0_lt_compat; assumption).
  assert (Hk : (- (a - b) * / Rabs a < - (a - c) * / Rabs a)%R) by (apply Rmult_lt_compat_r; [assumption| lra]).
  generalize dependent (- (a - b) * / Rabs a)%R. generalize (- (a - c) * / Rabs a)%R. intros. nra.
Qed.

Lemma last_point_unique l j p p' : last_point l j p -> last_point l j p' -> p' = p.
Proof.
  intros [x2 [f2 H2]] [x1 [f1 H1]]. pose proof (recorded_x _ _ _ _ H1) as E1.
  rewrite (recorded_x _ _ _ _ H2) in E1. injection E1 as E1. apply app_inj_tail in E1 as [_ E1]. symmetry in E1.
  clear -E1. revert p E1. induction p' as [|a p' IH]; intros [|b p] E; try discriminate; [reflexivity|].
  cbn in E. injection E as -> E. f_equal. apply IH, E.
Qed.

Lemma make_step_size_spec lo hi : length lo = length hi -> box lo hi ->
  make_step_size (combine (map Fin lo) (map Fin hi)) = Ok (Some (euclid (reals lo) (reals hi))).
Proof.
  intros Hlen [_ [_ Hb]]. unfold make_step_size.
  assert (Hv : bounds_valid (combine (map Fin lo) (map Fin hi)) = Ok true).
  { clear Hlen. revert hi Hb. induction lo as [|a lo IH]; intros [|b hi] Hb; try reflexivity. cbn.
    pose proof (Hb 0 a b eq_refl eq_refl) as H0. destruct (Qle_bool b a) eqn:E.
    - apply Qle_bool_iff in E. exfalso. exact (Qlt_not_le _ _ H0 E).
    - apply IH. intros k. exact (Hb (S k)). }
  rewrite Hv. cbn [rbind].
  assert (map fst (combine (map Fin lo) (map Fin hi)) = map Fin lo /\ map snd (combine (map Fin lo) (map Fin hi)) = map Fin hi) as [-> ->].
  { clear -Hlen. revert hi Hlen. induction lo as [|a lo IH]; intros [|b hi] H; cbn in *; try discriminate; [auto|].
    destruct (IH hi) as [-> ->]; [lia|auto]. }
  rewrite rdistance_fin. reflexivity.
Qed.
