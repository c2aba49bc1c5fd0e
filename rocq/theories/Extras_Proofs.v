(** * Proofs about extra results, classic files and residuals *)
From Verif Require Import Prelude Prelude_Proofs Extras_Model Extras_Spec.
From Coq Require Import Lia Lqa.
Open Scope nat_scope.

(** ** infer_headers *)
Lemma infer_from_pos l : forall n h, infer_from n l = Ok h -> map fst h = seq n (length l) /\ Forall2 (fun v c => infer_one v = Ok c) l (map snd h).
Proof.
  induction l as [|v l IH]; intros n h E; cbn in E.
  - injection E as <-. split; [reflexivity|constructor].
  - destruct (infer_one v) eqn:V; [|discriminate]. destruct (infer_from (S n) l) eqn:F; [|discriminate].
    injection E as <-. destruct (IH _ _ F) as [A B]. cbn. rewrite A. split; auto.
Qed.
Lemma infer_one_supported v : supported v <-> exists c, infer_one v = Ok c.
Proof. destruct v; cbn; split; intro H; try exact I; try contradiction; try (eexists; reflexivity); destruct H; discriminate. Qed.
Lemma infer_one_err v e : infer_one v = Err e -> e = TypeError.
Proof. destruct v; cbn; congruence. Qed.
Lemma infer_from_total l : forall n, Forall supported l -> exists h, infer_from n l = Ok h.
Proof.
  induction l as [|v l IH]; intros n F; [now eexists|]. inversion F as [|? ? S F']; subst. cbn.
  apply infer_one_supported in S as [c ->]. destruct (IH (Datatypes.S n) F') as [h ->]. now eexists.
Qed.
Lemma infer_from_err l : forall n e, infer_from n l = Err e -> e = TypeError /\ ~ Forall supported l.
Proof.
  intros n e E. split.
  - revert n E. induction l as [|v l IH]; intros n E; cbn in E; [discriminate|]. destruct (infer_one v) eqn:V.
    + destruct (infer_from (S n) l) eqn:F; [discriminate|]. injection E as <-. eauto.
    + injection E as <-. eapply infer_one_err; eauto.
  - intro F. destruct (infer_from_total l n F). congruence.
Qed.

(** ** Storing *)
Lemma int64_spec z : int64 z = true <-> (- 2 ^ 63 <= z < 2 ^ 63)%Z.
Proof. unfold int64. rewrite andb_true_iff, Z.leb_le, Z.ltb_lt. reflexivity. Qed.
Lemma truncq_int z : truncq (inject_Z z) = z.
Proof. unfold truncq. destruct (Qle_bool 0 (inject_Z z)); [apply Qfloor_Z|apply Qceiling_Z]. Qed.
Lemma to_int_int z : (- 2 ^ 63 <= z < 2 ^ 63)%Z -> to_int (Fin (inject_Z z)) = Ok z.
Proof. intro H. apply int64_spec in H. unfold to_int. now rewrite truncq_int, H. Qed.
Lemma cast_holds d x : holds d x -> cast d x = Ok x.
Proof.
  destruct d; unfold holds, cast.
  - intros [-> | ->]; reflexivity.
  - intros (z & H & ->). now rewrite to_int_int.
  - reflexivity.
Qed.
Lemma map_res_id {A} (f : A -> res A) l : Forall (fun a => f a = Ok a) l -> map_res f l = Ok l.
Proof. induction 1 as [|a l H F IH]; cbn; [reflexivity|]. now rewrite H, IH. Qed.
Lemma align_same sh : align sh sh = Some sh.
Proof. unfold align. now rewrite Nat.leb_refl, Nat.sub_diag. Qed.
Lemma conform_same sh : conform sh sh = true.
Proof. induction sh; cbn; [reflexivity|]. now rewrite Nat.eqb_refl. Qed.
Lemma size_prod sh : size sh = fold_right Nat.mul 1 sh.
Proof. induction sh; cbn; congruence. Qed.
Lemma chunks_concat {A} k n : forall l : list A, length l = k * n -> concat (chunks k n l) = l /\ Forall (fun c => length c = n) (chunks k n l).
Proof.
  induction k as [|k IH]; intros l H; cbn in *.
  - destruct l; [now split|discriminate].
  - destruct (IH (skipn n l)) as [A1 B]; [rewrite skipn_length; lia|]. rewrite A1, firstn_skipn. split; [reflexivity|].
    constructor; [rewrite firstn_length; lia|exact B].
Qed.
Lemma spread_same {A} sh : forall l : list A, length l = size sh -> spread sh sh l = l.
Proof.
  induction sh as [|n sh IH]; intros l H; cbn in *; [reflexivity|]. rewrite Nat.eqb_refl.
  destruct (chunks_concat n (size sh) l H) as [E F]. rewrite <- E at 2. f_equal.
  clear E. induction F as [|c cs L F IH']; cbn; [reflexivity|]. now rewrite IH, IH'.
Qed.
Lemma substring_short s : forall n, String.length s <= n -> substring 0 n s = s.
Proof. induction s as [|a s IH]; intros [|n] H; cbn in *; try reflexivity; [lia|]. rewrite IH; [reflexivity|lia]. Qed.
Lemma is_ascii_spec s : is_ascii s = true <-> forall a, In a (list_ascii_of_string s) -> Ascii.nat_of_ascii a < 128.
Proof.
  unfold is_ascii. rewrite forallb_forall. split; intros H a I; specialize (H a I); [now apply Nat.ltb_lt|now apply Nat.ltb_lt].
Qed.

Lemma store_exact v w c : infer_one v = Ok c -> same_kind v w -> store c w = Ok w.
Proof.
  destruct v, w; cbn [same_kind infer_one]; try contradiction; intros E K; injection E as <-.
  - reflexivity.
  - cbn. now destruct b0.
  - cbn [store number]. now rewrite to_int_int.
  - destruct K as [L A]. apply is_ascii_spec in A. unfold store. now rewrite A, substring_short.
  - destruct K as (-> & -> & L & F). unfold store, fill_array. rewrite align_same, conform_same, spread_same by now rewrite size_prod.
    unfold cast_all. rewrite map_res_id; [reflexivity|]. eapply Forall_impl; [|exact F]. intro. apply cast_holds.
  - reflexivity.
Qed.
Lemma store_row_exact first : forall n h row, infer_from n first = Ok h -> Forall2 same_kind first row -> store_row h row = Ok row.
Proof.
  induction first as [|v first IH]; intros n h row E F; inversion F; subst; cbn in E.
  - now injection E as <-.
  - destruct (infer_one v) eqn:V; [|discriminate]. destruct (infer_from (S n) first) eqn:G; [|discriminate]. injection E as <-. cbn.
    rewrite (store_exact _ _ _ V) by assumption. erewrite IH by eauto. reflexivity.
Qed.
Lemma map_res_spec {A B} (f : A -> res B) l : forall r, map_res f l = Ok r -> Forall2 (fun a b => f a = Ok b) l r.
Proof.
  induction l as [|a l IH]; intros r E; cbn in E; [injection E as <-; constructor|].
  destruct (f a) eqn:H; [|discriminate]. destruct (map_res f l); [|discriminate]. injection E as <-. constructor; auto.
Qed.

Lemma nth_error_same {A} (l : list A) : forall l', (forall j, nth_error l j = nth_error l' j) -> l = l'.
Proof.
  induction l as [|a l IH]; intros [|b l'] H; [reflexivity|specialize (H 0); discriminate|specialize (H 0); discriminate|].
  f_equal; [specialize (H 0); cbn in H; congruence|]. apply IH. intro j. exact (H (S j)).
Qed.

(** ** setup_reax_from_classic *)
Lemma set_active_spec ps : forall bs, length bs = length ps ->
  Forall2 (fun (pb : param * bool) p' => p' = mkP (p_name (fst pb)) (p_val (fst pb)) (p_lo (fst pb)) (p_hi (fst pb)) (snd pb)) (combine ps bs) (set_active ps bs).
Proof. induction ps as [|p ps IH]; intros [|b bs] H; try discriminate; cbn; constructor; auto. Qed.
Lemma qle_false a b : Qle_bool a b = false <-> (b < a)%Q.
Proof.
  split; intro H.
  - apply Qnot_le_lt. intro L. apply Qle_bool_iff in L. congruence.
  - destruct (Qle_bool a b) eqn:E; [|reflexivity]. apply Qle_bool_iff in E. apply Qle_not_lt in E. contradiction.
Qed.
Lemma half_between a b : (a < b)%Q -> (a < (a + b) / 2 < b)%Q.
Proof.
  intro H. split.
  - apply Qlt_shift_div_l; lra.
  - apply Qlt_shift_div_r; lra.
Qed.
Lemma centre_inside p : p_act p = true -> (p_lo p < p_hi p)%Q -> inside (centre p) /\ p_act (centre p) = true /\
  p_lo (centre p) = p_lo p /\ p_hi (centre p) = p_hi p /\ p_name (centre p) = p_name p.
Proof.
  intros A H. unfold centre, inside. rewrite A.
  destruct (Qle_bool (p_val p) (p_lo p)) eqn:E1; [|destruct (Qle_bool (p_hi p) (p_val p)) eqn:E2]; cbn;
    try (pose proof (half_between _ _ H); splits; tauto).
  apply qle_false in E1. apply qle_false in E2. splits; auto.
Qed.
Lemma centre_keeps p : p_act p = false \/ inside p -> centre p = p.
Proof.
  intros [A|[A B]]; unfold centre; [now rewrite A|]. apply qle_false in A. apply qle_false in B. rewrite A, B. now destruct (p_act p).
Qed.
Lemma centre_name p : p_name (centre p) = p_name p /\ p_act (centre p) = p_act p /\ p_lo (centre p) = p_lo p /\ p_hi (centre p) = p_hi p.
Proof. unfold centre. destruct (p_act p) eqn:A; cbn; [|auto]. destruct (negb _); cbn; auto. Qed.

(** ** Residuals *)
Lemma reweigh_one_spec r w es : forall i es', reweigh_one i r w es = Some es' ->
  exists k e, nth_error es k = Some e /\ names r (i + k) e = true /\ (forall j e', j < k -> nth_error es j = Some e' -> names r (i + j) e' = false) /\
    nth_error es' k = Some (mkE (e_key e) w (e_sigma e)) /\ (forall j, j <> k -> nth_error es' j = nth_error es j) /\ length es' = length es.
Proof.
  induction es as [|e es IH]; intros i es' E; cbn in E; [discriminate|]. destruct (names r i e) eqn:N.
  - injection E as <-. exists 0, e. rewrite Nat.add_0_r. splits; auto; [lia|]. intros [|j] H; [lia|reflexivity].
  - destruct (reweigh_one (S i) r w es) eqn:R; [|discriminate]. injection E as <-.
    destruct (IH _ _ R) as (k & e' & H1 & H2 & H3 & H4 & H5 & H6). exists (S k), e'. rewrite Nat.add_succ_r. splits; auto.
    + intros [|j] e0 L G; cbn in G.
      * injection G as <-. now rewrite Nat.add_0_r.
      * rewrite Nat.add_succ_r. apply (H3 j e0); [lia|assumption].
    + intros [|j] L; [reflexivity|]. cbn. apply H5. lia.
    + cbn. now rewrite H6.
Qed.
Lemma reweigh_one_some r w es : forall i k e, nth_error es k = Some e -> names r (i + k) e = true -> exists es', reweigh_one i r w es = Some es'.
Proof.
  induction es as [|e0 es IH]; intros i k e G N; [destruct k; discriminate|]. cbn. destruct (names r i e0) eqn:N0; [now eexists|].
  destruct k as [|k]; cbn in G.
  - injection G as ->. rewrite Nat.add_0_r in N. congruence.
  - rewrite Nat.add_succ_r in N. destruct (IH (S i) k e G N) as [es' ->]. now eexists.
Qed.
Lemma nodup_key es : NoDup (map e_key es) -> forall j k e e', nth_error es j = Some e -> nth_error es k = Some e' -> e_key e = e_key e' -> j = k.
Proof.
  intros N j k e e' A B K. refine (proj1 (NoDup_nth_error (map e_key es)) N j k _ _).
  - rewrite map_length. apply nth_error_Some. congruence.
  - rewrite !nth_error_map, A, B. cbn. now rewrite K.
Qed.
Lemma names_unique es r j k e e' : NoDup (map e_key es) -> nth_error es j = Some e -> nth_error es k = Some e' ->
  names r j e = true -> names r k e' = true -> j = k.
Proof.
  intros N A B. destruct r; cbn; intros H1 H2.
  - apply String.eqb_eq in H1. apply String.eqb_eq in H2. eapply nodup_key; eauto. congruence.
  - apply Nat.eqb_eq in H1. apply Nat.eqb_eq in H2. congruence.
Qed.
Lemma reweigh_one_pointwise r w es es' : NoDup (map e_key es) -> reweigh_one 0 r w es = Some es' ->
  map e_key es' = map e_key es /\ forall j e, nth_error es j = Some e ->
    nth_error es' j = Some (mkE (e_key e) (if names r j e then w else e_weight e) (e_sigma e)).
Proof.
  intros N E. destruct (reweigh_one_spec _ _ _ _ _ E) as (k & e0 & H1 & H2 & H3 & H4 & H5 & H6). cbn in *.
  assert (P : forall j e, nth_error es j = Some e ->
    nth_error es' j = Some (mkE (e_key e) (if names r j e then w else e_weight e) (e_sigma e))).
  { intros j e G. destruct (Nat.eq_dec j k) as [->|D].
    - assert (e = e0) by congruence. subst. now rewrite H2.
    - rewrite H5 by assumption. rewrite G. destruct (names r j e) eqn:X; [|now destruct e].
      exfalso. apply D. eapply names_unique; eauto. }
  split; [|exact P]. apply nth_error_same. intro j. rewrite !nth_error_map. destruct (nth_error es j) eqn:G.
  - now rewrite (P _ _ G).
  - cbn. destruct (nth_error es' j) eqn:G'; [|reflexivity].
    exfalso. apply nth_error_None in G. assert (j < length es') by (apply nth_error_Some; congruence). lia.
Qed.
Lemma reweigh_pointwise l : forall es es', NoDup (map e_key es) -> reweigh l es = (Ok tt, es') ->
  map e_key es' = map e_key es /\ forall j e, nth_error es j = Some e ->
    nth_error es' j = Some (mkE (e_key e) (wanted l j (e_key e) (e_weight e)) (e_sigma e)).
Proof.
  induction l as [|[r w] l IH]; intros es es' N E; cbn in E.
  - injection E as <-. split; [reflexivity|]. intros j e G. rewrite G. now destruct e.
  - destruct (reweigh_one 0 r w es) as [es1|] eqn:R; [|discriminate].
    destruct (reweigh_one_pointwise _ _ _ _ N R) as [K P]. rewrite <- K in N. destruct (IH _ _ N E) as [K' P'].
    split; [congruence|]. intros j e G. specialize (P' _ _ (P _ _ G)). cbn in P'. rewrite P'. cbn. do 3 f_equal.
    destruct r; cbn; reflexivity.
Qed.
Lemma reweigh_ok l : forall es, NoDup (map e_key es) ->
  (forall c, In c l -> exists j e, nth_error es j = Some e /\ names (fst c) j e = true) -> exists es', reweigh l es = (Ok tt, es').
Proof.
  induction l as [|[r w] l IH]; intros es N H; cbn; [now eexists|].
  destruct (H (r, w) (or_introl eq_refl)) as (j & e & G & X). destruct (reweigh_one_some r w es 0 j e G X) as [es1 R]. rewrite R.
  destruct (reweigh_one_pointwise _ _ _ _ N R) as [K P]. apply IH; [now rewrite K|].
  intros c I. destruct (H c (or_intror I)) as (j' & e' & G' & X'). exists j'. eexists. split; [apply (P _ _ G')|]. now destruct (fst c).
Qed.
