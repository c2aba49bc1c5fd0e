(** * Properties C74, C75 and C76: columns for extra results, classic ReaxFF files, residuals *)
From Verif Require Import Prelude Prelude_Proofs Extras_Model Extras_Spec Extras_Proofs.
From Coq Require Import Lia Lqa.
Open Scope nat_scope.

(** ** C74 *)
(** There are columns exactly when every extra is of a known type, and then one for each, in order; otherwise TypeError. *)
Theorem C74_columns l : match infer_headers l with
  | Ok h => Forall supported l /\ map fst h = seq 0 (length l)
  | Err e => e = TypeError /\ exists v, In v l /\ ~ supported v
  end.
Proof.
  destruct (infer_headers l) eqn:E.
  - destruct (infer_from_pos _ _ _ E) as [A B]. split; [|exact A].
    clear A E. induction B as [|v c ? ? H ? IH]; constructor; auto. apply infer_one_supported. now exists c.
  - destruct (infer_from_err _ _ _ E) as [A B]. split; [exact A|]. clear E.
    induction l as [|v l IH]; [destruct B; constructor|].
    assert (D : supported v \/ ~ supported v) by (destruct v; cbn; tauto). destruct D as [D|D].
    + destruct IH as (w & I & N); [intro F; apply B; now constructor|]. exists w. split; [now right|exact N].
    + exists v. split; [now left|exact D].
Qed.
Print Assumptions C74_columns.
Example C74_columns_met :
  infer_headers [PFloat (Fin (1232 # 1)); PArr DInt [3] [Fin 213; Fin 345; Fin 675]; PBool false; PStr "valid"]
  = Ok [(0, FloatCol); (1, ArrCol DInt [3]); (2, BoolCol); (3, StrCol 280)] /\
  infer_headers [PFloat NaN; PObject "dict"] = Err TypeError.
Proof. split; reflexivity. Qed.

(** Results of the same types as the first, with ASCII strings of at most 280 characters and arrays of the same shape, are recorded as they are. *)
Theorem C74_exact first rest : Forall supported first -> Forall (Forall2 same_kind first) (first :: rest) ->
  log_extras (first :: rest) = (Ok tt, first :: rest).
Proof.
  intros S F. unfold log_extras. destruct (infer_headers first) as [h|e] eqn:E.
  - unfold flush. rewrite map_res_id; [reflexivity|]. eapply Forall_impl; [|exact F]. intros row K. eapply store_row_exact; eauto.
  - destruct (infer_from_err _ _ _ E). contradiction.
Qed.
Print Assumptions C74_exact.
Example C74_exact_met : exists first rest, Forall supported first /\ Forall (Forall2 same_kind first) (first :: rest) /\ rest <> [] /\
  log_extras (first :: rest) = (Ok tt, first :: rest).
Proof.
  exists [PInt 3; PStr "ok"; PArr DFloat [2; 1] [Fin 1; NaN]], [[PInt (-4); PStr ""; PArr DFloat [2; 1] [PInf; Fin (1 # 3)]]].
  splits; [repeat constructor| |discriminate|vm_compute; reflexivity].
  assert (A : forall v, same_kind (PStr v) (PStr "ok")) by (intro; split; [cbn; lia|intros a H; repeat (destruct H as [<-|H]; [cbn; lia|]); contradiction]).
  assert (B : forall v, same_kind (PStr v) (PStr "")) by (intro; split; [cbn; lia|intros a []]).
  constructor; [|constructor; [|constructor]]; (constructor; [cbn; lia|constructor; [auto|constructor; [|constructor]]]);
    (cbn; splits; [reflexivity|reflexivity|reflexivity|repeat constructor]).
Qed.

(** A flush writes every row of the chunk, or none and keeps the chunk. *)
Theorem C74_all_or_nothing h w c : match flush h w c with
  | (Ok _, (w', c')) => c' = [] /\ exists rows, w' = w ++ rows /\ Forall2 (fun r s => store_row h r = Ok s) c rows
  | (Err e, (w', c')) => e = ValueError /\ w' = w /\ c' = c /\ exists r, In r c /\ forall s, store_row h r <> Ok s
  end.
Proof.
  unfold flush. destruct (map_res (store_row h) c) as [rows|e] eqn:E.
  - split; [reflexivity|]. exists rows. split; [reflexivity|]. now apply map_res_spec.
  - splits; auto. clear w. revert e E. induction c as [|r c IH]; intros e E; cbn in E; [discriminate|].
    destruct (store_row h r) eqn:R.
    + destruct (map_res (store_row h) c); [discriminate|]. destruct (IH _ eq_refl) as (r' & I & N). exists r'. split; [now right|exact N].
    + exists r. split; [now left|]. congruence.
Qed.
Print Assumptions C74_all_or_nothing.
Example C74_all_or_nothing_met :
  flush [(0, IntCol)] [[PInt 1]] [[PInt 2]; [PFloat NaN]; [PInt 4]] = (Err ValueError, ([[PInt 1]], [[PInt 2]; [PFloat NaN]; [PInt 4]])) /\
  flush [(0, IntCol)] [[PInt 1]] [[PInt 2]; [PInt 4]] = (Ok tt, ([[PInt 1]; [PInt 2]; [PInt 4]], [])).
Proof. split; vm_compute; reflexivity. Qed.

(** A count that becomes a fraction is cut without notice: the column is of the type of the first value. *)
Theorem C74_fraction_refuted : exists l, Forall (Forall supported) l /\
  (forall row, In row l -> length row = 1) /\ log_extras l = (Ok tt, [[PInt 0]; [PInt 0]]) /\ nth 1 l [] = [PFloat (Fin (9 # 10))].
Proof.
  exists [[PInt 0]; [PFloat (Fin (9 # 10))]]. splits; [repeat constructor| |vm_compute; reflexivity|reflexivity].
  intros row [<-|[<-|[]]]; reflexivity.
Qed.
Print Assumptions C74_fraction_refuted.
(** A list of another length makes the whole chunk unwritable, with the results before it. *)
Theorem C74_ragged_refuted : exists l, Forall (Forall supported) l /\ log_extras (firstn 2 l) = (Ok tt, firstn 2 l) /\
  log_extras l = (Err ValueError, []).
Proof.
  exists [[PArr DFloat [2] [Fin 1; Fin 2]]; [PArr DFloat [2] [Fin 3; Fin 4]]; [PArr DFloat [3] [Fin 1; Fin 2; Fin 3]]].
  splits; [repeat constructor| |]; vm_compute; reflexivity.
Qed.
Print Assumptions C74_ragged_refuted.
(** A list of length one is repeated to the length of the first. *)
Theorem C74_repeated_refuted : exists a b c, log_extras [[a]; [b]] = (Ok tt, [[a]; [c]]) /\ b = PArr DFloat [1] [PInf] /\
  c = PArr DFloat [3] [PInf; PInf; PInf].
Proof.
  exists (PArr DFloat [3] [Fin 1; Fin 2; Fin 3]), (PArr DFloat [1] [PInf]), (PArr DFloat [3] [PInf; PInf; PInf]).
  splits; [vm_compute; reflexivity|reflexivity|reflexivity].
Qed.
Print Assumptions C74_repeated_refuted.
(** A numpy integer or boolean is no known type: the manager raises TypeError at the first result. *)
Theorem C74_numpy_refuted : exists l l', log_extras l = (Err TypeError, []) /\ l = [[PFloat (Fin 1); PNpInt 3]] /\
  log_extras l' = (Ok tt, l') /\ l' = [[PFloat (Fin 1); PInt 3]].
Proof.
  exists [[PFloat (Fin 1); PNpInt 3]], [[PFloat (Fin 1); PInt 3]]. splits; [|reflexivity| |reflexivity]; vm_compute; reflexivity.
Qed.
Print Assumptions C74_numpy_refuted.
(** None is recorded as NaN, and a text in its place later makes the chunk unwritable. *)
Theorem C74_none_refuted : log_extras [[PNone]; [PFloat (Fin 2)]] = (Ok tt, [[PFloat NaN]; [PFloat (Fin 2)]]) /\
  log_extras [[PNone]; [PStr "failed"]] = (Err ValueError, []).
Proof. split; vm_compute; reflexivity. Qed.
Print Assumptions C74_none_refuted.
(** Strings are cut at 280 characters. *)
Fixpoint xs (n : nat) : string := match n with 0 => "" | S n => String (Ascii.ascii_of_nat 120) (xs n) end.
Theorem C74_text_refuted : exists s t, log_extras [[PStr ""]; [PStr s]] = (Ok tt, [[PStr ""]; [PStr t]]) /\ String.length s = 281 /\ String.length t = 280.
Proof. exists (xs 281), (xs 280). splits; vm_compute; reflexivity. Qed.
Print Assumptions C74_text_refuted.
(** A column of integers holds integers of 64 bits: what is written into it is cut towards zero, and NaN, the infinities, larger numbers, None and
    texts are refused. *)
Theorem C74_integers v r : store IntCol v = Ok r -> exists z q, r = PInt z /\ number v = Some (Fin q) /\ v <> PNone /\ (- 2 ^ 63 <= z < 2 ^ 63)%Z /\
  (0 <= q -> inject_Z z <= q < inject_Z z + 1)%Q /\ (q < 0 -> inject_Z z - 1 < q <= inject_Z z)%Q.
Proof.
  intro E. assert (Hn : v <> PNone) by (intros ->; discriminate). unfold store in E.
  assert (E' : match number v with Some x => match to_int x with Ok z => Ok (PInt z) | Err e => Err e end | None => Err TypeError end = Ok r)
    by (destruct v; try exact E; congruence). clear E.
  destruct (number v) as [x|]; [|discriminate]. destruct x as [| |q|]; try discriminate. cbn in E'.
  destruct (int64 (truncq q)) eqn:E64; [|discriminate]. injection E' as <-. exists (truncq q), q. split; [reflexivity|]. split; [reflexivity|]. split; [exact Hn|].
  unfold int64 in E64. apply andb_true_iff in E64 as [A B]. apply Z.leb_le in A. apply Z.ltb_lt in B. split; [split; assumption|]. clear A B.
  unfold truncq. destruct (Qle_bool 0 q) eqn:Eq.
  - apply Qle_bool_iff in Eq. split; [|intro X; exfalso; apply (Qlt_not_le _ _ X Eq)]. intros _. split; [apply Qfloor_le|].
    pose proof (Qlt_floor q) as X. rewrite inject_Z_plus in X. exact X.
  - split; [intro X; apply Qle_bool_iff in X; congruence|]. intros _. split; [|apply Qle_ceiling].
    pose proof (Qceiling_lt q) as X. unfold Z.sub in X. rewrite inject_Z_plus in X. exact X.
Qed.
Print Assumptions C74_integers.
Example C74_integers_met : store IntCol (PFloat (Fin (-(9 # 4)))) = Ok (PInt (-2)) /\ store IntCol (PFloat NaN) = Err ValueError /\
  store IntCol (PInt (2 ^ 63)) = Err OverflowError.
Proof. vm_compute. auto. Qed.
(** The headers of a ParAMS error function have as many fields as its detailed call returns, unless the validation set is empty. *)
Theorem C74_params_headers val : header_fields val = detailed_fields val <-> val <> Some 0.
Proof. destruct val as [[|n]|]; cbn; split; congruence. Qed.
Print Assumptions C74_params_headers.
Example C74_params_headers_met : header_fields (Some 3) = 4 /\ detailed_fields (Some 0) = 4 /\ header_fields (Some 0) = 2.
Proof. splits; reflexivity. Qed.

(** ** C75 *)
Section Classic.
Variables (bs : list Q) (mn mx : list (string * Q)) (pf : option (list param -> list param)) (new : bool).
Hypothesis old : pf = None \/ new = false.
Let three := mkF pf (Some bs) (Some mn) (Some mx).

(** One parameter, with its flag, as the engine and the files give it. *)
Definition treated (b : Q) (p p' : param) : Prop :=
  p_name p' = p_name p /\
  (b == 0 -> p' = mkP (p_name p) (p_val p) (p_lo p) (p_hi p) false)%Q /\
  (~ b == 0 -> exists lo hi, sget (p_name p) mn = Some lo /\ sget (p_name p) mx = Some hi /\
     ((lo < hi)%Q -> p_act p' = true /\ p_lo p' = lo /\ p_hi p' = hi /\ inside p' /\ ((lo < p_val p < hi)%Q -> p_val p' = p_val p)) /\
     (~ (lo < hi)%Q -> p_act p' = false /\ p_val p' = lo))%Q.

Lemma treat_one p b r : restrict mn mx (mkP (p_name p) (p_val p) (p_lo p) (p_hi p) (negb (Qeq_bool b 0))) = Ok r -> treated b p (centre r).
Proof.
  unfold restrict, treated. cbn. destruct (Qeq_bool b 0) eqn:B; cbn.
  - intro E. injection E as <-. apply Qeq_bool_eq in B. splits; auto; [intro; contradiction].
  - assert (NB : ~ (b == 0)%Q) by (intro X; apply Qeq_bool_iff in X; congruence).
    destruct (sget (p_name p) mn) as [lo|]; [|discriminate]. destruct (sget (p_name p) mx) as [hi|]; [|discriminate].
    intro E. injection E as <-. split; [|split; [intro; contradiction|]].
    + destruct (centre_name (if negb (Qle_bool hi lo) then mkP (p_name p) (p_val p) lo hi true else mkP (p_name p) lo (p_lo p) (p_hi p) false)) as [-> _].
      now destruct (Qle_bool hi lo).
    + intros _. exists lo, hi. splits; auto.
      * intro L. assert (Q : Qle_bool hi lo = false) by now apply qle_false. rewrite Q. cbn.
        destruct (centre_inside (mkP (p_name p) (p_val p) lo hi true) eq_refl L) as (I & A & L1 & L2 & _). cbn in L1, L2. splits; auto.
        intro V. now rewrite centre_keeps by (now right).
      * intro L. assert (Q : Qle_bool hi lo = true) by (apply Qle_bool_iff; now apply Qnot_lt_le). rewrite Q. cbn. split; reflexivity.
Qed.

(** With the three files: active afterwards are exactly the parameters flagged with a range that is not empty, they lie strictly within the range of
    the files, and values that already did are kept; the others are left alone or, without a range, set to the minimum. *)
Theorem C75_three_files ps ps' : length bs = length ps -> setup_classic new three ps = Ok ps' ->
  length ps' = length ps /\ forall i p p' b, nth_error ps i = Some p -> nth_error ps' i = Some p' -> nth_error bs i = Some b -> treated b p p'.
Proof.
  intros L E. unfold setup_classic in E. cbn in E.
  assert (E2 : match map_res (restrict mn mx) (set_active ps (map (fun q => negb (Qeq_bool q 0)) bs)) with Ok q => Ok (map centre q) | Err e => Err e end = Ok ps').
  { destruct old as [-> | ->]; [exact E|destruct pf; exact E]. }
  clear E. destruct (map_res _ _) as [q|] eqn:M; [|discriminate]. injection E2 as <-.
  apply map_res_spec in M. revert q M. revert ps L. generalize bs. clear. intro bs.
  induction bs as [|b bs' IH]; intros [|p ps] L q M; try discriminate; cbn in M.
  - inversion M. subst. split; [reflexivity|]. intros [|i]; discriminate.
  - inversion M as [|? r ? q' H M']. subst. destruct (IH ps ltac:(now injection L) q' M') as [A B]. split; [cbn; now rewrite A|].
    intros [|i] p0 p' b0 G1 G2 G3; cbn in G1, G2, G3.
    + injection G1 as <-. injection G2 as <-. injection G3 as <-. now apply treat_one.
    + eauto.
Qed.
(** It fails only when a name is missing in one of the files. *)
Theorem C75_three_files_total ps : length bs = length ps ->
  (forall i p b, nth_error ps i = Some p -> nth_error bs i = Some b -> ~ (b == 0)%Q -> sget (p_name p) mn <> None /\ sget (p_name p) mx <> None) ->
  exists ps', setup_classic new three ps = Ok ps'.
Proof.
  intros L H. assert (X : exists q, map_res (restrict mn mx) (set_active ps (map (fun q => negb (Qeq_bool q 0)) bs)) = Ok q).
  { revert ps L H. generalize bs. clear. intro bs. induction bs as [|b bs' IH]; intros [|p ps] L H; try discriminate; cbn; [now eexists|].
    destruct (IH ps ltac:(now injection L)) as [q ->]; [intros i; exact (H (S i))|].
    unfold restrict. cbn. destruct (Qeq_bool b 0) eqn:B; cbn; [now eexists|].
    assert (NB : ~ (b == 0)%Q) by (intro X; apply Qeq_bool_iff in X; congruence).
    destruct (H 0 p b eq_refl eq_refl NB) as [S1 S2]. destruct (sget (p_name p) mn); [|congruence]. destruct (sget (p_name p) mx); [|congruence]. now eexists. }
  destruct X as [q X]. unfold setup_classic. cbn. destruct old as [-> | ->]; [|destruct pf]; rewrite X; now eexists.
Qed.
End Classic.
Print Assumptions C75_three_files.
Print Assumptions C75_three_files_total.
Definition eng : list param := [mkP "p_boc1" 50 40 60 true; mkP "p_boc2" 0 (-1) 1 true; mkP "r0" 1 (8 # 10) (12 # 10) true; mkP "chi" 3 2 4 true].
Definition fmn : list (string * Q) := [("p_boc1", 45%Q); ("p_boc2", 2%Q); ("r0", 1%Q); ("chi", 0%Q)].
Definition fmx : list (string * Q) := [("p_boc1", 55%Q); ("p_boc2", 4%Q); ("r0", 1%Q); ("chi", 9%Q)].
Example C75_three_files_met :
  setup_classic true (mkF None (Some [1; 1; 1; 0]%Q) (Some fmn) (Some fmx)) eng
  = Ok [mkP "p_boc1" 50 45 55 true; mkP "p_boc2" ((2 + 4) / 2) 2 4 true; mkP "r0" 1 (8 # 10) (12 # 10) false; mkP "chi" 3 2 4 false].
Proof. vm_compute. reflexivity. Qed.

(** Whatever the files: the same parameters, in order; and every active one whose range is not empty lies strictly within it. *)
Theorem C75_default ps : exists ps', setup_classic true (mkF None None None None) ps = Ok ps' /\ map p_name ps' = map p_name ps /\
  (Forall (fun p => p_lo p < p_hi p)%Q ps -> Forall (fun p => p_act p = true -> inside p) ps').
Proof.
  exists (map centre ps). splits.
  - reflexivity.
  - induction ps as [|p ps IH]; cbn; [reflexivity|]. now rewrite IH, (proj1 (centre_name p)).
  - induction 1 as [|p ps H F IH]; cbn; constructor; auto. intro A. destruct (centre_name p) as (_ & A' & _). apply centre_inside; congruence.
Qed.
Print Assumptions C75_default.
Example C75_default_met : exists ps, Forall (fun p => p_lo p < p_hi p)%Q ps /\ ps <> [] /\
  setup_classic true (mkF None None None None) ps = Ok [mkP "a" ((1 + 3) / 2) 1 3 true; mkP "b" 7 0 1 false].
Proof. exists [mkP "a" 3 1 3 true; mkP "b" 7 0 1 false]. splits; [repeat constructor|discriminate|vm_compute; reflexivity]. Qed.

(** A range in a params file is not checked: an empty one leaves a parameter active, at a value outside its range. *)
Theorem C75_params_file_refuted : exists g ps ps' p, setup_classic true (mkF (Some g) None None None) ps = Ok ps' /\ In p ps' /\ p_act p = true /\ ~ inside p.
Proof.
  exists (fun _ => [mkP "a" 2 3 3 true]), [mkP "a" 2 1 3 true]. do 2 eexists. splits; [reflexivity|now left|reflexivity|].
  unfold inside. cbn. intros [H _]. revert H. apply Qle_not_lt. vm_compute. discriminate.
Qed.
Print Assumptions C75_params_file_refuted.
(** With two of the three files nothing is said and nothing is used. *)
Theorem C75_incomplete_refuted : exists bs mx ps, setup_classic true (mkF None (Some bs) None (Some mx)) ps = setup_classic true (mkF None None None None) ps /\
  Forall (fun b => b == 0)%Q bs /\ Exists (fun p => p_act p = true) ps /\ length bs = length ps.
Proof. exists [0]%Q, [("a", 3%Q)], [mkP "a" 2 1 3 true]. splits; [reflexivity| | |reflexivity]; repeat constructor. Qed.
Print Assumptions C75_incomplete_refuted.

(** ** C76 *)
(** The scaled residuals add up to the sum of squared errors. *)
Theorem C76_sum rs es : (fold_right Qplus 0 (resids true rs es) == sse rs es)%Q.
Proof.
  unfold resids, scale_residuals, sse. revert es. induction rs as [|r rs IH]; intros [|e es]; cbn; try reflexivity.
  rewrite IH. reflexivity.
Qed.
Print Assumptions C76_sum.
Example C76_sum_met : (sse [2; -3]%Q [mkE "a" 1 1; mkE "b" 2 3] == 6)%Q /\ resids true [2; -3]%Q [mkE "a" 1 1; mkE "b" 2 3] <> [].
Proof. split; [vm_compute; reflexivity|discriminate]. Qed.
(** They carry no sign: the documentation of resids speaks of signed differences. *)
Theorem C76_sign_never rs es : Forall (fun e => 0 <= e_weight e)%Q es ->
  Forall (fun r => 0 <= r)%Q (resids true rs es) /\ Forall2 Qeq (resids true (map Qopp rs) es) (resids true rs es).
Proof.
  unfold resids, scale_residuals. intro F. revert rs. induction F as [|e es H F IH]; intros [|r rs]; cbn; try (split; constructor).
  - apply Qmult_le_0_compat; [exact H|]. destruct (r / e_sigma e)%Q as [a b]. unfold Qle; cbn. nia.
  - apply IH.
  - unfold Qdiv. ring.
  - apply IH.
Qed.
Print Assumptions C76_sign_never.
Example C76_sign_never_met : Forall (fun e => 0 <= e_weight e)%Q [mkE "a" 3 1] /\ resids true [-2]%Q [mkE "a" 3 1] = resids true [2]%Q [mkE "a" 3 1].
Proof. split; [repeat constructor; discriminate|vm_compute; reflexivity]. Qed.
(** A least squares optimizer squares them again: among predictions x of references 0 and 1 it prefers one that the error function puts second. *)
Theorem C76_least_squares_refuted : exists es (f : Q -> list Q) a b, (forall x, f x = [x - 0; x - 1]%Q) /\
  (sse (f a) es < sse (f b) es)%Q /\ (squares (resids true (f b) es) < squares (resids true (f a) es))%Q /\
  forall x, (sse (f a) es <= sse (f x) es)%Q.
Proof.
  exists [mkE "a" 1 1; mkE "b" 4 1], (fun x => [x - 0; x - 1]%Q), (4 # 5)%Q, (7 # 10)%Q. splits; try reflexivity.
  intro x. unfold sse. cbn. unfold Qdiv. 
  assert (H : (0 <= (5 * x - 4) * (5 * x - 4))%Q) by (destruct (Qlt_le_dec (5 * x - 4) 0); [setoid_replace ((5 * x - 4) * (5 * x - 4))%Q with ((4 - 5 * x) * (4 - 5 * x))%Q by ring|]; apply Qmult_le_0_compat; lra).
  setoid_replace (/ 1)%Q with 1%Q by reflexivity. lra.
Qed.
Print Assumptions C76_least_squares_refuted.
(** Without scaling, a residual with weight zero, which the error function leaves out, still counts. *)
Theorem C76_unscaled_refuted : exists es r r', (sse r es == sse r' es)%Q /\ (squares (resids false r es) < squares (resids false r' es))%Q.
Proof. exists [mkE "a" 1 1; mkE "b" 0 1], [1; 0]%Q, [1; 5]%Q. split; vm_compute; reflexivity. Qed.
Print Assumptions C76_unscaled_refuted.
(** A failed evaluation: one residual instead of one per entry, or, scaled, NaN for the entries of weight zero. *)
Theorem C76_failed scale es : failed_resids scale es = map (fun _ => PInf) es <-> 
  if scale then Forall (fun e => 0 < e_weight e)%Q es else length es = 1.
Proof.
  unfold failed_resids. destruct scale.
  - induction es as [|e es IH]; cbn; [split; constructor|]. split.
    + intro H. injection H as H1 H2. constructor; [|now apply IH].
      destruct (Qeq_bool (e_weight e) 0) eqn:Z; [discriminate|]. destruct (Qle_bool 0 (e_weight e)) eqn:P; [|discriminate].
      apply Qle_bool_iff in P. apply Qle_lteq in P as [P|P]; [exact P|]. symmetry in P. apply Qeq_bool_iff in P. congruence.
    + intro F. inversion F; subst. rewrite (proj2 IH) by assumption. f_equal.
      destruct (Qeq_bool (e_weight e) 0) eqn:Z; [apply Qeq_bool_eq in Z; lra|]. 
      destruct (Qle_bool 0 (e_weight e)) eqn:P; [reflexivity|]. apply qle_false in P. lra.
  - destruct es as [|e [|e' es]]; cbn; split; congruence.
Qed.
Print Assumptions C76_failed.
Example C76_failed_met : failed_resids true [mkE "a" 1 1; mkE "b" 0 1] = [PInf; NaN] /\ failed_resids false [mkE "a" 1 1; mkE "b" 0 1] = [PInf].
Proof. split; reflexivity. Qed.

(** reweigh_residuals gives every entry the last weight asked for it and leaves all else; it succeeds when every name and index exists. *)
Theorem C76_reweigh l es : NoDup (map e_key es) -> match reweigh l es with
  | (Ok _, es') => map e_key es' = map e_key es /\ forall j e, nth_error es j = Some e ->
      nth_error es' j = Some (mkE (e_key e) (wanted l j (e_key e) (e_weight e)) (e_sigma e))
  | (Err _, _) => exists r w, In (r, w) l /\ forall j e, nth_error es j = Some e -> match r with Key k => k <> e_key e | Index i => i <> j end
  end.
Proof.
  intro N. destruct (reweigh l es) as [[[]|x] es'] eqn:E; [now apply reweigh_pointwise|].
  assert (D : (exists r w, In (r, w) l /\ forall j e, nth_error es j = Some e -> match r with Key k => k <> e_key e | Index i => i <> j end) \/
              forall c, In c l -> exists j e, nth_error es j = Some e /\ names (fst c) j e = true).
  { clear E es' x. induction l as [|[r w] l [IH|IH]].
    - right. intros c [].
    - left. destruct IH as (r' & w' & I & H). exists r', w'. split; [now right|exact H].
    - destruct (reweigh_one 0 r w es) as [es1|] eqn:R.
      + right. intros c [<-|I]; [|auto]. destruct (reweigh_one_spec _ _ _ _ _ R) as (k & e & G & X & _). exists k, e. now split.
      + left. exists r, w. split; [now left|]. intros j e G.
        assert (X : names r j e = false) by (destruct (names r j e) eqn:X; [|reflexivity];
          destruct (reweigh_one_some r w es 0 j e G X) as [es1 R']; congruence).
        destruct r; cbn in X; intros ->; [rewrite String.eqb_refl in X|rewrite Nat.eqb_refl in X]; discriminate. }
  destruct D as [D|D]; [exact D|]. destruct (reweigh_ok l es N D) as [es1 E']. congruence.
Qed.
Print Assumptions C76_reweigh.
Example C76_reweigh_met : NoDup (map e_key [mkE "a" 1 1; mkE "b" 2 3]) /\
  reweigh [(Key "b", 0%Q); (Index 0, 7%Q); (Key "a", 8%Q)] [mkE "a" 1 1; mkE "b" 2 3] = (Ok tt, [mkE "a" 8 1; mkE "b" 0 3]).
Proof. split; [repeat constructor; cbn; intuition discriminate|reflexivity]. Qed.
(** When it raises, the changes before the unknown name have been made and none after it. *)
Theorem C76_reweigh_stopped l es x es' : NoDup (map e_key es) -> reweigh l es = (Err x, es') -> exists l1 r w l2, l = l1 ++ (r, w) :: l2 /\
  reweigh l1 es = (Ok tt, es') /\ x = (match r with Key _ => KeyError | Index _ => IndexError end) /\ map e_key es' = map e_key es /\
  forall j e, nth_error es j = Some e -> nth_error es' j = Some (mkE (e_key e) (wanted l1 j (e_key e) (e_weight e)) (e_sigma e)) /\
    match r with Key k => k <> e_key e | Index i => i <> j end.
Proof.
  intros N E. assert (D : exists l1 r w l2, l = l1 ++ (r, w) :: l2 /\ reweigh l1 es = (Ok tt, es') /\
    x = (match r with Key _ => KeyError | Index _ => IndexError end) /\ reweigh_one 0 r w es' = None).
  { clear N. revert es E. induction l as [|[r w] l IH]; intros es E; [discriminate|]. cbn in E. destruct (reweigh_one 0 r w es) as [es1|] eqn:R.
    - destruct (IH _ E) as (l1 & r1 & w1 & l2 & -> & H1 & H2 & H3). exists ((r, w) :: l1), r1, w1, l2. cbn. rewrite R. auto.
    - injection E as <- <-. exists [], r, w, l. auto. }
  destruct D as (l1 & r & w & l2 & -> & H1 & H2 & H3). exists l1, r, w, l2. destruct (reweigh_pointwise _ _ _ N H1) as [K P]. splits; auto.
  intros j e G. split; [auto|]. specialize (P j e G).
  assert (X : names r j (mkE (e_key e) (wanted l1 j (e_key e) (e_weight e)) (e_sigma e)) = false).
  { destruct (names r j _) eqn:X; [|reflexivity]. destruct (reweigh_one_some r w es' 0 j _ P X) as [es1 R]. congruence. }
  destruct r; cbn in X; intros ->; [rewrite String.eqb_refl in X|rewrite Nat.eqb_refl in X]; discriminate.
Qed.
Print Assumptions C76_reweigh_stopped.
Example C76_reweigh_stopped_met : reweigh [(Key "b", 0%Q); (Index 5, 7%Q); (Key "a", 8%Q)] [mkE "a" 1 1; mkE "b" 2 3] = (Err IndexError, [mkE "a" 1 1; mkE "b" 0 3]).
Proof. reflexivity. Qed.
(** An unknown name raises when earlier weights have been changed already. *)
Theorem C76_reweigh_half_refuted : exists l es es' e, reweigh_sequence l (Some 0%Q) es = (Err e, es') /\ es' <> es.
Proof. exists [Key "a"; Key "zz"], [mkE "a" 1 1]. do 2 eexists. split; [reflexivity|discriminate]. Qed.
Print Assumptions C76_reweigh_half_refuted.
