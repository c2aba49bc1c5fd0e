(** * C48, C50-C53 *)
From Coq Require Import Lqa.
From Verif Require Import Prelude Prelude_Proofs Params_Model Params_Spec Params_Proofs.
Local Open Scope nat_scope.
Local Open Scope list_scope.

(** Parameters 0 to 4, of which 1, 2 and 4 are active. *)
Definition demo : engine :=
  [mkP "a" (Fin 1) 0 2 false; mkP "b" (Fin 5) 4 8 true; mkP "c" (Fin (-(1))) (-(3)) 3 true; mkP "d" (Fin 0) 0 0 false; mkP "e" (Fin 30) 10 50 true].
Lemma demo_names : NoDup (names demo).
Proof. repeat constructor; cbn; intuition discriminate. Qed.

(** ** C48: scaling *)
Theorem C48_real_scaled_real : forall e x, (length x = n_parms e \/ length x = n_all_parms e) -> x <> [] -> proper_ranges (addressed e (length x)) ->
  exists y z, real2scaled e (map Fin x) = Ok (map Fin y) /\ scaled2real e (map Fin y) = Ok (map Fin z) /\ Forall2 Qeq z x.
Proof. exact scale_there_back. Qed.
Print Assumptions C48_real_scaled_real.
Theorem C48_scaled_real_scaled : forall e x, (length x = n_parms e \/ length x = n_all_parms e) -> x <> [] -> proper_ranges (addressed e (length x)) ->
  exists y z, scaled2real e (map Fin x) = Ok (map Fin y) /\ real2scaled e (map Fin y) = Ok (map Fin z) /\ Forall2 Qeq z x.
Proof. exact scale_back_there. Qed.
Print Assumptions C48_scaled_real_scaled.
(** A value is inside its range just when the scaled one is in [0, 1]: the points a manager tries (inside [bounds]) are
    those inside the ranges. *)
Theorem C48_scaled_range : forall e x y, x <> [] -> Forall (fun p => p_lo p < p_hi p)%Q (addressed e (length x)) ->
  real2scaled e (map Fin x) = Ok (map Fin y) ->
  (Forall2 (fun a p => p_lo p <= a <= p_hi p)%Q x (addressed e (length x)) <-> Forall (fun b => 0 <= b <= 1)%Q y).
Proof.
  intros e x y Nx P H. assert (L : length x = n_parms e \/ length x = n_all_parms e).
  { unfold real2scaled, ranges_for in H. rewrite map_length in H. destruct (Nat.eqb_spec (length x) (n_parms e)); [auto|]. destruct (Nat.eqb_spec (length x) (n_all_parms e)); [auto | discriminate]. }
  destruct (ranges_ok e (map Fin x)) as [R RL]; [rewrite map_length; exact L | apply map_fin_ne; exact Nx|]. rewrite map_length in *.
  unfold real2scaled in H. rewrite R in H. set (A := addressed e (length x)) in *. clearbody A. clear R L Nx.
  assert (PR : proper_ranges A) by (eapply Forall_impl; [|exact P]; intros p Hp; cbv beta in *; lra).
  rewrite over_scale in H by exact PR. injection H as H. assert (y = fover fscale x (map range_of A)) as -> by (revert H; generalize (fover fscale x (map range_of A)); clear; intro l; revert y; induction l as [|a l IH]; intros [|b y] H; try discriminate; [reflexivity|]; injection H as -> H; f_equal; auto).
  clear H PR. revert A P RL. unfold fover. induction x as [|a x IH]; intros [|p A] P RL; try discriminate; [split; intros; constructor|].
  inversion P as [|? ? P1 P2]; subst. cbn [map combine fst snd]. assert (X : (p_lo p <= a <= p_hi p <-> 0 <= fscale a (range_of p) <= 1)%Q).
  { unfold fscale, range_of. cbn [fst snd]. assert (D : (0 < p_hi p + - p_lo p)%Q) by lra. split; intros [H1 H2]; split.
    - apply Qle_shift_div_l; [exact D | lra].
    - apply Qle_shift_div_r; [exact D | lra].
    - apply (Qmult_le_compat_r _ _ (p_hi p + - p_lo p)) in H1; [|lra]. assert (E : ((a + - p_lo p) / (p_hi p + - p_lo p) * (p_hi p + - p_lo p) == a + - p_lo p)%Q) by (field; lra). lra.
    - apply (Qmult_le_compat_r _ _ (p_hi p + - p_lo p)) in H2; [|lra]. assert (E : ((a + - p_lo p) / (p_hi p + - p_lo p) * (p_hi p + - p_lo p) == a + - p_lo p)%Q) by (field; lra). lra. }
  specialize (IH A P2 (f_equal pred RL)). split; intro H; inversion H; subst; constructor; try (apply X; assumption); apply IH; assumption.
Qed.
Print Assumptions C48_scaled_range.
Example C48_scaling_met :
  real2scaled demo [Fin 5; Fin (-(1)); Fin 30] = Ok [Fin (1 # 4); Fin (2 # 6); Fin (20 # 40)] /\
  length [5; -(1); 30]%Q = n_parms demo /\ proper_ranges (addressed demo 3) /\
  scaled2real demo [Fin (1 # 2); Fin 0; Fin 1; Fin (1 # 3); Fin (1 # 5)] = Ok [Fin (2 # 2); Fin 4; Fin 3; Fin (0 # 3); Fin (90 # 5)] /\
  Forall2 (fun a p => p_lo p <= a <= p_hi p)%Q [5; -(1); 30]%Q (addressed demo 3) /\
  real2scaled demo [Fin 5] = Err ValueError.
Proof.
  splits; try (vm_compute; reflexivity).
  - repeat constructor; cbn; lra.
  - repeat constructor; cbn; lra.
Qed.
(** A fixed parameter (minimum = maximum, as number 3 in the example) makes the conversion of all parameters lose its value. *)
Theorem C48_fixed_parameter_refuted : exists e x y, length x = n_all_parms e /\ Forall (fun p => p_act p = true -> p_lo p < p_hi p)%Q e /\
  real2scaled e x = Ok y /\ In NaN y /\ exists z, scaled2real e y = Ok z /\ In NaN z.
Proof.
  exists demo, (values demo), (match real2scaled demo (values demo) with Ok y => y | Err _ => [] end).
  splits; [reflexivity | repeat constructor; cbn; intros; (discriminate || lra) | vm_compute; reflexivity | vm_compute; auto 10 |].
  eexists. split; [vm_compute; reflexivity|]. do 3 right. left. reflexivity.
Qed.
Print Assumptions C48_fixed_parameter_refuted.
(** No active parameters: nothing can be converted. *)
Example C48_none_active : real2scaled [mkP "a" (Fin 1) 0 2 false] [] = Err ValueError.
Proof. reflexivity. Qed.

(** ** C48: indices *)
Theorem C48_abs_rel_abs : forall e is, NoDup (names e) -> Forall (is_active_at e) is ->
  exists rs, abs2rel e is = Ok (map Some rs) /\ rel2abs e rs = Ok is /\ Forall2 (fun k i => nth_error (active_positions e) k = Some i) rs is.
Proof. intros e is. rewrite <- ids_positions. exact (abs2rel_all e is). Qed.
Print Assumptions C48_abs_rel_abs.
Theorem C48_rel_abs_rel : forall e rs, NoDup (names e) -> Forall (fun k => k < n_parms e) rs ->
  exists is, rel2abs e rs = Ok is /\ abs2rel e is = Ok (map Some rs) /\ Forall2 (fun k i => nth_error (active_positions e) k = Some i) rs is.
Proof. intros e rs. rewrite <- ids_positions. exact (rel2abs_all e rs). Qed.
Print Assumptions C48_rel_abs_rel.
Theorem C48_inactive : forall e i p, NoDup (names e) -> nth_error e i = Some p -> p_act p = false -> abs2rel e [i] = Ok [None].
Proof. exact abs2rel_inactive. Qed.
Print Assumptions C48_inactive.
Theorem C48_active_indices : forall e, active_abs_indices e = active_positions e /\ length (active_positions e) = n_parms e.
Proof.
  intro e. split; [apply ids_positions|]. rewrite <- ids_positions. unfold active_abs_indices, n_parms, active. generalize 0. induction e as [|p e IH]; intro s; cbn; [reflexivity|].
  destruct (p_act p); cbn; rewrite IH; reflexivity.
Qed.
Print Assumptions C48_active_indices.
Example C48_indices_met : abs2rel demo [4; 1; 2] = Ok (map Some [2; 0; 1]) /\ rel2abs demo [2; 0; 1] = Ok [4; 1; 2] /\ NoDup (names demo) /\
  Forall (is_active_at demo) [4; 1; 2] /\ abs2rel demo [4; 3] = Ok [Some 2; None] /\ rel2abs demo [3] = Err KeyError /\ abs2rel demo [5] = Err IndexError.
Proof.
  splits; try (vm_compute; reflexivity); [apply demo_names|]. repeat constructor; eexists; (split; [reflexivity | reflexivity]).
Qed.

(** ** C50: toggling changes exactly the requested parameters *)
Theorem C50_toggle : forall e ps t b, NoDup (names e) -> ps <> [] -> same_kind ps -> (forall i, In (KI i) ps -> i < length e) ->
  (t = On \/ t = TBool true) /\ b = true \/ (t = Off \/ t = TBool false) /\ b = false ->
  exists e' w, toggle_parameter e ps t = Ok (e', w) /\ same_but_activity e e' /\
    (forall j, j < length e -> (meant e ps j -> act_at e' j = Some b) /\ (~ meant e ps j -> act_at e' j = act_at e j)) /\
    (w = 0 <-> Forall (known e) ps).
Proof. intros e ps t b N Ne S R T. apply toggle_spec; auto. destruct T as [[[-> | ->] ->]|[[-> | ->] ->]]; reflexivity. Qed.
Print Assumptions C50_toggle.
(** An index which does not exist, or names after indices, make the list for the engine too long. *)
Theorem C50_toggle_out_of_range : forall e ps t i, NoDup (names e) -> In (KI i) ps -> length e <= i -> exists x, toggle_parameter e ps t = Err x.
Proof.
  intros e ps t i N Hi Li. rewrite toggle_eq. destruct (toggle_value t) as [b|]; [|eauto]. destruct ps as [|p0 ps]; [contradiction|].
  set (Ps := p0 :: ps) in *. clearbody Ps.
  assert (G : forall ps m, (forall k, In k (map fst m) -> k <> KI i) \/ length e < length m -> length e <= length m -> In (KI i) ps \/ length e < length m ->
    length e < length (fst (toggle_loop b ps m))).
  { clear ps Ps Hi. induction ps as [|p ps IH]; intros m A L H; [destruct H as [[]|H]; exact H|]. cbn [toggle_loop].
    destruct (is_name p && negb (dmem key_eqb p m)) eqn:E.
    - assert (Hp : In (KI i) ps \/ length e < length m) by (destruct H as [[->|H]|H]; [discriminate | auto | auto]).
      specialize (IH m A L Hp). destruct (toggle_loop b ps m). exact IH.
    - assert (M : length m <= length (kset p b m) /\ (p = KI i -> (forall k, In k (map fst m) -> k <> KI i) -> length m < length (kset p b m))).
      { clear. induction m as [|[k v] m [IH1 IH2]]; cbn; [split; auto|]. destruct (key_eqb_spec p k); cbn.
        - split; [auto|]. intros Ep K. subst. elim (K (KI i)); auto.
        - split; [lia|]. intros Ep K. specialize (IH2 Ep (fun k' H => K k' (or_intror H))). lia. }
      destruct M as [M1 M2]. destruct A as [A|A].
      + destruct (key_eqb_spec p (KI i)) as [Ep|Ep].
        * specialize (M2 Ep A). apply IH; [right | | right]; lia.
        * apply IH; [left | lia |].
          -- intros k Hk. assert (In k (map fst m) \/ k = p).
             { clear - Hk. induction m as [|[k' v] m IH]; cbn in *; [destruct Hk as [<-|[]]; auto|]. destruct (key_eqb p k'); cbn in Hk; [auto|]. destruct Hk as [<-|Hk]; [auto|]. destruct (IH Hk); auto. }
             destruct H0 as [H0|H0]; [apply A; exact H0 | congruence].
          -- destruct H as [[H|H]|H]; [congruence | left; exact H | right; lia].
      + apply IH; [right | | right]; lia. }
  assert (Lm : length (mapping e (is_name p0)) = length e).
  { rewrite mapping_eq by exact N. rewrite combine_length, keys_length. unfold activity. rewrite map_length. lia. }
  assert (X := G Ps (mapping e (is_name p0))). destruct (toggle_loop b Ps (mapping e (is_name p0))) as [m w]. cbn [fst] in X.
  rewrite set_activity_bad; [eauto|]. rewrite map_length. assert (length e < length m); [|lia]. apply X; [left | lia | left; exact Hi].
  intros k Hk. rewrite mapping_eq in Hk by exact N. rewrite combine_fst in Hk by (rewrite keys_length; unfold activity; rewrite map_length; reflexivity).
  intros ->. unfold keys_of in Hk. destruct (is_name p0); apply in_map_iff in Hk as [z [Ez Hz]]; [discriminate|]. injection Ez as ->. apply in_seq in Hz. lia.
Qed.
Print Assumptions C50_toggle_out_of_range.
Definition acts (r : res (engine * nat)) : option (list bool * nat) := match r with Ok (e, w) => Some (activity e, w) | Err _ => None end.
Example C50_toggle_met : acts (toggle_parameter demo [KS "a"; KS "x"; KS "e"] Off) = Some ([false; true; true; false; false], 1) /\
  acts (toggle_parameter demo [KI 0; KI 3] (TBool true)) = Some ([true; true; true; true; true], 0) /\
  same_kind [KS "a"; KS "x"; KS "e"] /\ ~ Forall (known demo) [KS "a"; KS "x"; KS "e"] /\
  toggle_parameter demo [KI 5] On = Err ValueError /\ toggle_parameter demo [KI 0] TOther = Err ValueError.
Proof.
  splits; try (vm_compute; reflexivity); [left; repeat constructor|]. intro F. inversion F as [|? ? _ F2]; subst. inversion F2 as [|? ? F3 _]; subst.
  destruct F3 as [j [p [Hj [q [Hq E]]]]]. rewrite Hj in Hq. injection Hq as <-. do 5 (destruct j as [|j]; [cbn in Hj; injection Hj as <-; discriminate|]). destruct j; discriminate.
Qed.
(** An empty sequence is not a sequence of parameters to which nothing happens. *)
Theorem C50_nothing_to_toggle_refuted : exists e t, toggle_parameter e [] t = Err IndexError.
Proof. exists demo, On. reflexivity. Qed.
Print Assumptions C50_nothing_to_toggle_refuted.

(** ReaxFF: what may never be activated is not activated, with a warning ... *)
Theorem C50_reax : forall allowed e ps t, NoDup (names e) -> length allowed = length e -> Forall (known e) ps -> t = On \/ t = TBool true ->
  (exists j, nth_error allowed j = Some true /\ meant e ps j) ->
  exists e' w, reax_toggle allowed e ps t false = Ok (e', w) /\ same_but_activity e e' /\
    (forall j, j < length e -> (meant e ps j /\ nth_error allowed j = Some true -> act_at e' j = Some true) /\
                              (~ (meant e ps j /\ nth_error allowed j = Some true) -> act_at e' j = act_at e j)) /\
    (w = true <-> exists j, nth_error allowed j = Some false /\ meant e ps j).
Proof. intros allowed e ps t N L F T. apply reax_spec; auto. destruct T as [-> | ->]; reflexivity. Qed.
Print Assumptions C50_reax.
(** ... but when none of the parameters may be activated the call does not just warn: IndexError. *)
Theorem C50_reax_all_forbidden : forall allowed e ps t, NoDup (names e) -> length allowed = length e -> Forall (known e) ps -> t = On \/ t = TBool true ->
  (forall j, meant e ps j -> nth_error allowed j <> Some true) -> reax_toggle allowed e ps t false = Err IndexError.
Proof. intros allowed e ps t N L F T. apply reax_none; auto. destruct T as [-> | ->]; reflexivity. Qed.
Print Assumptions C50_reax_all_forbidden.
Definition reax_acts (r : res (engine * bool)) : option (list bool * bool) := match r with Ok (e, w) => Some (activity e, w) | Err _ => None end.
Example C50_reax_met : reax_acts (reax_toggle [true; true; true; false; true] demo [KS "a"; KI 3] On false) = Some ([true; true; true; false; true], true) /\
  reax_acts (reax_toggle [true; true; true; false; true] demo [KI 0; KI 3] On true) = Some ([true; true; true; true; true], true) /\
  reax_toggle [true; true; true; false; true] demo [KI 3] On false = Err IndexError.
Proof. vm_compute. auto. Qed.

(** ** C51: setting parameters *)
Theorem C51_stored_active : forall e x, length x = n_parms e -> exists w e', set_parameters e x "real" false = Ok (w, e') /\ same_but_values e e' /\
  values (active e') = x /\ Forall2 (fun p q => p_act p = false -> p = q) e e'.
Proof.
  intros e x L. unfold set_parameters. change (String.eqb "real" "scaled") with false. change (String.eqb "real" "real") with true. cbv iota beta zeta.
  destruct (put_active_ok e x L) as [e' [H1 [H2 [H3 H4]]]]. rewrite H1. eauto 10.
Qed.
Print Assumptions C51_stored_active.
Theorem C51_stored_all : forall e x, length x = n_all_parms e -> exists w e', set_parameters e x "real" true = Ok (w, e') /\ same_but_values e e' /\ values e' = x.
Proof.
  intros e x L. unfold set_parameters. change (String.eqb "real" "scaled") with false. change (String.eqb "real" "real") with true. cbv iota beta zeta.
  destruct (put_all_ok e x L) as [e' [H1 [H2 H3]]]. rewrite H1. eauto 10.
Qed.
Print Assumptions C51_stored_all.
(** In scaled space: what is stored is the conversion. *)
Theorem C51_stored_scaled : forall e x y, length x = n_parms e -> scaled2real e x = Ok y ->
  set_parameters e x "scaled" false = set_parameters e y "real" false /\ exists w e', set_parameters e x "scaled" false = Ok (w, e') /\ values (active e') = y.
Proof.
  intros e x y L H. destruct (scaled_length e x y H) as [Ly _]. assert (E : set_parameters e x "scaled" false = set_parameters e y "real" false).
  { unfold set_parameters. change (String.eqb "scaled" "scaled") with true. cbv iota. rewrite H. reflexivity. }
  split; [exact E|]. rewrite E. destruct (C51_stored_active e y) as [w [e' [H1 [_ [H2 _]]]]]; [congruence|]. eauto.
Qed.
Print Assumptions C51_stored_scaled.
(** The warning looks at the ranges of other parameters, unless all are active.  (Partial: it should look at the right ones.) *)
Theorem C51_warning_partial : forall e x full w e', Forall (fun p => p_act p = true) e -> set_parameters e x "real" full = Ok (w, e') -> w = warns e x.
Proof.
  intros e x full w e' A H. assert (Ea : active e = e) by (unfold active; clear H; induction A as [|p e Hp A IH]; cbn; [reflexivity|]; rewrite Hp, IH; reflexivity).
  unfold set_parameters in H. change (String.eqb "real" "scaled") with false in H. change (String.eqb "real" "real") with true in H. cbv iota beta zeta in H. rewrite Ea in H.
  destruct full; [destruct (put_all e x) | destruct (put_active e x)]; try discriminate; injection H as <- _; reflexivity.
Qed.
Print Assumptions C51_warning_partial.
Theorem C51_false_warning_refuted : exists e x e', length x = n_parms e /\ warns (active e) x = false /\ set_parameters e x "real" false = Ok (true, e').
Proof.
  exists demo, [Fin 5; Fin (-(1)); Fin 30], (match set_parameters demo [Fin 5; Fin (-(1)); Fin 30] "real" false with Ok (_, e) => e | Err _ => [] end).
  splits; vm_compute; reflexivity.
Qed.
Print Assumptions C51_false_warning_refuted.
Theorem C51_missing_warning_refuted : exists e x e', length x = n_parms e /\ warns (active e) x = true /\ set_parameters e x "real" false = Ok (false, e').
Proof.
  exists demo, [Fin 1; Fin 5; Fin 0], (match set_parameters demo [Fin 1; Fin 5; Fin 0] "real" false with Ok (_, e) => e | Err _ => [] end).
  splits; vm_compute; reflexivity.
Qed.
Print Assumptions C51_missing_warning_refuted.
Theorem C51_missing_warning_full_refuted : exists e x e', length x = n_all_parms e /\ warns e x = true /\ set_parameters e x "real" true = Ok (false, e').
Proof.
  exists demo, [Fin 5; Fin 0; Fin 20; Fin 99; Fin 99], (match set_parameters demo [Fin 5; Fin 0; Fin 20; Fin 99; Fin 99] "real" true with Ok (_, e) => e | Err _ => [] end).
  splits; vm_compute; reflexivity.
Qed.
Print Assumptions C51_missing_warning_full_refuted.
Example C51_met : exists e', set_parameters demo [Fin (1 # 2); Fin (1 # 2); Fin (1 # 2)] "scaled" false = Ok (true, e') /\
  values e' = [Fin 1; Fin (12 # 2); Fin (0 # 2); Fin 0; Fin (60 # 2)].
Proof.
  exists (match set_parameters demo [Fin (1 # 2); Fin (1 # 2); Fin (1 # 2)] "scaled" false with Ok (_, e) => e | Err _ => [] end). split; vm_compute; reflexivity.
Qed.

(** ** C52: the columns of the log fit the results *)
(** Same number and kinds of columns; the lengths agree unless the calculation failed. *)
Definition fits (c : cell) (h : string * option nat) : Prop :=
  match c, snd h with CNum _, None => True | CVec l, Some n => length l = n | _, _ => False end.
Theorem C52_columns_partial : forall loss n val_set ts vs, length ts = n -> match val_set with Some k => length vs = k /\ k <> 0 | None => True end ->
  Forall2 fits (detailed_call loss val_set (Some (ts, vs))) (headers n val_set).
Proof.
  intros loss n [[|k]|] ts vs L V; unfold detailed_call, headers; cbn.
  - destruct V; contradiction.
  - destruct V as [V _]. repeat constructor; auto.
  - repeat constructor; auto.
Qed.
Print Assumptions C52_columns_partial.
Example C52_columns_met : Forall2 fits (detailed_call (fun _ => Fin 3) (Some 1) (Some ([Fin 1; Fin 2], [Fin 7]))) (headers 2 (Some 1)).
Proof. apply C52_columns_partial; cbn; auto. Qed.
Theorem C52_empty_validation_set_refuted : exists loss n val_set ts vs, length ts = n /\ (forall k, val_set = Some k -> length vs = k) /\
  length (detailed_call loss val_set (Some (ts, vs))) <> length (headers n val_set).
Proof. exists (fun _ => Fin 0), 1, (Some 0), [Fin 2], []. splits; [reflexivity | intros k H; injection H as <-; reflexivity | discriminate]. Qed.
Print Assumptions C52_empty_validation_set_refuted.
(** A failed calculation is worse than any other: every value is infinite. *)
Theorem C52_failed_infinite : forall loss val_set, Forall (fun c => match c with CNum v => v = PInf | CVec l => l <> [] /\ Forall (eq PInf) l end) (detailed_call loss val_set None) /\
  hd_error (detailed_call loss val_set None) = Some (CNum PInf).
Proof. intros loss [k|]; split; try reflexivity; repeat constructor; discriminate. Qed.
Print Assumptions C52_failed_infinite.
Example C52_failed_infinite_met : detailed_call (fun _ => Fin 3) (Some 2) None = [CNum PInf; CVec [PInf]; CNum PInf; CVec [PInf]].
Proof. reflexivity. Qed.
Theorem C52_failed_calculation_refuted : exists loss n val_set, ~ Forall2 fits (detailed_call loss val_set None) (headers n val_set).
Proof. exists (fun _ => Fin 0), 2, None. intro F. inversion F as [|? ? ? ? _ F2]; subst. inversion F2 as [|? ? ? ? F3 _]; subst. cbn in F3. discriminate. Qed.
Print Assumptions C52_failed_calculation_refuted.

(** ** C53: a pickle has priority *)
(** Both files are loaded, the yaml file last. *)
Theorem C53_loaded : forall pkl yml, (loads pkl yml = Err OSError <-> pkl = false /\ yml = false) /\
  (pkl && yml = false -> pkl || yml = true -> loads pkl yml = Ok [if pkl then LPickle else LYaml]).
Proof. intros [] []; cbn; intuition congruence. Qed.
Print Assumptions C53_loaded.
Theorem C53_pickle_priority_refuted : exists pkl yml, pkl = true /\ loads pkl yml <> Ok [LPickle] /\ exists l, loads pkl yml = Ok (l ++ [LYaml]).
Proof. exists true, true. splits; [reflexivity | discriminate | exists [LPickle]; reflexivity]. Qed.
Print Assumptions C53_pickle_priority_refuted.
