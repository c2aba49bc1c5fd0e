(** * Proofs about selectors *)
From Verif Require Import Prelude Prelude_Proofs Selectors_Model Selectors_Spec.

Lemma cycle_fits sp avail v slots s c s' : cycle_select sp avail v slots s = (Ok (SOpt c), s') ->
  In c avail /\ cf_workers c <= slots /\ allow sp v = true.
Proof.
  unfold cycle_select. destruct (allow sp v); cbn [negb]; [|discriminate]. destruct (Z.eqb _ 0); [discriminate|].
  destruct (nth_error avail _) as [c'|] eqn:E; [|discriminate]. destruct (Nat.ltb_spec slots (cf_workers c')); [discriminate|].
  intros [= <- _]. splits; auto. eapply nth_error_In, E.
Qed.

Lemma random_fits sp avail v slots d c : random_select sp avail v slots d = Ok (SOpt c) ->
  In c avail /\ cf_workers c <= slots /\ allow sp v = true.
Proof.
  unfold random_select. destruct (allow sp v); cbn [negb]; [|discriminate]. set (f := filter _ avail).
  assert (H : random_select sp avail v slots d = Ok (SOpt c) -> True) by auto. clear H.
  destruct f as [|a f'] eqn:Ef; [discriminate|]. rewrite <- Ef. destruct (nth_error f _) as [c'|] eqn:E; [|discriminate].
  intros [= <-]. apply nth_error_In in E. subst f. apply filter_In in E as [E1 E2]. apply Nat.leb_le in E2. auto.
Qed.

Lemma chain_fits sp avail th v slots t c t' : chain_select sp avail th v slots t = (Ok (SOpt c), t') ->
  In c avail /\ cf_workers c <= slots /\ allow sp v = true.
Proof.
  unfold chain_select. destruct (allow sp v); cbn [negb]; [|discriminate]. set (t1 := match nth_error th t with Some _ => _ | None => _ end). clearbody t1.
  destruct (nth_error avail t1) as [c'|] eqn:E; [|discriminate]. destruct (Nat.ltb_spec slots (cf_workers c')); [discriminate|].
  intros [= <- _]. splits; auto. eapply nth_error_In, E.
Qed.

(** The cycle position is always -1 or an index. *)
Definition cy_ok (avail : list conf) (s : cycle) : Prop := (-1 <= cy_i s < Z.of_nat (length avail))%Z.

Lemma cycle_next avail s : avail <> [] -> cy_ok avail s ->
  Z.to_nat ((cy_i s + 1) mod Z.of_nat (length avail)) = Nat.modulo (Z.to_nat (cy_i s + 1)) (length avail).
Proof.
  intros Hne [H1 H2]. assert (0 < length avail) by (destruct avail; [congruence| cbn; lia]).
  rewrite <- (Z2Nat.id (cy_i s + 1)) at 1 by lia. rewrite <- Nat2Z.inj_mod by lia. apply Nat2Z.id.
Qed.

Lemma cycle_step sp avail v slots s : avail <> [] -> cy_ok avail s ->
  (allow sp v = false /\ cycle_select sp avail v slots s = (Ok SFalse, s)) \/
  (allow sp v = true /\ exists c, nth_error avail (Nat.modulo (Z.to_nat (cy_i s + 1)) (length avail)) = Some c /\
     ((slots < cf_workers c /\ cycle_select sp avail v slots s = (Ok SNone, mkCy (cy_i s) (cy_i s))) \/
      (cf_workers c <= slots /\ exists o, cycle_select sp avail v slots s =
          (Ok (SOpt c), mkCy (Z.of_nat (Nat.modulo (Z.to_nat (cy_i s + 1)) (length avail))) o)))).
Proof.
  intros Hne Hok. assert (Hpos : 0 < length avail) by (destruct avail; [congruence| cbn; lia]).
  unfold cycle_select. destruct (allow sp v); cbn [negb]; [right|left; auto]. split; [reflexivity|].
  destruct (Z.eqb_spec (Z.of_nat (length avail)) 0) as [E|_]; [lia|]. cbn [cy_i cy_old]. rewrite cycle_next by assumption.
  set (k := Nat.modulo (Z.to_nat (cy_i s + 1)) (length avail)).
  assert (Hk : k < length avail) by (apply Nat.mod_upper_bound; lia).
  destruct (nth_error avail k) as [c|] eqn:E; [|apply nth_error_None in E; lia].
  exists c. split; [reflexivity|]. destruct (Nat.ltb_spec slots (cf_workers c)).
  - left. split; [assumption|]. reflexivity.
  - right. split; [assumption|]. eexists. f_equal. f_equal.
    assert (Hz := cycle_next avail s Hne Hok). fold k in Hz. rewrite <- Hz.
    rewrite Z2Nat.id; [reflexivity|]. apply Z.mod_pos_bound. lia.
Qed.

(** The [m]-th configuration handed out from a cycle which has handed out position [p - 1] last. *)
Lemma cycle_order sp avail reqs : avail <> [] -> forall s, cy_ok avail s ->
  forall m c, nth_error (given (cycle_run sp avail reqs s)) m = Some c ->
  nth_error avail (Nat.modulo (Z.to_nat (cy_i s + 1) + m) (length avail)) = Some c.
Proof.
  intro Hne. assert (Hpos : 0 < length avail) by (destruct avail; [congruence| cbn; lia]).
  induction reqs as [|[v slots] reqs IH]; intros s Hok m c; cbn [cycle_run given flat_map].
  - destruct m; discriminate.
  - destruct (cycle_step sp avail v slots s Hne Hok) as [[_ E]|[_ [c' [Ec [[_ E]|[_ [o E]]]]]]]; rewrite E; cbn [flat_map app].
    + apply IH, Hok.
    + apply (IH (mkCy (cy_i s) (cy_i s))). exact Hok.
    + set (k := Nat.modulo _ _) in *. assert (Hk : k < length avail) by (apply Nat.mod_upper_bound; lia).
      destruct m as [|m].
      * intros [= <-]. rewrite Nat.add_0_r. exact Ec.
      * cbn [nth_error]. intro H. apply (IH (mkCy (Z.of_nat k) o)) in H; [|unfold cy_ok; cbn; lia]. cbn [cy_i] in H.
        rewrite <- H. f_equal. replace (Z.to_nat (Z.of_nat k + 1)) with (k + 1) by lia. unfold k.
        rewrite <- Nat.add_assoc, Nat.add_mod_idemp_l by lia. f_equal; lia.
Qed.

Lemma random_none sp avail v slots d : random_select sp avail v slots d = Ok SNone ->
  forall c, In c avail -> slots < cf_workers c.
Proof.
  unfold random_select. destruct (allow sp v); cbn [negb]; [|discriminate]. intros H c Hc.
  destruct (filter _ avail) as [|a l] eqn:E.
  - destruct (Nat.lt_ge_cases slots (cf_workers c)) as [|Hge]; [assumption|].
    assert (In c (filter (fun c => Nat.leb (cf_workers c) slots) avail)) by (apply filter_In; split; [assumption| apply Nat.leb_le, Hge]).
    rewrite E in H0. destruct H0.
  - destruct (nth_error _ _); discriminate.
Qed.

Lemma random_total sp avail v slots d : exists r, random_select sp avail v slots d = Ok r /\
  (allow sp v = false -> r = SFalse) /\
  (allow sp v = true -> (forall c, In c avail -> slots < cf_workers c) -> r = SNone) /\
  (allow sp v = true -> (exists c, In c avail /\ cf_workers c <= slots) -> exists c, r = SOpt c).
Proof.
  unfold random_select. destruct (allow sp v) eqn:Ea; cbn [negb].
  2: { exists SFalse. splits; auto; discriminate. }
  destruct (filter (fun c => Nat.leb (cf_workers c) slots) avail) as [|a l] eqn:E.
  - exists SNone. splits; auto; try discriminate. intros _ [c [Hc Hle]].
    assert (In c (filter (fun c => Nat.leb (cf_workers c) slots) avail)) by (apply filter_In; split; [assumption| apply Nat.leb_le, Hle]).
    rewrite E in H. destruct H.
  - assert (Hl : Nat.modulo d (length (a :: l)) < length (a :: l)) by (apply Nat.mod_upper_bound; discriminate).
    destruct (nth_error (a :: l) (Nat.modulo d (length (a :: l)))) as [c|] eqn:En; [|apply nth_error_None in En; lia].
    exists (SOpt c). splits; auto; try discriminate; eauto. intros _ Hno. apply nth_error_In in En. rewrite <- E in En.
    apply filter_In in En as [H1 H2]. apply Nat.leb_le in H2. specialize (Hno c H1). lia.
Qed.

(** ** Chain *)
Lemma reached_cons a th f : reached (a :: th) f = (if Qle_bool a (inject_Z (Z.of_nat f)) then 1 else 0) + reached th f.
Proof. unfold reached. cbn. destruct (Qle_bool _ _); reflexivity. Qed.

Lemma ascending_tail a th : ascending (a :: th) -> ascending th.
Proof. destruct th; cbn; tauto. Qed.

Lemma ascending_ge a th f : ascending (a :: th) -> Qle_bool a (inject_Z (Z.of_nat f)) = false -> reached th f = 0.
Proof.
  revert a. induction th as [|b th IH]; intros a Ha Hf; [reflexivity|]. rewrite reached_cons. destruct Ha as [H1 H2].
  destruct (Qle_bool b (inject_Z (Z.of_nat f))) eqn:E.
  - apply Qle_bool_iff in E. assert (Hx : Qle_bool a (inject_Z (Z.of_nat f)) = true) by (apply Qle_bool_iff; eapply Qle_trans; eassumption). congruence.
  - rewrite (IH b H2 E). reflexivity.
Qed.

Lemma threshold_reached th : forall t f, ascending th ->
  match nth_error th t with Some x => Qle_bool x (inject_Z (Z.of_nat f)) | None => false end = Nat.ltb t (reached th f).
Proof.
  induction th as [|a th IH]; intros t f Ha.
  - destruct t; reflexivity.
  - rewrite reached_cons. destruct t as [|t]; cbn [nth_error].
    + destruct (Qle_bool a _) eqn:E; [reflexivity|]. rewrite (ascending_ge a th f Ha E). reflexivity.
    + rewrite (IH t f (ascending_tail _ _ Ha)). destruct (Qle_bool a _) eqn:E; [reflexivity|].
      rewrite (ascending_ge a th f Ha E). reflexivity.
Qed.

Lemma reached_mono th f g : f <= g -> reached th f <= reached th g.
Proof.
  intro H. induction th as [|a th IH]; [reflexivity|]. rewrite !reached_cons.
  destruct (Qle_bool a (inject_Z (Z.of_nat f))) eqn:E1; destruct (Qle_bool a (inject_Z (Z.of_nat g))) eqn:E2; try lia.
  exfalso. apply Qle_bool_iff in E1. assert (Hx : Qle_bool a (inject_Z (Z.of_nat g)) = true).
  { apply Qle_bool_iff. eapply Qle_trans; [exact E1|]. rewrite <- Zle_Qle. lia. } congruence.
Qed.

Lemma chain_step sp avail th v slots t : ascending th -> allow sp v = true ->
  let t' := if Nat.ltb t (reached th (sv_f v)) then S t else t in
  chain_select sp avail th v slots t =
    (match nth_error avail t' with None => Err IndexError | Some c => if Nat.ltb slots (cf_workers c) then Ok SNone else Ok (SOpt c) end, t').
Proof.
  intros Ha Hal t'. unfold chain_select. rewrite Hal. cbn [negb]. subst t'. rewrite <- (threshold_reached th t (sv_f v) Ha).
  destruct (nth_error th t) as [x|]; [destruct (Qle_bool x _)|]; destruct (nth_error avail _) as [c|]; try reflexivity; destruct (Nat.ltb slots (cf_workers c)); reflexivity.
Qed.

Lemma chain_gentle avail th reqs : ascending th -> forall f, gentle th f reqs ->
  forall k v slots, nth_error reqs k = Some (v, slots) ->
  nth_error (chain_run AlwaysSpawn avail th reqs (reached th f)) k =
    Some (match nth_error avail (reached th (sv_f v)) with
          | None => Err IndexError
          | Some c => if Nat.ltb slots (cf_workers c) then Ok SNone else Ok (SOpt c)
          end).
Proof.
  intro Ha. induction reqs as [|[v slots] reqs IH]; intros f Hg k v0 slots0 Hk; [destruct k; discriminate|].
  destruct Hg as [H1 [H2 H3]]. cbn [chain_run]. rewrite (chain_step AlwaysSpawn avail th v slots (reached th f) Ha eq_refl). cbv zeta.
  assert (Ht : (if Nat.ltb (reached th f) (reached th (sv_f v)) then S (reached th f) else reached th f) = reached th (sv_f v)).
  { pose proof (reached_mono th f (sv_f v) H1). destruct (Nat.ltb_spec (reached th f) (reached th (sv_f v))); lia. }
  rewrite Ht. destruct k as [|k]; cbn [nth_error] in *.
  - injection Hk as -> ->. reflexivity.
  - apply IH; assumption.
Qed.
