(** * Lemmas on keyword arguments *)
From Verif Require Export Kwargs_Spec Prelude_Proofs.
From Coq Require Import Lia.

Lemma upd_length {A} i (f : A -> A) l : length (upd i f l) = length l.
Proof. revert i; induction l; intros [|i]; cbn; auto. Qed.
Lemma upd_nth {A} i (f : A -> A) l j : nth_error (upd i f l) j = if Nat.eqb j i then option_map f (nth_error l j) else nth_error l j.
Proof. revert i j; induction l; intros [|i] [|j]; cbn; auto; try (destruct (Nat.eqb _ _); reflexivity); destruct j; reflexivity. Qed.

Lemma without_ddel k d : NoDup (map fst d) -> ddel String.eqb k d = without k d.
Proof.
  unfold without. induction d as [|[k' v] d IH]; intro H; [reflexivity|]. inversion H as [|? ? H1 H2]; subst. cbn.
  destruct (String.eqb k k') eqn:E; cbn; [|rewrite IH by exact H2; reflexivity].
  apply String.eqb_eq in E. subst. clear IH H. induction d as [|[k v'] d IH]; [reflexivity|]. cbn in *.
  destruct (String.eqb k' k) eqn:E; cbn.
  - apply String.eqb_eq in E. subst. tauto.
  - f_equal. apply IH; [tauto|]. inversion H2; assumption.
Qed.
Lemma without_none k d : sget k d = None -> without k d = d.
Proof. unfold without. induction d as [|[k' v] d IH]; [reflexivity|]. cbn. destruct (String.eqb k k'); cbn; [discriminate|]. intro H. rewrite IH by exact H. reflexivity. Qed.
Lemma without_twice k d : without k (without k d) = without k d.
Proof. unfold without. induction d as [|p d IH]; [reflexivity|]. cbn. destruct (String.eqb k (fst p)) eqn:E; cbn; [|rewrite E; cbn; f_equal]; exact IH. Qed.
Lemma sget_without k k' d : sget k (without k' d) = if String.eqb k k' then None else sget k d.
Proof.
  unfold without. induction d as [|[j v] d IH]; cbn; [destruct (String.eqb _ _); reflexivity|].
  destruct (String.eqb k' j) eqn:E; cbn.
  - apply String.eqb_eq in E. subst j. rewrite IH. destruct (String.eqb k k') eqn:E2; reflexivity.
  - rewrite IH. destruct (String.eqb k j) eqn:E3; [|reflexivity]. apply String.eqb_eq in E3. subst j. rewrite String.eqb_sym, E. reflexivity.
Qed.
Lemma sget_In {V} k (v : V) d : sget k d = Some v -> In (k, v) d.
Proof. induction d as [|[j u] d IH]; cbn; [discriminate|]. destruct (String.eqb k j) eqn:E; intro H; [|auto]. apply String.eqb_eq in E. injection H as ->. left. congruence. Qed.
Lemma In_sget {V} k (v : V) d : In (k, v) d -> exists u, sget k d = Some u.
Proof. induction d as [|[j u] d IH]; cbn; [tauto|]. destruct (String.eqb k j) eqn:E; [eauto|]. intros [H|H]; [|auto]. injection H as -> ->. rewrite String.eqb_refl in E. discriminate. Qed.
Lemma In_without p k d : In p (without k d) -> In p d.
Proof. unfold without. rewrite filter_In. tauto. Qed.
Lemma NoDup_without k d : NoDup (map fst d) -> NoDup (map fst (without k d)).
Proof.
  unfold without. induction d as [|[j v] d IH]; intro H; [exact H|]. inversion H as [|? ? H1 H2]; subst. cbn. destruct (String.eqb k j); cbn; [auto|].
  constructor; [|auto]. intro H3. apply H1. rewrite in_map_iff in *. destruct H3 as [x [E H3]]. apply filter_In in H3 as [H3 _]. eauto.
Qed.

(** ** Copies *)
Definition rnv (memo : list (nat * nat)) (v : val) : val :=
  match v with VRef a => match nget a memo with Some b => VRef b | None => VRef a end | v => v end.
Definition rn (memo : list (nat * nat)) (d : kws) : kws := map (fun p => (fst p, rnv memo (snd p))) d.
Definition memo_ok (base lo : nat) (memo : list (nat * nat)) (cells : list nat) : Prop :=
  (forall a b, nget a memo = Some b -> a < base /\ lo <= b < length cells /\ nth_error cells b = nth_error cells a) /\
  forall a a' b, nget a memo = Some b -> nget a' memo = Some b -> a = a'.

Lemma dcopy_spec base lo d : forall memo cells, base <= lo -> lo <= length cells -> memo_ok base lo memo cells ->
  (forall k a, In (k, VRef a) d -> a < base) ->
  exists memo' ext, dcopy memo d cells = (rn memo' d, cells ++ ext) /\ memo_ok base lo memo' (cells ++ ext) /\
    (forall a b, nget a memo = Some b -> nget a memo' = Some b) /\
    forall k a, In (k, VRef a) d -> exists b, nget a memo' = Some b.
Proof.
  induction d as [|[k v] d IH]; intros memo cells Hb Hl Hm Hr.
  { exists memo, []. rewrite app_nil_r. splits; auto. intros k a []. }
  assert (Hr' : forall k a, In (k, VRef a) d -> a < base) by (intros; eapply Hr; right; eauto).
  assert (Plain : forall w, rnv memo w = w -> w = v -> (forall a, v <> VRef a) ->
    exists memo' ext, (let '(d', cells') := dcopy memo d cells in ((k, v) :: d', cells')) = (rn memo' ((k, v) :: d), cells ++ ext) /\ memo_ok base lo memo' (cells ++ ext) /\
    (forall a b, nget a memo = Some b -> nget a memo' = Some b) /\ forall k' a, In (k', VRef a) ((k, v) :: d) -> exists b, nget a memo' = Some b).
  { intros w _ _ Hv. destruct (IH memo cells Hb Hl Hm Hr') as [memo' [ext [E [H1 [H2 H3]]]]]. exists memo', ext. rewrite E. splits; auto.
    - cbn. f_equal. f_equal. destruct v; try reflexivity. destruct (Hv a). reflexivity.
    - intros k' a [H|H]; [injection H as _ ->; destruct (Hv a); reflexivity|eauto]. }
  destruct v as [s|n|a]; [apply (Plain (VText s)); auto; discriminate|apply (Plain (VNum n)); auto; discriminate|].
  cbn [dcopy]. destruct (nget a memo) as [b|] eqn:Ea.
  - destruct (IH memo cells Hb Hl Hm Hr') as [memo' [ext [E [H1 [H2 H3]]]]]. exists memo', ext. rewrite E. splits; auto.
    + cbn. rewrite (H2 _ _ Ea). reflexivity.
    + intros k' a' [H|H]; [injection H as _ <-; eauto|eauto].
  - assert (Ha : a < base) by (eapply Hr; left; reflexivity). destruct (nth_error cells a) as [c|] eqn:Ec.
    2: { apply nth_error_None in Ec. lia. }
    destruct (IH ((a, length cells) :: memo) (cells ++ [c])) as [memo' [ext [E [H1 [H2 H3]]]]]; auto.
    + rewrite app_length. cbn. lia.
    + destruct Hm as [Hm1 Hm2]. split.
      * intros a' b. cbn. destruct (Nat.eqb_spec a' a) as [->|Hne].
        -- intro H. injection H as <-. rewrite app_length. cbn. splits; try lia. rewrite nth_error_app2, Nat.sub_diag by lia.
           rewrite nth_error_app1 by (apply nth_error_Some; congruence). cbn. congruence.
        -- intro H. destruct (Hm1 _ _ H) as [? [? ?]]. rewrite app_length. cbn. splits; try lia. rewrite !nth_error_app1 by lia. assumption.
      * intros a1 a2 b. cbn. destruct (Nat.eqb_spec a1 a) as [->|Hne]; destruct (Nat.eqb_spec a2 a) as [->|Hne2]; auto.
        -- intros H H'. injection H as <-. destruct (Hm1 _ _ H') as [? [? ?]]. lia.
        -- intros H' H. injection H as <-. destruct (Hm1 _ _ H') as [? [? ?]]. lia.
        -- apply Hm2.
    + exists memo', (c :: ext). rewrite E. change (c :: ext) with ([c] ++ ext). rewrite app_assoc.
      assert (E1 : nget a memo' = Some (length cells)) by (apply H2; cbn; rewrite Nat.eqb_refl; reflexivity).
      splits; auto.
      * cbn. rewrite E1. reflexivity.
      * intros a' b H. apply H2. cbn. destruct (Nat.eqb_spec a' a) as [->|_]; [congruence|exact H].
      * intros k' a' [H|H]; [injection H as _ <-; eauto|eauto].
Qed.

Lemma rn_same memo d : same_kws d (rn memo d).
Proof.
  induction d as [|[k v] d IH]; constructor; [|exact IH]. split; [reflexivity|]. cbn. destruct v; cbn; auto. destruct (nget a memo); exact I.
Qed.
Lemma sget_rn memo k d : sget k (rn memo d) = option_map (rnv memo) (sget k d).
Proof. induction d as [|[j v] d IH]; cbn; [reflexivity|]. destruct (String.eqb k j); [reflexivity|exact IH]. Qed.
Lemma rn_without memo k d : without k (rn memo d) = rn memo (without k d).
Proof. induction d as [|[j v] d IH]; cbn; [reflexivity|]. destruct (String.eqb k j); cbn; [|f_equal]; exact IH. Qed.
Lemma rn_keys memo d : map fst (rn memo d) = map fst d.
Proof. unfold rn. rewrite map_map. reflexivity. Qed.
Lemma same_refl d : same_kws d d.
Proof. induction d as [|[k v] d IH]; constructor; [|exact IH]. split; [reflexivity|]. destruct v; cbn; auto. Qed.

(** Opening: fresh copies of the two dictionaries. *)
Lemma dcopy_fresh d cells : (forall k a, In (k, VRef a) d -> a < length cells) ->
  exists memo ext, dcopy [] d cells = (rn memo d, cells ++ ext) /\ memo_ok (length cells) (length cells) memo (cells ++ ext) /\
  forall k a, In (k, VRef a) d -> exists b, nget a memo = Some b.
Proof.
  intro H. destruct (dcopy_spec (length cells) (length cells) d [] cells) as [memo [ext [E [H1 [_ H3]]]]]; auto.
  - split; intros; discriminate.
  - eauto.
Qed.

(** ** Traces *)
Lemma selections_app es l l' : selections es (l ++ l') = selections es l ++ selections es l'.
Proof. induction l as [|[j|i w k] l IH]; cbn; auto. destruct (nth_error es j); cbn; [f_equal|]; exact IH. Qed.
Lemma own_snoc ds es x i e w a ev evs : forall n, own ds es x i e w a n (evs ++ [ev]) =
  own ds es x i e w a n evs + (if Nat.ltb i (n + length (selections es evs)) && touches ds x i e w a ev then 1 else 0).
Proof.
  induction evs as [|e' evs IH]; intro n; cbn [own app]; [cbn [selections length]; rewrite !Nat.add_0_r; reflexivity|].
  rewrite IH. rewrite Nat.add_assoc. f_equal.
  assert (E : match e' with Select j => match nth_error es j with Some _ => S n | None => n end | Tick _ _ _ => n end + length (selections es evs) = n + length (selections es (e' :: evs))).
  { destruct e' as [j|]; cbn; [|reflexivity]. destruct (nth_error es j); cbn; lia. }
  rewrite E. reflexivity.
Qed.
Lemma own_zero ds es x i e w a evs : forall n, n + length (selections es evs) <= i -> own ds es x i e w a n evs = 0.
Proof.
  induction evs as [|ev evs IH]; intros n H; cbn [own]; [reflexivity|]. rewrite IH.
  - assert (E : Nat.ltb i n = false) by (apply Nat.ltb_ge; lia). rewrite E. reflexivity.
  - destruct ev as [j|]; cbn in *; [|exact H]. destruct (nth_error es j); cbn in *; lia.
Qed.
Lemma run_app m l l' s : run m (l ++ l') s = match run m l s with Ok s => run m l' s | Err e => Err e end.
Proof. revert s; induction l as [|ev l IH]; intro s; cbn; [reflexivity|]. destruct (step m ev s); [apply IH|reflexivity]. Qed.

Lemma same_ref d d' k b : same_kws d d' -> sget k d' = Some (VRef b) -> exists a, sget k d = Some (VRef a).
Proof.
  induction 1 as [|[j v] [j' v'] d d' [E H] _ IH]; cbn; [discriminate|]. cbn in E. subst j'. destruct (String.eqb k j); [|auto].
  intro E. injection E as ->. cbn in H. destruct v; cbn in H; try tauto. eauto.
Qed.

Section Run.
  Context (ds : list kws) (cells0 : list nat) (es : list entry) (m : mode).
  Local Notation proc := (proc_backend m).
  Context (Hok : heap_ok (mkHeap ds cells0)) (Hsel : sel_ok ds es).

  Definition memory (s : st) (o : optim) : list nat := match o_mem o with Some c => c | None => h_cells (s_heap s) end.

  Definition fits (evs : list event) (i : nat) (e : entry) (o : optim) (mem : list nat) : Prop :=
    o_class o = e_class e /\ same_kws (given ds e true) (o_init o) /\ same_kws (given ds e false) (o_call o) /\
    (proc = true -> exists c, o_mem o = Some c) /\ (proc = false -> o_mem o = None) /\
    (forall w k a, sget k (given ds e w) = Some (VRef a) -> exists b c, held o w k = Some b /\
       nth_error cells0 a = Some c /\ nth_error mem b = Some (c + own ds es proc i e w a 0 evs) /\ (proc = false -> length cells0 <= b)) /\
    (forall w k a w' k' a' b, sget k (given ds e w) = Some (VRef a) -> sget k' (given ds e w') = Some (VRef a') -> held o w k = Some b ->
       (held o w' k' = Some b <-> a = a' /\ (proc || Bool.eqb w w') = true)).

  (** Every use of the dictionary takes the backend out of it. *)
  Definition used (sel : list entry) (a : nat) : bool := proc && existsb (fun e => Nat.eqb (e_init e) a) sel.

  Definition paid (sel : list entry) (e : entry) (o : optim) : Prop :=
    (match sget "backend" (configured ds e true) with
     | Some b => if used sel (e_init e) then o_backend o = default_backend m else same_val b (o_backend o)
     | None => o_backend o = default_backend m
     end) /\
    exists v, sget "workers" (configured ds e true) = Some v /\ same_val v (o_slots o).

  Definition inv (evs : list event) (s : st) : Prop :=
    s_sel s = es /\
    (forall a, nth_error (h_dicts (s_heap s)) a = option_map (fun d => if used (selections es evs) a then without "backend" d else d) (nth_error ds a)) /\
    (exists ext, h_cells (s_heap s) = cells0 ++ ext /\ (proc = true -> ext = [])) /\
    length (s_opts s) = length (selections es evs) /\
    (forall i e o, nth_error (selections es evs) i = Some e -> nth_error (s_opts s) i = Some o ->
       fits evs i e o (memory s o) /\ paid (firstn i (selections es evs)) e o) /\
    (proc = false -> forall i j oi oj w k w' k' b, i <> j -> nth_error (s_opts s) i = Some oi -> nth_error (s_opts s) j = Some oj ->
       held oi w k = Some b -> held oj w' k' <> Some b).

  Lemma held_given evs i e o mem w k b : fits evs i e o mem -> held o w k = Some b -> exists a, sget k (given ds e w) = Some (VRef a).
  Proof.
    intros [_ [H1 [H2 _]]] H. unfold held in H. destruct (sget k _) as [[| |b']|] eqn:E; try discriminate.
    destruct w; [apply (same_ref _ _ _ _ H1 E)|apply (same_ref _ _ _ _ H2 E)].
  Qed.

  Lemma inv_init : inv [] (mkSt (mkHeap ds cells0) es []).
  Proof.
    unfold inv. cbn. splits; auto.
    - intro a. unfold used. cbn. rewrite andb_false_r. destruct (nth_error ds a); reflexivity.
    - exists []. rewrite app_nil_r. auto.
    - intros [|i]; discriminate.
    - intros _ [|i] j; discriminate.
  Qed.

  Lemma fits_mono evs evs' i e o mem mem' : fits evs i e o mem ->
    (forall w k a b c, sget k (given ds e w) = Some (VRef a) -> held o w k = Some b -> nth_error mem b = Some (c + own ds es proc i e w a 0 evs) ->
       nth_error mem' b = Some (c + own ds es proc i e w a 0 evs')) -> fits evs' i e o mem'.
  Proof.
    intros [H1 [H2 [H3 [H4 [H5 [H6 H7]]]]]] H. unfold fits. splits; auto. intros w k a Hk. destruct (H6 w k a Hk) as [b [c [Q1 [Q2 [Q3 Q4]]]]].
    exists b, c. splits; auto. eapply H; eauto.
  Qed.

  (** An object changes. *)
  Lemma inv_tick evs s i w k : inv evs s -> exists s', step m (Tick i w k) s = Ok s' /\ inv (evs ++ [Tick i w k]) s'.
  Proof.
    intros [I1 [I2 [I3 [I4 [I5 I6]]]]]. cbn [step].
    assert (Es : selections es (evs ++ [Tick i w k]) = selections es evs) by (rewrite selections_app; cbn; apply app_nil_r).
    assert (Keep : (forall o e, nth_error (s_opts s) i = Some o -> nth_error (selections es evs) i = Some e -> forall a, sget k (given ds e w) <> Some (VRef a)) ->
                   inv (evs ++ [Tick i w k]) s).
    { intro H. unfold inv. rewrite Es. splits; auto. intros j e o Hj Ho. destruct (I5 j e o Hj Ho) as [F P]. split; [|exact P].
      apply (fits_mono _ _ _ _ _ _ _ F). intros w' k' a b c Hk Hb Hc. rewrite own_snoc. cbn [touches].
      destruct (Nat.eqb_spec i j) as [->|Hne]; cbn; [|rewrite andb_false_r, Nat.add_0_r; exact Hc].
      specialize (H o e Ho Hj). destruct (sget k (given ds e w)) as [[| |a']|] eqn:E; try (rewrite !andb_false_r, Nat.add_0_r; exact Hc).
      destruct (H a'). reflexivity. }
    destruct (nth_error (s_opts s) i) as [o|] eqn:Eo; [|exists s; split; [reflexivity|apply Keep; discriminate]].
    assert (He : exists e, nth_error (selections es evs) i = Some e).
    { destruct (nth_error (selections es evs) i) eqn:E; [eauto|]. apply nth_error_None in E. rewrite <- I4 in E. apply nth_error_None in E. congruence. }
    destruct He as [e Ee]. destruct (I5 i e o Ee Eo) as [Fi Pi].
    destruct (held o w k) as [b|] eqn:Eh.
    2: { exists s. split; [reflexivity|]. apply Keep. intros o' e' E1 E2 a E3. injection E1 as <-. rewrite Ee in E2. injection E2 as <-.
         destruct Fi as [_ [_ [_ [_ [_ [Fi _]]]]]]. destruct (Fi w k a E3) as [b [c [H _]]]. congruence. }
    destruct (held_given _ _ _ _ _ _ _ _ Fi Eh) as [a0 Ea].
    assert (Hlt : i < length (selections es evs)) by (apply nth_error_Some; congruence).
    assert (Inc : forall w' k' a b' c mem, mem = memory s o -> sget k' (given ds e w') = Some (VRef a) -> held o w' k' = Some b' ->
      nth_error mem b' = Some (c + own ds es proc i e w' a 0 evs) -> nth_error (upd b S mem) b' = Some (c + own ds es proc i e w' a 0 (evs ++ [Tick i w k]))).
    { intros w' k' a b' c mem -> Hk' Hb' Hc. rewrite own_snoc. cbn [touches]. rewrite Nat.eqb_refl, Ea. cbn [andb].
      rewrite (proj2 (Nat.ltb_lt _ _)) by exact Hlt. cbn [andb]. rewrite upd_nth, Hc.
      destruct Fi as [_ [_ [_ [_ [_ [_ Fi]]]]]]. specialize (Fi w k a0 w' k' a b Ea Hk' Eh). rewrite Hb' in Fi.
      destruct (Nat.eqb_spec b' b) as [->|Hne].
      - destruct (proj1 Fi eq_refl) as [-> Hx]. rewrite Hx, Nat.eqb_refl. cbn. f_equal. lia.
      - destruct ((proc || Bool.eqb w w') && Nat.eqb a0 a) eqn:E; [|rewrite Nat.add_0_r; reflexivity].
        apply andb_true_iff in E as [E1 E2]. apply Nat.eqb_eq in E2. assert (Some b' = Some b) by (apply Fi; auto). congruence. }
    assert (Other : forall j e' w' a, j <> i -> own ds es proc j e' w' a 0 (evs ++ [Tick i w k]) = own ds es proc j e' w' a 0 evs).
    { intros j e' w' a Hne. rewrite own_snoc. cbn [touches]. destruct (Nat.eqb_spec i j); [congruence|]. cbn. rewrite andb_false_r. lia. }
    destruct Fi as [F1 [F2 [F3 [F4 [F5 [F6 F7]]]]]]. assert (Ep : proc = true \/ proc = false) by (destruct proc; auto). destruct Ep as [Ep|Ep].
    - destruct (F4 Ep) as [c Ec]. rewrite Ec. eexists. split; [reflexivity|]. unfold inv. rewrite Es. cbn [s_sel s_heap s_opts]. rewrite upd_length. splits; auto.
      + intros j e' o' Hj Ho'. rewrite upd_nth in Ho'. destruct (Nat.eqb_spec j i) as [->|Hne].
        * rewrite Eo in Ho'. cbn in Ho'. injection Ho' as <-. rewrite Ee in Hj. injection Hj as <-. split; [|exact Pi].
          unfold memory. cbn [o_mem]. unfold fits. cbn [o_class o_init o_call o_mem]. splits; auto; try congruence; eauto.
          -- intros w' k' a Hk'. destruct (F6 w' k' a Hk') as [b' [c' [Q1 [Q2 [Q3 Q4]]]]]. exists b', c'. splits; auto.
             eapply (Inc w' k' a b' c' c); auto; unfold memory in *; rewrite Ec in *; auto.
        * destruct (I5 j e' o' Hj Ho') as [F P]. split; [|exact P]. change (memory (mkSt (s_heap s) (s_sel s) (upd i _ (s_opts s))) o') with (memory s o').
          apply (fits_mono _ _ _ _ _ _ _ F). intros w' k' a b' c' _ _ H. rewrite (Other j e' w' a Hne). exact H.
      + congruence.
    - rewrite (F5 Ep). eexists. split; [reflexivity|]. unfold inv. rewrite Es. cbn [s_sel s_heap s_opts h_dicts h_cells].
      destruct (F6 w k a0 Ea) as [b0 [c0 [Q1 [Q2 [Q3 Q4]]]]]. rewrite Eh in Q1. injection Q1 as <-. specialize (Q4 Ep).
      splits; auto.
      + destruct I3 as [ext [I3 _]]. exists (upd (b - length cells0) S ext). split; [|congruence]. rewrite I3.
        clear - Q4. revert b Q4. induction cells0 as [|x l IH]; intros b H; cbn; [rewrite Nat.sub_0_r; reflexivity|].
        destruct b; cbn in *; [lia|]. f_equal. apply IH. lia.
      + intros j e' o' Hj Ho'. destruct (I5 j e' o' Hj Ho') as [F P]. split; [|exact P].
        assert (Em : o_mem o' = None) by (apply F; exact Ep). unfold memory in *. rewrite Em in *. rewrite (F5 Ep) in *. cbn [s_heap h_cells] in *.
        destruct (Nat.eq_dec j i) as [->|Hne].
        * rewrite Eo in Ho'. injection Ho' as <-. rewrite Ee in Hj. injection Hj as <-.
          apply (fits_mono _ _ _ _ _ _ _ F). intros w' k' a b' c' H1 H2 H3. eapply (Inc w' k' a b' c'); eauto.
        * apply (fits_mono _ _ _ _ _ _ _ F). intros w' k' a b' c' H1 H2 H3. rewrite (Other j e' w' a Hne).
          rewrite upd_nth. destruct (Nat.eqb_spec b' b) as [->|]; [|exact H3].
          destruct (I6 Ep j i o' o w' k' w k b Hne Ho' Eo H2 Eh).
  Qed.

  Lemma selections_in evs e : In e (selections es evs) -> In e es.
  Proof.
    induction evs as [|[j|] evs IH]; cbn; auto; [tauto|]. destruct (nth_error es j) eqn:E; [|auto]. intros [<-|H]; [|auto]. eapply nth_error_In, E.
  Qed.
  Lemma configured_nth e (w : bool) : In e es -> nth_error ds (if w then e_init e else e_call e) = Some (configured ds e w) /\ dict_ok cells0 (configured ds e w).
  Proof.
    intro H. destruct (proj1 Hsel e H) as [H1 [H2 _]]. unfold configured.
    assert (Hl : (if w then e_init e else e_call e) < length ds) by (destruct w; assumption).
    split; [apply nth_error_nth', Hl|]. unfold heap_ok in Hok. cbn in Hok. rewrite Forall_forall in Hok. apply Hok, nth_In, Hl.
  Qed.
  Lemma given_ok e w : In e es -> dict_ok cells0 (given ds e w).
  Proof.
    intro H. unfold given. destruct w; [|apply (configured_nth e false H)]. destruct (configured_nth e true H) as [_ [H1 H2]].
    split; [apply NoDup_without, H1|]. intros k a Hk. apply (H2 k a), (In_without _ _ _ Hk).
  Qed.
  Lemma used_call (sel : list entry) e : (forall x, In x sel -> In x es) -> In e es -> used sel (e_call e) = false.
  Proof.
    intros H He. unfold used. destruct proc; [|reflexivity]. cbn. induction sel as [|x sel IH]; [reflexivity|]. cbn.
    rewrite IH by (intros; apply H; right; assumption). rewrite orb_false_r. apply Nat.eqb_neq. apply (proj2 Hsel); [apply H; left; reflexivity|exact He].
  Qed.

  Lemma smemd_keys (k : string) (d : kws) : smemd k d = existsb (String.eqb k) (map fst d).
  Proof. unfold dmem. induction d as [|[j v] d IH]; cbn; [reflexivity|]. destruct (String.eqb k j); [reflexivity|exact IH]. Qed.
  Lemma reserved_clash e memo : existsb (fun k => smemd k (rn memo (given ds e true))) reserved = true <-> clashes ds e.
  Proof.
    unfold clashes. rewrite existsb_exists. split.
    - intros [k [H1 H2]]. rewrite smemd_keys, rn_keys in H2. apply existsb_exists in H2 as [k' [H2 E]]. apply String.eqb_eq in E. subst k'.
      apply in_map_iff in H2 as [[k' v] [E H2]]. cbn in E. subst k'. exists k, v. split; [apply (In_without _ _ _ H2)|exact H1].
    - intros [k [v [H1 H2]]]. exists k. split; [exact H2|]. rewrite smemd_keys, rn_keys. apply existsb_exists. exists k. split; [|apply String.eqb_refl].
      apply in_map_iff. exists (k, v). split; [reflexivity|]. apply filter_In. split; [exact H1|]. cbn in H2. destruct H2 as [<-|[<-|[<-|[<-|[<-|[]]]]]]; reflexivity.
  Qed.
  Lemma workers_given e memo : In e es -> exists v, sget "workers" (configured ds e true) = Some v /\ sget "workers" (rn memo (given ds e true)) = Some (rnv memo v).
  Proof.
    intro H. destruct (proj1 Hsel e H) as [_ [_ [v Hv]]]. apply In_sget in Hv as [u Hu]. exists u. split; [exact Hu|].
    rewrite sget_rn. unfold given. rewrite sget_without. cbn [String.eqb Ascii.eqb Bool.eqb]. rewrite Hu. reflexivity.
  Qed.
  Lemma rn_nil d : rn [] d = d.
  Proof. unfold rn. rewrite <- (map_id d) at 2. apply map_ext. intros [k []]; reflexivity. Qed.
  Lemma rnv_same memo v : same_val v (rnv memo v).
  Proof. destruct v; cbn; auto. destruct (nget a memo); exact I. Qed.

  (** The state after the start of optimizer [n]: [mi] and [mc] rename the objects. *)
  Definition after (s : st) (e : entry) (mi mc : list (nat * nat)) (backend w : val) (cells : list nat) : st :=
    mkSt (mkHeap (if proc then upd (e_init e) (fun _ => given ds e true) (h_dicts (s_heap s)) else h_dicts (s_heap s)) cells) es
         (s_opts s ++ [mkOpt (e_class e) backend (rn mi (given ds e true)) (rn mc (given ds e false)) w (if proc then Some cells else None)]).

  Lemma setup_form evs s e : inv evs s -> In e es ->
    exists mi mc backend v ext, let w := rnv mi v in
      setup_new m e s = (if existsb (fun k => smemd k (rn mi (given ds e true))) reserved then Err TypeError
                         else Ok (after s e mi mc backend w (h_cells (s_heap s) ++ ext))) /\
      sget "workers" (configured ds e true) = Some v /\
      (match sget "backend" (configured ds e true) with
       | Some b => if used (selections es evs) (e_init e) then backend = default_backend m else same_val b backend
       | None => backend = default_backend m
       end) /\
      (proc = true -> ext = [] /\ mi = [] /\ mc = []) /\
      (proc = false -> exists x, memo_ok (length (h_cells (s_heap s))) (length (h_cells (s_heap s))) mi (h_cells (s_heap s) ++ x) /\
         memo_ok (length (h_cells (s_heap s) ++ x)) (length (h_cells (s_heap s) ++ x)) mc (h_cells (s_heap s) ++ ext) /\ (exists y, ext = x ++ y) /\
         (forall w k a, sget k (given ds e w) = Some (VRef a) -> exists b, nget a (if w then mi else mc) = Some b)).
  Proof.
    intros [I1 [I2 [[ext0 [I3 I3']] [I4 _]]]] He. unfold setup_new.
    destruct (configured_nth e true He) as [Ni [Oi1 Oi2]]. destruct (configured_nth e false He) as [Nc [Oc1 Oc2]]. cbn in Ni, Nc.
    rewrite (I2 (e_init e)), (I2 (e_call e)), Ni, Nc. cbn [option_map].
    rewrite (used_call _ e (selections_in evs) He).
    assert (Hlen : length cells0 <= length (h_cells (s_heap s))) by (rewrite I3, app_length; lia).
    assert (Ep : proc = true \/ proc = false) by (destruct proc; auto). destruct Ep as [Ep|Ep].
    - rewrite Ep. destruct (workers_given e [] He) as [v [Hv Hw]]. rewrite rn_nil in Hw.
      exists [], [], (match sget "backend" (configured ds e true) with Some b => if used (selections es evs) (e_init e) then default_backend m else b | None => default_backend m end), v, [].
      cbn zeta. unfold after. rewrite Ep, !rn_nil, app_nil_r. splits; auto; try congruence.
      + cbv beta iota. set (u := used (selections es evs) (e_init e)).
        match goal with |- match ?X with pair _ _ => _ end = _ => assert (E : X = (match sget "backend" (configured ds e true) with Some b => if u then default_backend m else b | None => default_backend m end, given ds e true)) end.
        { destruct u.
          - rewrite sget_without, String.eqb_refl. unfold given. destruct (sget "backend" _); reflexivity.
          - destruct (sget "backend" (configured ds e true)) as [b|] eqn:Eb; [rewrite without_ddel by exact Oi1; reflexivity|].
            unfold given. rewrite without_none by exact Eb. reflexivity. }
        rewrite E. rewrite Hw. unfold given at 4. rewrite I1. destruct v; reflexivity.
      + destruct (sget "backend" _) as [b|]; [|reflexivity]. destruct (used _ _); [reflexivity|]. destruct b; cbn; auto.
    - assert (Eu : used (selections es evs) (e_init e) = false) by (unfold used; rewrite Ep; reflexivity). rewrite Eu, Ep.
      destruct (dcopy_fresh (configured ds e true) (h_cells (s_heap s))) as [mi [x [E1 [M1 R1]]]].
      { intros k a H. specialize (Oi2 _ _ H). lia. }
      destruct (dcopy_fresh (configured ds e false) (h_cells (s_heap s) ++ x)) as [mc [y [E2 [M2 R2]]]].
      { intros k a H. specialize (Oc2 _ _ H). rewrite app_length. lia. }
      destruct (workers_given e mi He) as [v [Hv Hw]].
      exists mi, mc, (match sget "backend" (configured ds e true) with Some b => rnv mi b | None => default_backend m end), v, (x ++ y).
      cbn zeta. rewrite E1, E2. unfold after. rewrite Ep, I1. splits; auto; try congruence.
      + cbv beta iota. match goal with |- match ?X with pair _ _ => _ end = _ => assert (E : X = (match sget "backend" (configured ds e true) with Some b => rnv mi b | None => default_backend m end, rn mi (given ds e true))) end.
        { rewrite sget_rn. unfold given. destruct (sget "backend" (configured ds e true)) as [b|] eqn:Eb; cbn [option_map].
          - rewrite without_ddel by (rewrite rn_keys; exact Oi1). rewrite rn_without. reflexivity.
          - rewrite without_none by exact Eb. reflexivity. }
        rewrite E, Hw, <- app_assoc. reflexivity.
      + destruct (sget "backend" _) as [b|]; [apply rnv_same|reflexivity].
      + intros _. exists x. splits; auto; [rewrite <- app_assoc in M2; exact M2|eauto|]. intros [] k a H.
        * apply (R1 k), (In_without _ "backend"), sget_In, H.
        * apply (R2 k), sget_In, H.
  Qed.

  Lemma used_snoc sel e a : used (sel ++ [e]) a = used sel a || (proc && Nat.eqb (e_init e) a).
  Proof. unfold used. rewrite existsb_app. cbn. rewrite orb_false_r. destruct proc; reflexivity. Qed.

  Lemma held_new e w k mi mc backend v mem : held (mkOpt (e_class e) backend (rn mi (given ds e true)) (rn mc (given ds e false)) v mem) w k =
    match sget k (given ds e w) with Some (VRef a) => Some (match nget a (if w then mi else mc) with Some b => b | None => a end) | _ => None end.
  Proof.
    unfold held. cbn [o_init o_call]. destruct w; rewrite sget_rn; destruct (sget k _) as [[| |a]|]; cbn [option_map rnv]; try reflexivity; destruct (nget a _); reflexivity.
  Qed.

  Lemma inv_select evs s j e : inv evs s -> nth_error es j = Some e ->
    (clashes ds e /\ step m (Select j) s = Err TypeError) \/
    (~ clashes ds e /\ exists s', step m (Select j) s = Ok s' /\ inv (evs ++ [Select j]) s').
  Proof.
    intros I Ej. cbn [step]. assert (I' := I). destruct I as [I1 [I2 [[ext0 [I3 I3']] [I4 [I5 I6]]]]]. rewrite I1, Ej.
    assert (He : In e es) by (eapply nth_error_In, Ej).
    destruct (setup_form evs s e I' He) as [mi [mc [backend [v [ext [E [Hv [Hb [Hp Ht]]]]]]]]]. cbn zeta in E. rewrite E. clear E.
    destruct (existsb _ reserved) eqn:Er; [left; split; [apply (reserved_clash e mi), Er|reflexivity]|right].
    split; [rewrite <- (reserved_clash e mi); congruence|]. eexists. split; [reflexivity|]. clear Er.
    assert (Es : selections es (evs ++ [Select j]) = selections es evs ++ [e]) by (rewrite selections_app; cbn; rewrite Ej; reflexivity).
    set (C := h_cells (s_heap s)) in *. assert (Hlen : length cells0 <= length C) by (rewrite I3, app_length; lia).
    assert (Old : forall a, a < length cells0 -> nth_error (C ++ ext) a = nth_error cells0 a).
    { intros a Ha. rewrite nth_error_app1 by lia. rewrite I3. apply nth_error_app1, Ha. }
    assert (Own : forall i w a e', own ds es proc i e' w a 0 (evs ++ [Select j]) = own ds es proc i e' w a 0 evs).
    { intros. rewrite own_snoc. cbn. rewrite andb_false_r. lia. }
    unfold inv. rewrite Es. unfold after. cbn [s_sel s_heap s_opts h_dicts h_cells]. splits.
    - reflexivity.
    - intro a. rewrite used_snoc. destruct proc eqn:Ep; cbn [andb orb].
      + rewrite upd_nth. rewrite (Nat.eqb_sym a). destruct (Nat.eqb_spec (e_init e) a) as [<-|Hne].
        * rewrite orb_true_r, I2. destruct (configured_nth e true He) as [N _]. cbn in N. rewrite N. reflexivity.
        * rewrite orb_false_r. apply I2.
      + rewrite orb_false_r. apply I2.
    - exists (ext0 ++ ext). split; [rewrite app_assoc, <- I3; reflexivity|]. intro H. rewrite (I3' H), (proj1 (Hp H)). reflexivity.
    - rewrite !app_length, I4. reflexivity.
    - intros i e' o' Hi Ho. destruct (Nat.lt_ge_cases i (length (s_opts s))) as [Hlt|Hge].
      + rewrite nth_error_app1 in Ho by exact Hlt. rewrite nth_error_app1 in Hi by lia. destruct (I5 i e' o' Hi Ho) as [F P]. split.
        * apply (fits_mono _ _ _ _ _ _ _ F). intros w k a b c _ _ H. rewrite Own. unfold memory in *. destruct (o_mem o'); [exact H|].
          cbn [s_heap h_cells]. fold C in H. rewrite nth_error_app1; [exact H|]. apply nth_error_Some. congruence.
        * rewrite firstn_app. replace (i - length (selections es evs)) with 0 by lia. cbn. rewrite app_nil_r. exact P.
      + rewrite nth_error_app2 in Ho by exact Hge. rewrite nth_error_app2 in Hi by lia.
        assert (Ei : i = length (s_opts s)).
        { destruct (i - length (s_opts s)) as [|[]] eqn:E; cbn [nth_error] in Ho; try discriminate. lia. }
        rewrite Ei, Nat.sub_diag in Ho. rewrite Ei, I4, Nat.sub_diag in Hi. cbn [nth_error] in Ho, Hi. injection Ho as <-. injection Hi as <-. split.
        * unfold fits. cbn [o_class o_init o_call o_mem]. unfold memory. cbn [o_mem s_heap h_cells].
          replace (match (if proc then Some (C ++ ext) else None) with Some c => c | None => C ++ ext end) with (C ++ ext) by (destruct proc; reflexivity).
          splits; auto using rn_same.
          -- intros ->. eauto.
          -- intros ->. reflexivity.
          -- intros w k a Hk. rewrite held_new, Hk. rewrite Own, own_zero by (cbn; lia).
             assert (Ha : a < length cells0) by (apply (proj2 (given_ok e w He) k), sget_In, Hk).
             destruct (nth_error cells0 a) as [c|] eqn:Ec; [|apply nth_error_None in Ec; lia].
             eexists _, c. splits; [reflexivity|reflexivity| |]; rewrite ?Nat.add_0_r.
             ++ assert (Ep : proc = true \/ proc = false) by (destruct proc; auto). destruct Ep as [Ep|Ep].
                ** destruct (Hp Ep) as [_ [-> ->]]. destruct w; cbn; rewrite Old by exact Ha; exact Ec.
                ** destruct (Ht Ep) as [x [[M1 _] [[M2 _] [[y ->] R]]]]. destruct (R w k a Hk) as [b Hb']. destruct w; rewrite Hb'.
                   --- destruct (M1 _ _ Hb') as [_ [Q1 Q2]]. rewrite app_assoc. rewrite nth_error_app1 by lia. rewrite Q2.
                       rewrite <- Ec. rewrite <- (Old a Ha). rewrite app_assoc. symmetry. apply nth_error_app1. rewrite app_length. lia.
                   --- destruct (M2 _ _ Hb') as [_ [Q1 Q2]]. rewrite Q2, Old by exact Ha. exact Ec.
             ++ intro Ep. destruct (Ht Ep) as [x [[M1 _] [[M2 _] [_ R]]]]. destruct (R w k a Hk) as [b Hb']. destruct w; rewrite Hb'.
                ** destruct (M1 _ _ Hb') as [_ [Q1 Q2]]. lia.
                ** destruct (M2 _ _ Hb') as [_ [Q1 Q2]]. rewrite app_length in Q1. lia.
          -- intros w k a w' k' a' b Hk Hk'. rewrite !held_new, Hk, Hk'. intro H. injection H as <-.
             assert (Ep : proc = true \/ proc = false) by (destruct proc; auto). destruct Ep as [Ep|Ep].
             ++ destruct (Hp Ep) as [_ [-> ->]]. rewrite Ep. cbn [orb]. destruct w, w'; cbn; split; try (intros [-> _]; reflexivity); intro H; injection H as ->; auto.
             ++ destruct (Ht Ep) as [x [[M1 N1] [[M2 N2] [_ R]]]]. destruct (R w k a Hk) as [b Hb1]. destruct (R w' k' a' Hk') as [b' Hb2]. rewrite Hb1, Hb2, Ep. cbn [orb].
                destruct w, w'; cbn [Bool.eqb]; split; try (intros [-> H]; congruence); intro H; injection H as ->.
                ** split; [apply (N1 _ _ b Hb1 Hb2)|reflexivity].
                ** destruct (M1 _ _ Hb1) as [_ [Q1 _]]. destruct (M2 _ _ Hb2) as [_ [Q2 _]]. lia.
                ** destruct (M1 _ _ Hb2) as [_ [Q1 _]]. destruct (M2 _ _ Hb1) as [_ [Q2 _]]. lia.
                ** split; [apply (N2 _ _ b Hb1 Hb2)|reflexivity].
        * rewrite Ei, I4, firstn_app, firstn_all, Nat.sub_diag. cbn. rewrite app_nil_r. split; cbn [o_backend o_slots]; [exact Hb|]. eauto using rnv_same.
    - intro Ep. assert (Small : forall i o w k b, nth_error (s_opts s) i = Some o -> held o w k = Some b -> b < length C).
      { intros i o w k b Ho Hh. destruct (nth_error (selections es evs) i) as [e'|] eqn:Ee.
        2: { apply nth_error_None in Ee. rewrite <- I4 in Ee. apply nth_error_None in Ee. congruence. }
        destruct (I5 i e' o Ee Ho) as [F _]. destruct (held_given _ _ _ _ _ _ _ _ F Hh) as [a Ha]. destruct F as [_ [_ [_ [_ [F1 [F2 _]]]]]].
        destruct (F2 w k a Ha) as [b' [c [Q1 [_ [Q2 _]]]]]. rewrite Hh in Q1. injection Q1 as <-. unfold memory in Q2. rewrite (F1 Ep) in Q2. apply nth_error_Some. fold C in Q2. congruence. }
      destruct (Ht Ep) as [x [[M1 _] [[M2 _] [_ R]]]].
      assert (Large : forall w k b, held (mkOpt (e_class e) backend (rn mi (given ds e true)) (rn mc (given ds e false)) (rnv mi v) (if proc then Some (C ++ ext) else None)) w k = Some b -> length C <= b).
      { intros w k b. rewrite held_new. destruct (sget k (given ds e w)) as [[| |a]|] eqn:Ek; try discriminate. destruct (R w k a Ek) as [b' Hb']. rewrite Hb'.
        intro H. injection H as <-. destruct w; [destruct (M1 _ _ Hb') as [_ [Q1 _]]; lia|destruct (M2 _ _ Hb') as [_ [Q1 _]]; rewrite app_length in Q1; lia]. }
      intros i i' oi oj w k w' k' b Hne Hi Hj Hh Hh'.
      destruct (Nat.lt_ge_cases i (length (s_opts s))) as [L1|L1]; destruct (Nat.lt_ge_cases i' (length (s_opts s))) as [L2|L2].
      + rewrite nth_error_app1 in Hi, Hj by assumption. exact (I6 Ep i i' oi oj w k w' k' b Hne Hi Hj Hh Hh').
      + rewrite nth_error_app1 in Hi by assumption. rewrite nth_error_app2 in Hj by assumption. specialize (Small _ _ _ _ _ Hi Hh).
        destruct (i' - _) as [|[]]; cbn [nth_error] in Hj; try discriminate. injection Hj as <-. apply Large in Hh'. lia.
      + rewrite nth_error_app1 in Hj by assumption. rewrite nth_error_app2 in Hi by assumption. specialize (Small _ _ _ _ _ Hj Hh').
        destruct (i - _) as [|[]]; cbn [nth_error] in Hi; try discriminate. injection Hi as <-. apply Large in Hh. lia.
      + rewrite nth_error_app2 in Hi, Hj by assumption. destruct (i - _) as [|[]] eqn:E1; cbn [nth_error] in Hi; try discriminate. destruct (i' - _) as [|[]] eqn:E2; cbn [nth_error] in Hj; try discriminate. lia.
  Qed.

  (** Every execution. *)
  Lemma inv_run evs : (exists e, In e (selections es evs) /\ clashes ds e) /\ run m evs (mkSt (mkHeap ds cells0) es []) = Err TypeError \/
    (forall e, In e (selections es evs) -> ~ clashes ds e) /\ exists s, run m evs (mkSt (mkHeap ds cells0) es []) = Ok s /\ inv evs s.
  Proof.
    induction evs as [|ev evs IH] using rev_ind.
    { right. split; [intros e []|]. exists (mkSt (mkHeap ds cells0) es []). split; [reflexivity|apply inv_init]. }
    rewrite run_app, selections_app. destruct IH as [[[e [H1 H2]] ->]|[H [s [-> I]]]].
    { left. split; [|reflexivity]. exists e. split; [apply in_or_app; left; exact H1|exact H2]. }
    cbn [run]. destruct ev as [j|i w k].
    - cbn [selections]. destruct (nth_error es j) as [e|] eqn:Ej.
      + destruct (inv_select evs s j e I Ej) as [[H1 H2]|[H1 [s' [H2 H3]]]]; rewrite H2.
        * left. split; [|reflexivity]. exists e. split; [apply in_or_app; right; left; reflexivity|exact H1].
        * right. split; [|eauto]. intros e' H'. apply in_app_or in H' as [H'|[<-|[]]]; auto.
      + right. rewrite app_nil_r. split; [exact H|]. cbn [step]. assert (I' := I). destruct I as [I1 [I2 [I3 [I4 [I5 I6]]]]]. rewrite I1, Ej. exists s. split; [reflexivity|].
        unfold inv. assert (Es : selections es (evs ++ [Select j]) = selections es evs) by (rewrite selections_app; cbn; rewrite Ej; apply app_nil_r). rewrite Es. splits; auto.
        intros i e o He Ho. destruct (I5 i e o He Ho) as [F P]. split; [|exact P]. apply (fits_mono _ _ _ _ _ _ _ F). intros. rewrite own_snoc. cbn. rewrite andb_false_r, Nat.add_0_r. assumption.
    - right. cbn [selections]. rewrite app_nil_r. split; [exact H|]. destruct (inv_tick evs s i w k I) as [s' [H1 H2]]. rewrite H1. eauto.
  Qed.
End Run.

(** ** The selector's entries *)
Definition withw (d : kws) : kws := if smemd "workers" d then d else d ++ [("workers", VNum 1)].
Lemma smemd_In k (d : kws) : smemd k d = true <-> exists v, In (k, v) d.
Proof.
  unfold dmem. split.
  - destruct (sget k d) as [v|] eqn:E; [|discriminate]. intros _. exists v. apply sget_In, E.
  - intros [v H]. apply In_sget in H as [u ->]. reflexivity.
Qed.
Lemma withw_mem d : smemd "workers" (withw d) = true.
Proof. unfold withw. destruct (smemd "workers" d) eqn:E; [exact E|]. apply smemd_In. exists (VNum 1). apply in_or_app. right. left. reflexivity. Qed.
Lemma withw_twice d : withw (withw d) = withw d.
Proof. unfold withw at 1. rewrite withw_mem. reflexivity. Qed.
Lemma withw_spec d : with_workers d (withw d).
Proof.
  unfold with_workers, withw. destruct (smemd "workers" d) eqn:E; [left; split; [apply smemd_In, E|reflexivity]|right; split; [|reflexivity]].
  intros v H. assert (smemd "workers" d = true) by (apply smemd_In; eauto). congruence.
Qed.
Lemma withw_ok cells d : dict_ok cells d -> dict_ok cells (withw d).
Proof.
  unfold withw. destruct (smemd "workers" d) eqn:E; [auto|]. intros [H1 H2]. split.
  - rewrite map_app. cbn. apply NoDup_snoc; [exact H1|]. intro H. apply in_map_iff in H as [[k v] [Ek H]]. cbn in Ek. subst k.
    assert (smemd "workers" d = true) by (apply smemd_In; eauto). congruence.
  - intros k a H. apply in_app_or in H as [H|[H|[]]]; [eauto|discriminate].
Qed.

Record parsed (l : list item) (ds ds' : list kws) (es : list entry) : Prop := {
  p_len : length ds <= length ds';
  p_old : forall a, a < length ds -> nth a ds' [] = (if nmem a (inits l) then withw (nth a ds []) else nth a ds []);
  p_init : forall e, In e es -> In (e_init e) (inits l) \/ length ds <= e_init e < length ds';
  p_call : forall e, In e es -> In (e_call e) (calls l) \/ length ds <= e_call e < length ds';
  p_dis : forall e e', In e es -> In e' es -> e_init e <> e_call e';
  p_ok : forall cells, Forall (dict_ok cells) ds -> Forall (dict_ok cells) ds';
  p_for : Forall2 (fun it e =>
    e_class e = (match it with IClass c => c | ITuple c _ _ => c end) /\
    nth (e_init e) ds' [] = withw (match it with ITuple _ (Some a) _ => nth a ds [] | _ => [] end) /\
    nth (e_call e) ds' [] = (match it with ITuple _ _ (Some a) => nth a ds [] | _ => [] end)) l es }.

Lemma nmem_In a l : nmem a l = true <-> In a l.
Proof. unfold nmem. rewrite existsb_exists. split; [intros [x [H E]]; apply Nat.eqb_eq in E; congruence|intro H; exists a; split; [exact H|apply Nat.eqb_refl]]. Qed.

Lemma parse_one it ds e ds1 : parse_item it ds = (e, ds1) ->
  (forall a, In a (inits [it] ++ calls [it]) -> a < length ds) -> (forall a, In a (inits [it]) -> ~ In a (calls [it])) -> parsed [it] ds ds1 [e].
Proof.
  intros E Hlt Hdis.
  assert (U : forall i l, i < length l -> nth i (upd i withw l) [] = withw (nth i l [])).
  { clear. intros i l H. apply nth_error_nth. rewrite upd_nth, Nat.eqb_refl. rewrite (nth_error_nth' l [] H). reflexivity. }
  assert (U' : forall i j l, j <> i -> nth j (upd i withw l) [] = nth j l []).
  { clear. intros i j l H. rewrite !nth_default_eq || idtac. assert (E := upd_nth i withw l j). destruct (Nat.eqb_spec j i); [congruence|].
    destruct (nth_error l j) as [d|] eqn:Ed; [rewrite (nth_error_nth _ _ _ Ed); apply nth_error_nth, E|].
    apply nth_error_None in Ed. rewrite (nth_overflow l) by exact Ed. apply nth_overflow. rewrite upd_length. exact Ed. }
  assert (Uok : forall i cells l, Forall (dict_ok cells) l -> Forall (dict_ok cells) (upd i withw l)).
  { clear. intros i cells l H. revert i. induction H as [|d l Hd Hl IH]; intros [|i]; cbn; constructor; auto using withw_ok. }
  assert (Nil : forall cells, dict_ok cells []) by (intro; split; [constructor|intros k a []]).
  destruct it as [c|c i k]; cbn in E.
  - injection E as <- <-. constructor; cbn -[nth].
    + rewrite app_length. lia.
    + intros a Ha. apply app_nth1, Ha.
    + intros e [<-|[]]. right. cbn. rewrite app_length. cbn. lia.
    + intros e [<-|[]]. right. cbn. rewrite app_length. cbn. lia.
    + intros e e' [<-|[]] [<-|[]]. cbn. lia.
    + intros cells H. apply Forall_app. split; [exact H|]. repeat constructor; cbn; auto; try tauto. intros k a [Hx|[]]; discriminate.
    + repeat constructor; cbn -[nth]; rewrite app_nth2 by lia; [rewrite Nat.sub_diag; reflexivity|]. replace (S _ - _) with 1 by lia. reflexivity.
  - change (fun d : kws => if smemd "workers" d then d else d ++ [("workers", VNum 1)]) with withw in E.
    cbn [inits calls flat_map app] in *. destruct i as [a|], k as [b|]; cbn [dict_or_new app] in *; injection E as <- <-.
    + assert (Ha : a < length ds) by (apply Hlt; left; reflexivity). assert (Hb : b < length ds) by (apply Hlt; right; left; reflexivity).
      assert (Hab : b <> a) by (intros ->; apply (Hdis a); left; reflexivity).
      constructor; cbn [inits calls flat_map app e_init e_call e_class]; rewrite ?upd_length; auto.
      * intros j Hj. unfold nmem. cbn. rewrite orb_false_r. destruct (Nat.eqb_spec j a) as [->|Hne]; auto.
      * intros e [<-|[]]. left. left. reflexivity.
      * intros e [<-|[]]. left. left. reflexivity.
      * intros e e' [<-|[]] [<-|[]]. cbn. auto.
    + assert (Ha : a < length ds) by (apply Hlt; left; reflexivity).
      constructor; cbn [inits calls flat_map app e_init e_call e_class]; rewrite ?upd_length, ?app_length; cbn [length]; auto; try lia.
      * intros j Hj. unfold nmem. cbn. rewrite orb_false_r. destruct (Nat.eqb_spec j a) as [->|Hne]; [rewrite U by (auto; rewrite app_length; cbn; lia)|rewrite U' by exact Hne]; rewrite app_nth1 by lia; reflexivity.
      * intros e [<-|[]]. left. left. reflexivity.
      * intros e [<-|[]]. right. cbn. lia.
      * intros e e' [<-|[]] [<-|[]]. cbn. lia.
      * intros cells H. apply Uok. apply Forall_app. auto.
      * repeat constructor; cbn [e_init e_call e_class]; auto.
        -- rewrite U by (auto; rewrite app_length; cbn; lia). rewrite app_nth1 by lia. reflexivity.
        -- rewrite U' by lia. rewrite app_nth2, Nat.sub_diag by lia. reflexivity.
    + assert (Hb : b < length ds) by (apply Hlt; left; reflexivity).
      constructor; cbn [inits calls flat_map app e_init e_call e_class]; rewrite ?upd_length, ?app_length; cbn [length]; auto; try lia.
      * intros j Hj. unfold nmem. cbn. rewrite U' by lia. apply app_nth1, Hj.
      * intros e [<-|[]]. right. cbn. lia.
      * intros e [<-|[]]. left. left. reflexivity.
      * intros e e' [<-|[]] [<-|[]]. cbn. lia.
      * intros cells H. apply Uok. apply Forall_app. auto.
      * repeat constructor; cbn [e_init e_call e_class]; auto.
        -- rewrite U by (auto; rewrite app_length; cbn; lia). rewrite app_nth2, Nat.sub_diag by lia. reflexivity.
        -- rewrite U' by lia. rewrite app_nth1 by lia. reflexivity.
    + constructor; cbn [inits calls flat_map app e_init e_call e_class]; rewrite ?upd_length, ?app_length; cbn [length]; auto; try lia.
      * intros j Hj. unfold nmem. cbn. rewrite U' by lia. rewrite !app_nth1; rewrite ?app_length; cbn; auto; lia.
      * intros e [<-|[]]. right. cbn. lia.
      * intros e [<-|[]]. right. cbn. lia.
      * intros e e' [<-|[]] [<-|[]]. cbn. rewrite ?app_length; cbn; lia.
      * intros cells H. apply Uok. rewrite !Forall_app. auto.
      * repeat constructor; cbn [e_init e_call e_class]; auto.
        -- rewrite U by (auto; rewrite !app_length; cbn; lia). rewrite app_nth1 by (rewrite ?app_length; cbn; lia). rewrite app_nth2, Nat.sub_diag by lia. reflexivity.
        -- rewrite U' by (rewrite ?app_length; cbn; lia). rewrite app_nth2 by (rewrite app_length; cbn; lia). rewrite app_length. cbn [length]. rewrite Nat.sub_diag. reflexivity.
Qed.

Lemma parse_all l : forall ds es ds', parse_items l ds = (es, ds') ->
  (forall a, In a (inits l ++ calls l) -> a < length ds) -> (forall a, In a (inits l) -> ~ In a (calls l)) -> parsed l ds ds' es.
Proof.
  induction l as [|it l IH]; intros ds es ds' E Hlt Hdis.
  { injection E as <- <-. constructor; cbn; auto; try tauto. }
  cbn in E. destruct (parse_item it ds) as [e ds1] eqn:E1. destruct (parse_items l ds1) as [es1 ds2] eqn:E2. injection E as <- <-.
  assert (Ei : inits (it :: l) = inits [it] ++ inits l) by (unfold inits; cbn; rewrite app_nil_r; reflexivity).
  assert (Ec : calls (it :: l) = calls [it] ++ calls l) by (unfold calls; cbn; rewrite app_nil_r; reflexivity).
  rewrite Ei, Ec in Hlt, Hdis.
  assert (L1 : forall a, In a (inits [it]) -> a < length ds) by (intros; apply Hlt; rewrite !in_app_iff; auto).
  assert (L2 : forall a, In a (calls [it]) -> a < length ds) by (intros; apply Hlt; rewrite !in_app_iff; auto).
  assert (L3 : forall a, In a (inits l) -> a < length ds) by (intros; apply Hlt; rewrite !in_app_iff; auto).
  assert (L4 : forall a, In a (calls l) -> a < length ds) by (intros; apply Hlt; rewrite !in_app_iff; auto).
  assert (D : forall a, In a (inits [it]) \/ In a (inits l) -> In a (calls [it]) \/ In a (calls l) -> False).
  { intros a H1 H2. apply (Hdis a); rewrite in_app_iff; assumption. }
  destruct (parse_one _ _ _ _ E1) as [A1 A2 A3 A4 A5 A6 A7].
  { intros a H. apply in_app_or in H as [H|H]; auto. }
  { intros a H1 H2. apply (D a); auto. }
  destruct (IH _ _ _ E2) as [B1 B2 B3 B4 B5 B6 B7].
  { intros a H. apply in_app_or in H as [H|H]; [apply L3 in H|apply L4 in H]; lia. }
  { intros a H1 H2. apply (D a); auto. }
  assert (Old : forall a, a < length ds -> nth a ds2 [] = if nmem a (inits (it :: l)) then withw (nth a ds []) else nth a ds []).
  { intros a Ha. rewrite B2 by lia. rewrite A2 by exact Ha. rewrite Ei. unfold nmem. rewrite existsb_app.
    destruct (existsb (Nat.eqb a) (inits [it])), (existsb (Nat.eqb a) (inits l)); cbn; auto using withw_twice. }
  constructor.
  - lia.
  - exact Old.
  - intros x [<-|H]; rewrite Ei, in_app_iff.
    + destruct (A3 _ (or_introl eq_refl)); [auto|lia].
    + destruct (B3 _ H); [auto|lia].
  - intros x [<-|H]; rewrite Ec, in_app_iff.
    + destruct (A4 _ (or_introl eq_refl)); [auto|lia].
    + destruct (B4 _ H); [auto|lia].
  - intros x y [<-|Hx] [<-|Hy]; auto.
    + apply A5; left; reflexivity.
    + intro E. destruct (A3 _ (or_introl eq_refl)) as [H1|H1], (B4 _ Hy) as [H2|H2]; try (rewrite E in H1).
      * apply (D (e_call y)); auto.
      * apply L1 in H1. lia.
      * apply L4 in H2. lia.
      * lia.
    + intro E. destruct (B3 _ Hx) as [H1|H1], (A4 _ (or_introl eq_refl)) as [H2|H2]; try (rewrite E in H1).
      * apply (D (e_call e)); auto.
      * apply L3 in H1. lia.
      * apply L2 in H2. lia.
      * lia.
  - intros cells H. auto.
  - inversion A7 as [|? ? ? ? [Q1 [Q2 Q3]] _]; subst. constructor.
    + splits; auto.
      * rewrite B2. { rewrite Q2. destruct (nmem _ _); [apply withw_twice|reflexivity]. }
        destruct (A3 _ (or_introl eq_refl)) as [H|H]; [apply L1 in H; lia|lia].
      * rewrite B2. { rewrite Q3. destruct (nmem (e_call e) (inits l)) eqn:En; [|reflexivity]. apply nmem_In in En.
          destruct (A4 _ (or_introl eq_refl)) as [H|H]; [destruct (D (e_call e)); auto|apply L3 in En; lia]. }
        destruct (A4 _ (or_introl eq_refl)) as [H|H]; [apply L2 in H; lia|lia].
    + assert (G : Forall (fun it' => (forall a, match it' with ITuple _ (Some a') _ => a = a' | _ => False end -> In a (inits l)) /\ (forall a, match it' with ITuple _ _ (Some a') => a = a' | _ => False end -> In a (calls l))) l).
      { apply Forall_forall. intros it' H. split; intros a Ha; apply in_flat_map; exists it'; (split; [exact H|]); destruct it' as [|c [i|] [k|]]; cbn; tauto || (subst; auto). }
      clear - B7 G A2 L3 L4 D. set (inl := inits l) in *. set (cal := calls l) in *. clearbody inl cal.
      induction B7 as [|it' e' l' es' [Q1 [Q2 Q3]] _ IH]; constructor; [|inversion G; auto].
      inversion G as [|? ? [Gi Gc] _]; subst. splits; auto.
      * rewrite Q2. destruct it' as [|c [a|] k]; auto. specialize (Gi a eq_refl). rewrite A2 by auto. destruct (nmem _ _); [apply withw_twice|reflexivity].
      * rewrite Q3. destruct it' as [|c i [a|]]; auto. specialize (Gc a eq_refl). rewrite A2 by auto. destruct (nmem a (inits [it])) eqn:En; [|reflexivity].
        apply nmem_In in En. destruct (D a); auto.
Qed.

Lemma start_ok items h : user_ok items h ->
  let s0 := start items h in heap_ok (s_heap s0) /\ sel_ok (h_dicts (s_heap s0)) (s_sel s0) /\ h_cells (s_heap s0) = h_cells h /\ s_opts s0 = [].
Proof.
  intros [H1 [H2 H3]]. unfold start. destruct (parse_items items (h_dicts h)) as [es ds'] eqn:E.
  destruct (parse_all _ _ _ _ E H2 H3) as [A1 A2 A3 A4 A5 A6 A7]. cbn. splits; auto.
  - unfold heap_ok. cbn. apply A6, H1.
  - split; [|exact A5]. intros e He. splits.
    + destruct (A3 e He) as [H|H]; [|lia]. assert (e_init e < length (h_dicts h)) by (apply H2, in_or_app; auto). lia.
    + destruct (A4 e He) as [H|H]; [|lia]. assert (e_call e < length (h_dicts h)) by (apply H2, in_or_app; auto). lia.
    + apply smemd_In. unfold configured. clear - A7 He. induction A7 as [|it e' l es [_ [Q _]] _ IH]; [destruct He|]. destruct He as [->|He]; [|auto].
      rewrite Q. apply withw_mem.
Qed.

Lemma start_for items h : user_ok items h ->
  Forall2 (entry_for (h_dicts h) (h_dicts (s_heap (start items h)))) items (s_sel (start items h)).
Proof.
  intros [H1 [H2 H3]]. unfold start. destruct (parse_items items (h_dicts h)) as [es ds'] eqn:E.
  destruct (parse_all _ _ _ _ E H2 H3) as [_ _ _ _ _ _ A]. cbn. clear E H3 H1.
  assert (N : forall a, a < length (h_dicts h) -> nth_error (h_dicts h) a = Some (nth a (h_dicts h) [])) by (intros; apply nth_error_nth'; assumption).
  assert (Hi : forall it a, In it items -> match it with ITuple _ (Some a') _ => a = a' | _ => False end -> a < length (h_dicts h)).
  { intros it a Hin Ha. apply H2, in_or_app. left. apply in_flat_map. exists it. split; [exact Hin|]. destruct it as [|c [i|] k]; cbn; tauto || (subst; auto). }
  assert (Hc : forall it a, In it items -> match it with ITuple _ _ (Some a') => a = a' | _ => False end -> a < length (h_dicts h)).
  { intros it a Hin Ha. apply H2, in_or_app. right. apply in_flat_map. exists it. split; [exact Hin|]. destruct it as [|c i [k|]]; cbn; tauto || (subst; auto). }
  clear H2. induction A as [|it e l es [Q1 [Q2 Q3]] _ IH]; constructor.
  - unfold entry_for, configured. specialize (fun a => Hi it a (or_introl eq_refl)). specialize (fun a => Hc it a (or_introl eq_refl)).
    destruct it as [c|c i k]; rewrite Q2, Q3; (split; [exact Q1|]); [split; [apply withw_spec|reflexivity]|]. split.
    + exists (match i with Some a => nth a (h_dicts h) [] | None => [] end). split; [|apply withw_spec]. destruct i as [a|]; cbn; [apply N; eauto|reflexivity].
    + destruct k as [a|]; cbn; [apply N; eauto|reflexivity].
  - apply IH; intros; [eapply Hi|eapply Hc]; eauto; right; assumption.
Qed.

Lemma start_eq items h : user_ok items h -> start items h = mkSt (mkHeap (h_dicts (s_heap (start items h))) (h_cells h)) (s_sel (start items h)) [].
Proof. intros _. unfold start. destruct (parse_items _ _). reflexivity. Qed.

(** The invariant of every execution. *)
Lemma run_inv items h m evs : user_ok items h -> let s0 := start items h in let ds := h_dicts (s_heap s0) in let es := s_sel s0 in
  (exists e, In e (selections es evs) /\ clashes ds e) /\ run m evs s0 = Err TypeError \/
  (forall e, In e (selections es evs) -> ~ clashes ds e) /\ exists s, run m evs s0 = Ok s /\ inv ds (h_cells h) es m evs s.
Proof.
  intros H. destruct (start_ok items h H) as [H1 [H2 [H3 _]]].
  assert (Hk : heap_ok (mkHeap (h_dicts (s_heap (start items h))) (h_cells h))) by (rewrite <- H3; destruct (s_heap (start items h)); exact H1).
  pose proof (inv_run _ _ _ m Hk H2 evs) as R. rewrite <- (start_eq items h H) in R. exact R.
Qed.
