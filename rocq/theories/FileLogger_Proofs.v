(** * Proofs about the file log *)
From Verif Require Import Prelude Prelude_Proofs Logger_Model Logger_Spec Logger_Proofs FileLogger_Model FileLogger_Spec.

Local Arguments put_iteration : simpl never.
Local Arguments add_iter_history : simpl never.
Local Arguments put_metadata : simpl never.
Local Arguments put_message : simpl never.
Local Arguments clear_cache : simpl never.

(** ** rows_of under extension *)
Lemma rows_of_other i h rows r : rows_of i h rows -> ir_opt r <> i -> rows_of i (h ++ [r]) rows.
Proof.
  intros [Hp Hr] Hi. split; [apply positions_skip; assumption|].
  rewrite own_snoc. apply Nat.eqb_neq in Hi. rewrite Hi, app_nil_r. exact Hr.
Qed.

Lemma rows_of_own i h rows r : rows_of i h rows -> ir_opt r = i ->
  rows_of i (h ++ [r]) (rows ++ [mkRow (S (length h)) (ir_x r) (ir_fx r) (ir_extras r)]).
Proof.
  intros [Hp Hr] Hi. split; rewrite map_app.
  - apply positions_take; assumption.
  - rewrite own_snoc, Hi, Nat.eqb_refl, map_app, Hr. reflexivity.
Qed.

Lemma rows_of_nil i : rows_of i [] [].
Proof. split; [apply positions_nil| reflexivity]. Qed.

(** ** The invariant *)
Definition assn (i : nat) (st : option status) (h : list iterres) (s : flogger) : Prop :=
  match st with
  | None => nget i (f_groups s) = None /\ nget i (f_chunk s) = None /\ (i <> 0 -> rows_of i h [])
  | Some st =>
      i <> 0 /\
      (exists a, nget i (l_bests (f_base s)) = Some a) /\
      exists g, nget i (f_groups s) = Some g /\
      match st with
      | Ready => g_table g = None /\ nget i (f_chunk s) = Some [] /\ rows_of i h [] /\
                 exists e, nget i (l_store (f_base s)) = Some e /\ e_cols e = []
      | Open n => exists t pend, g_table g = Some t /\ length (t_hdrs t) = n /\ nget i (f_chunk s) = Some pend /\
                 forallb (fun r => Nat.eqb (length (rw_extras r)) n) pend = true /\ rows_of i h (t_rows t ++ pend) /\
                 exists e, nget i (l_store (f_base s)) = Some e /\ dkeys (e_cols e) = base_headers
      | Closed => nget i (f_chunk s) = None /\
                  rows_of i h (match g_table g with Some t => t_rows t | None => [] end) /\
                  forall e, nget i (l_store (f_base s)) = Some e ->
                    match g_table g with Some _ => dkeys (e_cols e) = base_headers | None => e_cols e = [] end
      end
  end.

Definition good (b : logger) : Prop := addr_ok b /\ NoDup (dkeys (l_store b)).

Lemma good_step o b : good b -> good (snd (lstep o b)).
Proof. intros [H1 H2]. split; [apply addr_ok_step, H1| apply NoDup_store_step, H2]. Qed.

Record FI (d : list (nat * status)) (h : list iterres) (s : flogger) : Prop := mkFI {
  FI_keys : dkeys d = seq 1 (length d);
  FI_oc : f_ocount s = length d;
  FI_cnt : l_count (f_base s) = length h;
  FI_addr : good (f_base s);
  FI_all : forall i, assn i (nget i d) h s;
  FI_nd : NoDup (dkeys (f_chunk s)) }.

Lemma assn_frame i st h s h' s' :
  assn i st h s ->
  nget i (f_groups s') = nget i (f_groups s) ->
  nget i (f_chunk s') = nget i (f_chunk s) ->
  nget i (l_store (f_base s')) = nget i (l_store (f_base s)) ->
  nget i (l_bests (f_base s')) = nget i (l_bests (f_base s)) ->
  (h' = h \/ exists r, h' = h ++ [r] /\ ir_opt r <> i) ->
  assn i st h' s'.
Proof.
  intros H Hg Hc Hs Hb Hh.
  assert (Hrows : forall rows, rows_of i h rows -> rows_of i h' rows).
  { intros rows Hr. destruct Hh as [->|[r [-> Hne]]]; [exact Hr|]. apply rows_of_other; assumption. }
  unfold assn in *. rewrite Hg, Hc, Hb. destruct st as [[|n|]|].
  - rewrite Hs. destruct H as [H0 [Ha [g [Hg1 [H1 [H2 [H3 H4]]]]]]].
    splits; auto. exists g. intuition.
  - rewrite Hs. destruct H as [H0 [Ha [g [Hg1 [t [pend [H1 [H2 [H3 [H4 [H5 H6]]]]]]]]]]].
    splits; auto. exists g. split; [assumption|]. exists t, pend. intuition.
  - rewrite Hs. destruct H as [H0 [Ha [g [Hg1 [H2 [H3 H4]]]]]]. splits; auto. exists g. splits; auto.
  - intuition.
Qed.

Lemma nget_range (d : list (nat * status)) i : dkeys d = seq 1 (length d) -> nmemd i d = true <-> 0 < i <= length d.
Proof. intro H. rewrite nmemd_true, H, in_seq. lia. Qed.

Lemma dkeys_nset_in {V} (d : list (nat * V)) i v : nmemd i d = true -> dkeys (nset i v d) = dkeys d /\ length (nset i v d) = length d.
Proof.
  intro H. apply nmemd_true in H. rewrite <- (map_length fst (nset i v d)), <- (map_length fst d).
  change (map fst (nset i v d)) with (dkeys (nset i v d)). change (map fst d) with (dkeys d).
  rewrite dkeys_nset. apply nmem_in in H. rewrite H. auto.
Qed.

Lemma FI_init traj : FI [] [] (flog_init traj).
Proof.
  split; cbn; auto.
  - split; [apply addr_ok_init| constructor].
  - intro i. split; [reflexivity|]. split; [reflexivity|]. intros _. apply rows_of_nil.
  - constructor.
Qed.

(** ** Individual operations *)
Lemma FI_add d h s i ty t : FI d h s -> i = S (length d) ->
  exists s', f_add_optimizer i ty t s = (Ok tt, s') /\ FI (nset i Ready d) h s' /\ f_base s' = snd (add_optimizer i ty t (f_base s)).
Proof.
  intros [Hk Ho Hc Ha Hall Hnd] Hi.
  assert (Hnew : nget i d = None).
  { apply nget_none. rewrite Hk, in_seq. lia. }
  pose proof (Hall i) as Hai. rewrite Hnew in Hai. destruct Hai as [Hg [Hch Hr]].
  unfold f_add_optimizer, bind, on_base, add_optimizer, modify.
  cbn [f_groups fset_base]. unfold dmem at 1. rewrite Hg. eexists. split; [reflexivity|]. split; [|reflexivity].
  assert (Hlen : length (nset i Ready d) = S (length d) /\ dkeys (nset i Ready d) = dkeys d ++ [i]).
  { rewrite <- (map_length fst (nset i Ready d)). change (map fst (nset i Ready d)) with (dkeys (nset i Ready d)).
    rewrite dkeys_nset. apply nget_none, nmem_false in Hnew. rewrite Hnew, app_length. unfold dkeys. rewrite map_length. cbn. split; [lia|reflexivity]. }
  destruct Hlen as [Hl1 Hl2].
  split; cbn.
  - rewrite Hl1, Hl2, Hk, seq_S. subst i. reflexivity.
  - rewrite Hl1, Ho. reflexivity.
  - exact Hc.
  - apply (good_step (AddOpt i ty t)). exact Ha.
  - intro j. rewrite nget_nset. destruct (Nat.eqb_spec j i) as [->|Hne].
    + cbn. rewrite !nget_nset_same. split; [lia|]. split; [eauto|]. eexists. split; [reflexivity|]. splits; eauto. apply Hr. lia.
    + eapply assn_frame; [apply Hall| | | | |left; reflexivity]; cbn; rewrite nget_nset_other by exact Hne; reflexivity.
  - apply NoDup_nset. exact Hnd.
Qed.

Lemma FI_hist d h s i hd : FI d h s -> nget i d = Some Ready ->
  exists s', f_add_iter_history i hd s = (Ok tt, s') /\ FI (nset i (Open (length hd)) d) h s' /\
             f_base s' = snd (add_iter_history i [] (f_base s)).
Proof.
  intros [Hk Ho Hc Ha Hall Hnd] Hi.
  pose proof (Hall i) as Hai. rewrite Hi in Hai. destruct Hai as [Hi0 [[a Hb] [g [Hg [Ht [Hch [Hr [e [He Hcols]]]]]]]]].
  unfold f_add_iter_history, bind, on_base.
  pose proof (core_add_hist i [] (f_base s)) as Hcore.
  assert (Hok : exists b', add_iter_history i [] (f_base s) = (Ok tt, b') /\ (exists e', nget i (l_store b') = Some e' /\ dkeys (e_cols e') = base_headers)).
  { unfold add_iter_history. rewrite He. eexists. split; [reflexivity|]. cbn. rewrite nget_nset_same, Hcols. eauto. }
  pose proof (good_step (AddHist i []) (f_base s) Ha) as Ha'.
  pose proof (fun j Hne => lstep_other (AddHist i []) (f_base s) j Hne) as Hoth.
  cbn [lstep target] in Ha', Hoth.
  destruct Hok as [b' [Hb' [e' [He' Hcols']]]]. rewrite Hb' in *. cbn [snd] in *. destruct Hcore as [H1 [H2 [H3 [H4 H5]]]].
  cbn [f_groups fset_base]. rewrite Hg, Ht. eexists. split; [reflexivity|]. split; [|reflexivity].
  destruct (dkeys_nset_in d i (Open (length hd))) as [Hd1 Hd2]; [unfold dmem; rewrite Hi; reflexivity|].
  split; cbn; auto.
  - rewrite Hd1, Hd2. exact Hk.
  - congruence.
  - congruence.
  - intro j. rewrite nget_nset. destruct (Nat.eqb_spec j i) as [->|Hne].
    + cbn. rewrite !nget_nset_same. split; [exact Hi0|]. rewrite <- H3. split; [eauto|].
      eexists. split; [reflexivity|]. exists (mkT hd []), []. cbn. splits; eauto.
    + eapply assn_frame; [apply Hall| | | | |left; reflexivity]; cbn; rewrite ?nget_nset_other by exact Hne; auto.
      * apply Hoth; congruence.
      * rewrite H3. reflexivity.
Qed.

Lemma put_metadata_base i k v b : same_core b (snd (put_metadata i k v b)) /\
  (forall j, j <> i -> nget j (l_store (snd (put_metadata i k v b))) = nget j (l_store b)) /\
  (forall e, nget i (l_store b) = Some e -> exists e', nget i (l_store (snd (put_metadata i k v b))) = Some e' /\ e_cols e' = e_cols e /\ e_msgs e' = e_msgs e) /\
  (nget i (l_store b) = None -> nget i (l_store (snd (put_metadata i k v b))) = None) /\
  (fst (put_metadata i k v b) = Ok tt \/ fst (put_metadata i k v b) = Err KeyError).
Proof.
  split; [apply core_meta|]. split.
  { intros j Hj. apply (lstep_other (PutMeta i k v)); cbn; congruence. }
  unfold put_metadata. destruct (nget i (l_store b)) as [e|] eqn:E; cbn; rewrite ?nget_nset_same; splits; auto; try discriminate.
  intros e0 [= <-]. eauto.
Qed.

Lemma f_put_metadata_spec i k v s g : nget i (f_groups s) = Some g ->
  exists s', f_put_metadata i k v s = (Ok tt, s') /\ f_chunk s' = f_chunk s /\ f_ocount s' = f_ocount s /\
    f_base s' = snd (put_metadata i k v (f_base s)) /\
    (forall j, j <> i -> nget j (f_groups s') = nget j (f_groups s)) /\
    (exists g', nget i (f_groups s') = Some g' /\ g_table g' = g_table g).
Proof.
  intro Hg. unfold f_put_metadata, bind, swallow_key, try_except, on_base.
  destruct (put_metadata_base i k v (f_base s)) as [_ [_ [_ [_ Hr]]]].
  destruct (put_metadata i k v (f_base s)) as [[[]|e] b] eqn:E; cbn in Hr |- *.
  - rewrite Hg. eexists. split; [reflexivity|]. cbn. splits; auto.
    + intros j Hj. apply nget_nset_other, Hj.
    + rewrite nget_nset_same. eauto.
  - destruct Hr as [Hr|Hr]; [discriminate|]. injection Hr as ->. cbn. rewrite Hg. eexists. split; [reflexivity|]. cbn. splits; auto.
    + intros j Hj. apply nget_nset_other, Hj.
    + rewrite nget_nset_same. eauto.
Qed.

Lemma FI_meta d h s i k v : FI d h s -> nmemd i d = true ->
  exists s', f_put_metadata i k v s = (Ok tt, s') /\ FI d h s' /\ f_base s' = snd (put_metadata i k v (f_base s)).
Proof.
  intros [Hk Ho Hc Ha Hall Hnd] Hi.
  assert (exists st, nget i d = Some st) as [st Hst] by (unfold dmem in Hi; destruct (nget i d); [eauto|discriminate]).
  pose proof (Hall i) as Hai. rewrite Hst in Hai. destruct Hai as [Hi0 [[a Hb] [g [Hg Hrest]]]].
  destruct (f_put_metadata_spec i k v s g Hg) as [s' [He [Hch [Hoc [Hbase [Hoth [g' [Hg' Ht']]]]]]]].
  destruct (put_metadata_base i k v (f_base s)) as [[C1 [C2 [C3 [C4 C5]]]] [Hso [Hse [Hsn _]]]].
  rewrite <- Hbase in C1, C2, C3, C4, C5, Hso, Hse, Hsn.
  exists s'. split; [exact He|]. split; [|exact Hbase]. split; auto; try congruence.
  - rewrite Hbase. apply (good_step (PutMeta i k v)). exact Ha.
  - intro j. destruct (Nat.eq_dec j i) as [->|Hne].
    + rewrite Hst. cbn. split; [exact Hi0|]. rewrite <- C3. split; [eauto|]. exists g'. split; [exact Hg'|].
      rewrite Ht', Hch. destruct st as [|n|]; auto.
      * destruct Hrest as [H1 [H2 [H3 [e [H4 H4c]]]]]. splits; auto. destruct (Hse e H4) as [e' [H [Hc' _]]]. exists e'. split; congruence.
      * destruct Hrest as [t [pend [H1 [H2 [H3 [H4 [H5 [e [H6 H6c]]]]]]]]]. exists t, pend. splits; auto.
        destruct (Hse e H6) as [e' [H [Hc' _]]]. exists e'. split; congruence.
      * destruct Hrest as [H1 [H2 H3]]. splits; auto. intros e' He'.
        destruct (nget i (l_store (f_base s))) as [e|] eqn:Ee; [|rewrite (Hsn eq_refl) in He'; discriminate].
        destruct (Hse e eq_refl) as [e2 [H [Hc' _]]]. rewrite H in He'. injection He' as <-. rewrite Hc'. apply H3. reflexivity.
    + eapply assn_frame; [apply Hall| | | | |left; reflexivity]; auto.
      * rewrite Hch. reflexivity.
      * rewrite C3. reflexivity.
Qed.

Lemma FI_msg d h s i m : FI d h s -> (nget i d = Some Ready \/ exists n, nget i d = Some (Open n)) ->
  exists s', f_put_message i m s = (Ok tt, s') /\ FI d h s' /\ f_base s' = snd (put_message i m (f_base s)).
Proof.
  intros [Hk Ho Hc Ha Hall Hnd] Hi.
  assert (exists st, nget i d = Some st /\ st <> Closed) as [st [Hst Hnc]]
    by (destruct Hi as [H|[n H]]; eexists; split; try exact H; discriminate).
  pose proof (Hall i) as Hai. rewrite Hst in Hai. destruct Hai as [Hi0 [[a Hb] [g [Hg Hrest]]]].
  assert (exists e, nget i (l_store (f_base s)) = Some e) as [e He].
  { destruct st as [|n|]; [| |congruence]; [destruct Hrest as [_ [_ [_ [e [He _]]]]] | destruct Hrest as [t [pend [_ [_ [_ [_ [_ [e [He _]]]]]]]]]]; eauto. }
  unfold f_put_message, bind, on_base.
  pose proof (core_msg i m (f_base s)) as Hcore. pose proof (good_step (PutMsg i m) (f_base s) Ha) as Ha'.
  pose proof (fun j Hne => lstep_other (PutMsg i m) (f_base s) j Hne) as Hoth. cbn [lstep target] in Ha', Hoth.
  assert (Hput : exists b' e', put_message i m (f_base s) = (Ok tt, b') /\ nget i (l_store b') = Some e' /\ e_cols e' = e_cols e).
  { unfold put_message. rewrite He. eexists _, _. split; [reflexivity|]. cbn. split; [apply nget_nset_same| reflexivity]. }
  destruct Hput as [b' [e' [Hput [He' Hcc]]]]. rewrite Hput in *. cbn [snd] in *. cbn [f_groups fset_base]. rewrite Hg.
  destruct Hcore as [C1 [C2 [C3 [C4 C5]]]].
  eexists. split; [reflexivity|]. split; [|reflexivity]. split; cbn; auto; try congruence.
  intro j. destruct (Nat.eq_dec j i) as [->|Hne].
  - rewrite Hst. cbn. rewrite nget_nset_same, <- C3. split; [exact Hi0|]. split; [eauto|]. eexists. split; [reflexivity|]. cbn.
    destruct st as [|n|]; auto.
    + destruct Hrest as [H1 [H2 [H3 [e0 [H4 H4c]]]]]. splits; auto. exists e'. split; congruence.
    + destruct Hrest as [t [pend [H1 [H2 [H3 [H4 [H5 [e0 [H6 H6c]]]]]]]]]. exists t, pend. splits; auto. exists e'. split; congruence.
    + congruence.
  - eapply assn_frame; [apply Hall| | | | |left; reflexivity]; cbn; auto.
    + apply nget_nset_other, Hne.
    + apply Hoth; congruence.
    + rewrite C3. reflexivity.
Qed.

(** flush *)
Lemma FI_flush_one d h s i : FI d h s -> (nget i d = Some Ready \/ exists n, nget i d = Some (Open n)) ->
  exists s', flush_one i s = (Ok tt, s') /\ FI d h s' /\ nget i (f_chunk s') = Some [] /\
   dkeys (f_chunk s') = dkeys (f_chunk s) /\
   (f_base s' = f_base s \/ f_base s' = snd (put_metadata i "best_iter" "" (f_base s))).
Proof.
  intros HFI Hi. pose proof HFI as [Hk Ho Hc Ha Hall Hnd].
  pose proof (Hall i) as Hai. destruct Hi as [Hi|[n Hi]]; rewrite Hi in Hai.
  - destruct Hai as [Hi0 [[a Hb] [g [Hg [Ht [Hch Hrest]]]]]]. exists s. unfold flush_one. rewrite Hch. splits; auto.
  - destruct Hai as [Hi0 [[a Hb] [g [Hg [t [pend [Ht [Hn [Hch [Hf [Hr [e He]]]]]]]]]]]].
    unfold flush_one. rewrite Hch. destruct pend as [|r0 pend']; [exists s; splits; auto|].
    set (pend := r0 :: pend') in *. rewrite Hb.
    assert (Hmem : nmemd i d = true) by (unfold dmem; rewrite Hi; reflexivity).
    destruct (f_put_metadata_spec i "best_iter" "" s g Hg) as [s1 [E1 [Hch1 [Hoc1 [Hb1 [Hoth1 [g1 [Hg1 Ht1]]]]]]]].
    destruct (FI_meta d h s i "best_iter" "" HFI Hmem) as [s1' [E1' [HFI1 _]]].
    assert (s1' = s1) by congruence. subst s1'.
    unfold bind. rewrite E1, Hg1, Ht1, Ht, Hn, Hf.
    eexists. split; [reflexivity|]. cbn. rewrite nget_nset_same, Hch1.
    destruct (dkeys_nset_in (f_chunk s) i (@nil row)) as [Hdk _]; [unfold dmem; rewrite Hch; reflexivity|].
    split; [|auto].
    destruct HFI1 as [Hk' Ho' Hc' Ha' Hall' Hnd']. split; cbn; auto.
    + intro j. specialize (Hall' j). destruct (Nat.eq_dec j i) as [->|Hne].
      * rewrite Hi in *. destruct Hall' as [_ [Hb' [g' [Hg' [t' [pend2 [Ht' [Hn' [Hch' [Hf' [Hr' He']]]]]]]]]]].
        cbn. rewrite !nget_nset_same. split; [exact Hi0|]. split; [exact Hb'|]. eexists. split; [reflexivity|]. cbn.
        exists (mkT (t_hdrs t) (t_rows t ++ pend)), []. cbn. rewrite app_nil_r. splits; auto.
      * eapply assn_frame; [exact Hall'| | | | |left; reflexivity]; cbn; auto; rewrite ?Hch1; try apply nget_nset_other; auto.
    + rewrite <- Hch1. apply NoDup_nset. exact Hnd'.
Qed.

Lemma in_chunk_status d h s i : FI d h s -> In i (dkeys (f_chunk s)) -> nget i d = Some Ready \/ exists n, nget i d = Some (Open n).
Proof.
  intros [Hk Ho Hc Ha Hall Hnd] Hin. specialize (Hall i). apply nget_some_in in Hin as [rows Hrows].
  destruct (nget i d) as [[|n|]|]; eauto.
  - destruct Hall as [_ [_ [g [_ [Hn _]]]]]. congruence.
  - destruct Hall as [_ [Hn _]]. congruence.
Qed.

(** The base part after any number of flushes: only best_iter metadata was written. *)
Inductive meta_star : logger -> logger -> Prop :=
  | ms_refl b : meta_star b b
  | ms_step b i c : meta_star (snd (put_metadata i "best_iter" "" b)) c -> meta_star b c.

Lemma meta_star_trans a b c : meta_star a b -> meta_star b c -> meta_star a c.
Proof. induction 1; [auto|]. intro. eapply ms_step. auto. Qed.

Lemma FI_flush_all d h l : forall s, FI d h s -> (forall i, In i l -> In i (dkeys (f_chunk s))) -> NoDup l ->
  exists s', for_each l flush_one s = (Ok tt, s') /\ FI d h s' /\ meta_star (f_base s) (f_base s') /\
    dkeys (f_chunk s') = dkeys (f_chunk s) /\
    (forall i, In i l -> nget i (f_chunk s') = Some []) /\
    (forall i, nget i (f_chunk s) = Some [] -> nget i (f_chunk s') = Some []).
Proof.
  induction l as [|i l IH]; intros s HFI Hl Hnd.
  - exists s. cbn. splits; auto. apply ms_refl. intros i [].
  - cbn. unfold bind.
    destruct (FI_flush_one d h s i HFI) as [s1 [E1 [HFI1 [Hc1 [Hk1 Hb1]]]]].
    { eapply in_chunk_status; [exact HFI|]. apply Hl. left. reflexivity. }
    rewrite E1. inversion Hnd as [|? ? Hni Hnd']; subst.
    destruct (IH s1 HFI1) as [s2 [E2 [HFI2 [Hb2 [Hk2 [Hc2 Hc3]]]]]]; [|exact Hnd'|].
    { intros j Hj. rewrite Hk1. apply Hl. right. exact Hj. }
    exists s2. split; [exact E2|]. split; [exact HFI2|]. split.
    { eapply meta_star_trans; [|exact Hb2]. destruct Hb1 as [-> | ->]; [apply ms_refl| eapply ms_step; apply ms_refl]. }
    split; [congruence|]. split.
    + intros j [->|Hj]; auto.
    + intros j Hj. apply Hc3. destruct (Nat.eq_dec j i) as [->|Hne]; [exact Hc1|].
      clear -E1 Hne Hj. revert E1. unfold flush_one, bind. destruct (nget i (f_chunk s)) as [[|r0 rows]|] eqn:Ei.
      * intros [= <-]. exact Hj.
      * destruct (nget i (l_bests (f_base s))); [|let H := fresh in intro H; discriminate H].
        destruct (nget i (f_groups s)) as [g|] eqn:Eg.
        -- destruct (f_put_metadata_spec i "best_iter" "" s g Eg) as [s3 [-> [Hch [_ [_ [_ [g' [-> ->]]]]]]]].
           destruct (g_table g); [|let H := fresh in intro H; discriminate H]. destruct (forallb _ _); [|let H := fresh in intro H; discriminate H].
           intros [= <-]. cbn. rewrite nget_nset_other by exact Hne. rewrite Hch. exact Hj.
        -- unfold f_put_metadata, bind, swallow_key, try_except, on_base.
           destruct (put_metadata i "best_iter" "" (f_base s)) as [[?|e] b]; cbn.
           ++ rewrite Eg. let H := fresh in intro H; discriminate H.
           ++ destruct e; cbn; try (intro Hx; discriminate Hx). rewrite Eg. let H := fresh in intro H; discriminate H.
      * let H := fresh in intro H; discriminate H.
Qed.

(** put_iteration *)
Lemma zip_append_keys c v : dkeys (zip_append c v) = dkeys c.
Proof. revert v. induction c as [|[k l] c IH]; intros [|x v]; try reflexivity. cbn. f_equal. apply IH. Qed.

Lemma FI_put sz d h s r n : FI d h s -> nget (ir_opt r) d = Some (Open n) -> length (ir_extras r) = n ->
  exists s', f_put_iteration sz r s = (Ok tt, s') /\ FI d (h ++ [r]) s' /\ meta_star (snd (put_iteration r (f_base s))) (f_base s').
Proof.
  intros HFI Hi Hx. pose proof HFI as [Hk Ho Hc Ha Hall Hnd].
  pose proof (Hall (ir_opt r)) as Hai. rewrite Hi in Hai.
  destruct Hai as [Hi0 [[a Hb] [g [Hg [t [pend [Ht [Hn [Hch [Hf [Hr [e [He Hcols]]]]]]]]]]]]].
  assert (Hput : exists b' e', put_iteration r (f_base s) = (Ok tt, b') /\ nget (ir_opt r) (l_store b') = Some e' /\ dkeys (e_cols e') = base_headers).
  { destruct (put_iteration_parts r (f_base s) a (proj1 Ha) Hb) as [s3 [-> [_ [_ [Hst _]]]]].
    unfold put_row. rewrite Hst, He. eexists _, _. split; [reflexivity|]. cbn [l_store set_store]. rewrite nget_nset_same. split; [reflexivity|].
    cbn [e_cols]. rewrite zip_append_keys. exact Hcols. }
  destruct Hput as [b' [e' [Hput [He' Hcols']]]].
  pose proof (good_step (PutIter r) (f_base s) Ha) as Ha'. pose proof (put_iteration_count r (f_base s)) as Hcnt.
  pose proof (put_iteration_bests r (f_base s)) as Hbst. pose proof (put_iteration_store r (f_base s)) as Hsto.
  cbn [lstep] in Ha'. rewrite Hput in *. cbn [snd] in *.
  set (new := mkRow (l_count b') (ir_x r) (ir_fx r) (ir_extras r)).
  set (s1 := mkF b' (f_ocount s) (nset (ir_opt r) (pend ++ [new]) (f_chunk s)) (if N.eqb (f_est s) 0 then sz r else f_est s) (f_groups s) (f_root s)).
  assert (HFI1 : FI d (h ++ [r]) s1).
  { split; cbn; auto.
    - rewrite app_length, Hcnt, Hc. cbn. lia.
    - intro j. destruct (Nat.eq_dec j (ir_opt r)) as [->|Hne].
      + rewrite Hi. cbn. rewrite !nget_nset_same. split; [exact Hi0|]. rewrite Hbst. split; [eauto|].
        exists g. split; [exact Hg|]. exists t, (pend ++ [new]). splits; auto.
        * rewrite forallb_app, Hf. cbn. rewrite Hx, Nat.eqb_refl. reflexivity.
        * rewrite app_assoc. unfold new. rewrite Hcnt, Hc. apply rows_of_own; auto.
        * eauto.
      + eapply assn_frame; [apply Hall| | | | |right; exists r; split; [reflexivity| congruence]]; cbn.
        * reflexivity.
        * apply nget_nset_other. exact Hne.
        * destruct Hsto as [->|[e1 [e2 [_ ->]]]]; [reflexivity| apply nget_nset_other; exact Hne].
        * rewrite Hbst. reflexivity.
    - apply NoDup_nset. exact Hnd. }
  unfold f_put_iteration, bind, swallow_key, try_except, on_base, modify. rewrite Hput. cbn [f_est fset_base].
  assert (Heq : forall X : flogger, (if N.eqb (f_est s) 0 then fset_est (sz r) (fset_base b' s) else fset_base b' s) = X ->
            nget (ir_opt r) (f_chunk X) = Some pend /\ fset_chunk (nset (ir_opt r) (pend ++ [mkRow (l_count (f_base X)) (ir_x r) (ir_fx r) (ir_extras r)]) (f_chunk X)) X = s1).
  { intros X <-. unfold s1. destruct (N.eqb (f_est s) 0); cbn; split; auto. }
  destruct (Heq _ eq_refl) as [Hc1 Hc2]. rewrite Hc1, Hc2.
  match goal with |- context [N.ltb ?x ?y] => destruct (N.ltb x y) end.
  - assert (Hfl : f_flush (Some (ir_opt r)) s1 = flush_one (ir_opt r) s1) by (destruct (ir_opt r); [congruence|reflexivity]).
    rewrite Hfl. destruct (FI_flush_one d (h ++ [r]) s1 (ir_opt r) HFI1) as [s2 [E2 [HFI2 [_ [_ Hb2]]]]]; [right; eauto|].
    exists s2. split; [exact E2|]. split; [exact HFI2|].
    destruct Hb2 as [-> | ->]; [apply ms_refl| eapply ms_step; apply ms_refl].
  - exists s1. split; [reflexivity|]. split; [exact HFI1| apply ms_refl].
Qed.

(** clear_cache *)
Lemma clear_base i b : i <> 0 -> nmemd i (l_store b) = true ->
  NoDup (dkeys (l_store b)) ->
  exists b', clear_cache (Some i) b = (Ok tt, b') /\ same_core b b' /\ (forall j, j <> i -> nget j (l_store b') = nget j (l_store b)) /\
    (forall e, nget i (l_store b') = Some e -> nget i (l_store b) = Some e).
Proof.
  intros Hi Hm Hnd. pose proof (core_clear (Some i) b) as Hcore.
  pose proof (fun j Hne => lstep_other (ClearCache (Some i)) b j Hne) as Hoth. cbn [lstep] in Hoth.
  destruct (clear_cache (Some i) b) as [r b'] eqn:E. cbn [snd] in *. exists b'.
  assert (r = Ok tt).
  { revert E. unfold clear_cache. destruct (l_traj b); [intros [= <- _]; reflexivity|]. destruct i; [congruence|]. rewrite Hm.
    intros [= <- _]. reflexivity. }
  subst r. split; [reflexivity|]. split; [exact Hcore|]. split; [intros j Hj; destruct i; [congruence|]; apply Hoth; cbn; congruence|].
  revert E. unfold clear_cache. destruct (l_traj b); [intros [= <-]; auto|]. destruct i; [congruence|]. rewrite Hm.
  intros [= <-] e. cbn. rewrite nget_ndel_same by exact Hnd. discriminate.
Qed.

Lemma FI_clear_one d h s i : FI d h s -> nmemd i d = true ->
  exists s', clear_one i s = (Ok tt, s') /\ FI (nset i Closed d) h s' /\
   exists b, meta_star (f_base s) b /\
     f_base s' = (if nmemd i (l_store b) then snd (clear_cache (Some i) b) else b).
Proof.
  intros HFI Hi.
  assert (exists st, nget i d = Some st) as [st Hst] by (unfold dmem in Hi; destruct (nget i d); [eauto|discriminate]).
  destruct (dkeys_nset_in d i Closed Hi) as [Hd1 Hd2].
  assert (Hfirst : exists s1, (if nmemd i (f_chunk s) then (flush_one i ;;; modify (fun s => fset_chunk (ndel i (f_chunk s)) s)) s else (Ok tt, s)) = (Ok tt, s1)
            /\ FI (nset i Closed d) h s1 /\ meta_star (f_base s) (f_base s1)).
  { destruct (nmemd i (f_chunk s)) eqn:Em.
    - apply nmemd_true in Em. pose proof (in_chunk_status d h s i HFI Em) as Hs.
      destruct (FI_flush_one d h s i HFI Hs) as [s1 [E1 [[Hk Ho Hc Ha Hall Hnd] [Hc1 [Hk1 Hb1]]]]].
      unfold bind. rewrite E1. unfold modify. eexists. split; [reflexivity|]. split.
      + split; cbn; auto.
        * congruence.
        * congruence.
        * intro j. rewrite nget_nset. destruct (Nat.eqb_spec j i) as [->|Hne].
          -- specialize (Hall i). rewrite Hst in Hall. destruct Hall as [Hi0 [Hb [g [Hg Hrest]]]]. cbn.
             split; [exact Hi0|]. split; [exact Hb|]. exists g. split; [exact Hg|]. split; [apply nget_ndel_same, Hnd|].
             destruct Hs as [Hs|[n Hs]]; rewrite Hst in Hs; injection Hs as ->.
             ++ destruct Hrest as [-> [_ [Hr [e [He Hce]]]]]. split; [exact Hr|]. intros e0 He0. congruence.
             ++ destruct Hrest as [t [pend [-> [_ [Hc2 [_ [Hr [e [He Hce]]]]]]]]]. rewrite Hc1 in Hc2. injection Hc2 as <-.
                rewrite app_nil_r in Hr. split; [exact Hr|]. intros e0 He0. congruence.
          -- eapply assn_frame; [apply Hall| | | | |left; reflexivity]; cbn; auto. apply nget_ndel_other, Hne.
        * apply NoDup_ndel, Hnd.
      + cbn. destruct Hb1 as [-> | ->]; [apply ms_refl| eapply ms_step; apply ms_refl].
    - exists s. split; [reflexivity|]. split; [|apply ms_refl]. destruct HFI as [Hk Ho Hc Ha Hall Hnd].
      apply nmemd_false, nget_none in Em.
      assert (st = Closed).
      { specialize (Hall i). rewrite Hst in Hall. destruct st; [| |reflexivity].
        - destruct Hall as [_ [_ [g [_ [_ [Hch _]]]]]]. congruence.
        - destruct Hall as [_ [_ [g [_ [t [pend [_ [_ [Hch _]]]]]]]]]. congruence. }
      subst st. split; auto; try congruence.
      intro j. rewrite nget_nset. destruct (Nat.eqb_spec j i) as [->|Hne]; [rewrite <- Hst; apply Hall| apply Hall]. }
  destruct Hfirst as [s1 [E1 [HFI1 Hb1]]]. unfold clear_one. unfold bind at 1. rewrite E1.
  destruct (nmemd i (l_store (f_base s1))) eqn:Em.
  - assert (Hi0 : i <> 0).
    { destruct HFI1 as [_ _ _ _ Hall _]. specialize (Hall i). rewrite nget_nset_same in Hall. apply Hall. }
    destruct (clear_base i (f_base s1) Hi0 Em (proj2 (FI_addr _ _ _ HFI1))) as [b' [Ec [[C1 [C2 [C3 [C4 C5]]]] [Hoth Hown]]]].
    unfold on_base. rewrite Ec. eexists. split; [reflexivity|]. split.
    + destruct HFI1 as [Hk Ho Hc Ha Hall Hnd]. split; cbn; auto.
      * congruence.
      * pose proof (good_step (ClearCache (Some i)) (f_base s1) Ha) as Hg. cbn [lstep] in Hg. rewrite Ec in Hg. exact Hg.
      * intro j. specialize (Hall j). destruct (Nat.eq_dec j i) as [->|Hne].
        -- rewrite nget_nset_same in *. cbn in Hall |- *. rewrite <- C3.
           destruct Hall as [H1 [H2 [g [H3 [H4 [H5 H6]]]]]]. splits; auto. exists g. splits; auto.
           intros e He. apply H6, Hown, He.
        -- eapply assn_frame; [exact Hall| | | | |left; reflexivity]; cbn; auto. rewrite C3. reflexivity.
    + exists (f_base s1). split; [exact Hb1|]. rewrite Em, Ec. reflexivity.
  - exists s1. split; [reflexivity|]. split; [exact HFI1|]. exists (f_base s1). rewrite Em. auto.
Qed.

Definition FI_ext d d' h s : (forall i, nget i d = nget i d') -> dkeys d = dkeys d' -> length d = length d' -> FI d h s -> FI d' h s.
Proof. intros He Hk Hl [H1 H2 H3 H4 H5 H6]. split; try congruence; auto. intro i. rewrite <- He. apply H5. Qed.

Definition close_list (l : list nat) (d : list (nat * status)) := fold_left (fun d i => nset i Closed d) l d.

Inductive clears : list nat -> logger -> logger -> Prop :=
  | cl_nil b : clears [] b b
  | cl_cons i l b b1 b2 : meta_star b b1 ->
      clears l (if nmemd i (l_store b1) then snd (clear_cache (Some i) b1) else b1) b2 -> clears (i :: l) b b2.

Lemma FI_clear_list h l : forall d s, FI d h s -> (forall i, In i l -> nmemd i d = true) ->
  exists s', for_each l clear_one s = (Ok tt, s') /\ FI (close_list l d) h s' /\ clears l (f_base s) (f_base s').
Proof.
  induction l as [|i l IH]; intros d s HFI Hl; [exists s; splits; auto; constructor|].
  cbn. unfold bind.
  destruct (FI_clear_one d h s i HFI) as [s1 [E1 [HFI1 [b [Hb1 Hb2]]]]]; [apply Hl; left; reflexivity|].
  rewrite E1. destruct (IH _ s1 HFI1) as [s2 [E2 [HFI2 Hcl]]].
  { intros j Hj. apply nmemd_true. destruct (dkeys_nset_in d i Closed) as [-> _]; [apply Hl; left; reflexivity|].
    apply nmemd_true, Hl. right. exact Hj. }
  exists s2. split; [exact E2|]. split; [exact HFI2|]. econstructor; [exact Hb1|]. rewrite <- Hb2. exact Hcl.
Qed.

Lemma nget_map_closed d i : nget i (map (fun p : nat * status => (fst p, Closed)) d) = if nmemd i d then Some Closed else None.
Proof.
  unfold dmem. induction d as [|[k v] d IH]; cbn; [reflexivity|]. destruct (Nat.eqb i k); [reflexivity| exact IH].
Qed.

Lemma close_list_spec l : forall d, (forall i, In i l -> nmemd i d = true) ->
  dkeys (close_list l d) = dkeys d /\ length (close_list l d) = length d /\
  forall i, nget i (close_list l d) = if nmem i l then Some Closed else nget i d.
Proof.
  induction l as [|j l IH]; intros d Hl; [cbn; auto|].
  destruct (dkeys_nset_in d j Closed) as [Hk Hn]; [apply Hl; left; reflexivity|].
  destruct (IH (nset j Closed d)) as [H1 [H2 H3]].
  { intros i Hi. apply nmemd_true. rewrite Hk. apply nmemd_true, Hl. right. exact Hi. }
  change (close_list (j :: l) d) with (close_list l (nset j Closed d)).
  split; [congruence|]. split; [congruence|]. intro i. rewrite H3, nget_nset. unfold nmem. cbn.
  destruct (existsb (Nat.eqb i) l); [rewrite orb_true_r; reflexivity|]. rewrite orb_false_r. reflexivity.
Qed.

Lemma FI_clear_all d h s : FI d h s ->
  exists s', for_each (seq 1 (f_ocount s)) clear_one s = (Ok tt, s') /\ FI (map (fun p => (fst p, Closed)) d) h s' /\
   clears (seq 1 (length d)) (f_base s) (f_base s').
Proof.
  intro HFI. pose proof HFI as [Hk Ho _ _ _ _].
  assert (Hin : forall i, In i (seq 1 (length d)) -> nmemd i d = true).
  { intros i Hi. apply nmemd_true. rewrite Hk. exact Hi. }
  rewrite Ho. destruct (FI_clear_list h (seq 1 (length d)) d s HFI Hin) as [s' [E [HFI' Hcl]]].
  exists s'. split; [exact E|]. split; [|exact Hcl].
  destruct (close_list_spec (seq 1 (length d)) d Hin) as [H1 [H2 H3]].
  eapply FI_ext; [| | |exact HFI'].
  - intro i. rewrite H3, nget_map_closed. destruct (nmem i (seq 1 (length d))) eqn:E1.
    + apply nmem_in in E1. rewrite (Hin i E1). reflexivity.
    + apply nmem_false in E1. rewrite <- Hk in E1. destruct (nmemd i d) eqn:E2; [apply nmemd_true in E2; contradiction|].
      apply nget_none. exact E1.
  - rewrite H1. unfold dkeys. rewrite map_map. reflexivity.
  - rewrite H2, map_length. reflexivity.
Qed.

(** ** All operations *)
Lemma erase_app a b : erase (a ++ b) = erase a ++ erase b.
Proof. induction a as [|[o|i] a IH]; cbn; congruence. Qed.

Lemma FI_step sz d h s o d' : FI d h s -> next d o = Some d' ->
  exists s', fstep sz o s = (Ok tt, s') /\ FI d' (h ++ evals (erase [o])) s'.
Proof.
  intros HFI Hn. destruct o as [[i ty t|i hd|r|i|i k v|i m]|i]; cbn [fstep next erase evals] in *; rewrite ?app_nil_r.
  - destruct (Nat.eqb_spec i (S (length d))) as [Hi|]; [|discriminate]. injection Hn as <-.
    destruct (FI_add d h s i ty t HFI Hi) as [s' [E [H _]]]. eauto.
  - destruct (nget i d) as [[| |]|] eqn:Hi; try discriminate. injection Hn as <-.
    destruct (FI_hist d h s i hd HFI Hi) as [s' [E [H _]]]. eauto.
  - destruct (nget (ir_opt r) d) as [[|n|]|] eqn:Hi; try discriminate.
    destruct (Nat.eqb_spec (length (ir_extras r)) n) as [Hx|]; [|discriminate]. injection Hn as <-.
    destruct (FI_put sz d h s r n HFI Hi Hx) as [s' [E [H _]]]. eauto.
  - destruct i as [[|i]|].
    + injection Hn as <-. destruct (FI_clear_all d h s HFI) as [s' [E [H _]]]. eauto.
    + destruct (nmemd (S i) d) eqn:Hm; [|discriminate]. injection Hn as <-.
      destruct (FI_clear_one d h s (S i) HFI Hm) as [s' [E [H _]]]. eauto.
    + injection Hn as <-. destruct (FI_clear_all d h s HFI) as [s' [E [H _]]]. eauto.
  - destruct (nmemd i d) eqn:Hm; [|discriminate]. injection Hn as <-.
    destruct (FI_meta d h s i k v HFI Hm) as [s' [E [H _]]]. eauto.
  - assert (d' = d /\ (nget i d = Some Ready \/ exists n, nget i d = Some (Open n))) as [-> Hs].
    { destruct (nget i d) as [[|n|]|]; try discriminate; injection Hn as <-; eauto. }
    destruct (FI_msg d h s i m HFI Hs) as [s' [E [H _]]]. eauto.
  - assert (Hall : exists s', for_each (dkeys (f_chunk s)) flush_one s = (Ok tt, s') /\ FI d h s').
    { destruct (FI_flush_all d h (dkeys (f_chunk s)) s HFI) as [s' [E [H _]]]; auto; [apply HFI|]. eauto. }
    destruct i as [[|i]|]; cbn [f_flush].
    + injection Hn as <-. exact Hall.
    + assert (d' = d /\ (nget (S i) d = Some Ready \/ exists n, nget (S i) d = Some (Open n))) as [-> Hs].
      { destruct (nget (S i) d) as [[|n|]|]; try discriminate; injection Hn as <-; eauto. }
      destruct (FI_flush_one d h s (S i) HFI Hs) as [s' [E [H _]]]. eauto.
    + injection Hn as <-. exact Hall.
Qed.

Lemma FI_exec sz ops : forall d h s d', FI d h s -> lives d ops = Some d' ->
  FI d' (h ++ evals (erase ops)) (fexec sz ops s) /\ all_ok sz ops s.
Proof.
  induction ops as [|o ops IH]; intros d h s d' HFI Hl; cbn in Hl.
  - injection Hl as <-. cbn. rewrite app_nil_r. auto.
  - destruct (next d o) as [d1|] eqn:Hn; [|discriminate].
    destruct (FI_step sz d h s o d1 HFI Hn) as [s1 [E HFI1]].
    destruct (IH d1 _ s1 d' HFI1 Hl) as [HFI2 Hok].
    change (fexec sz (o :: ops) s) with (fexec sz ops (snd (fstep sz o s))). cbn [all_ok]. rewrite E. cbn [fst snd].
    split; [|auto]. change (o :: ops) with ([o] ++ ops). rewrite erase_app, evals_app, app_assoc. exact HFI2.
Qed.

Lemma filelog_ok sz traj ops d : lives [] ops = Some d -> all_ok sz ops (flog_init traj).
Proof. intro H. exact (proj2 (FI_exec sz ops [] [] (flog_init traj) d (FI_init traj) H)). Qed.

Lemma filelog_rows sz traj ops d i : lives [] ops = Some d -> nmemd i d = true ->
  let s := fexec sz ops (flog_init traj) in
  rows_of i (evals (erase ops))
    ((match f_table i s with Some t => t_rows t | None => [] end) ++
     (match nget i (f_chunk s) with Some pend => pend | None => [] end)).
Proof.
  intros H Hm s. destruct (FI_exec sz ops [] [] (flog_init traj) d (FI_init traj) H) as [[Hk Ho Hc Ha Hall Hnd] _].
  fold s in Hall, Ho, Hc, Ha, Hnd. cbn in Hall. specialize (Hall i). unfold f_table.
  unfold dmem in Hm. destruct (nget i d) as [st|]; [|discriminate].
  destruct Hall as [Hi0 [Hb [g [Hg Hrest]]]]. rewrite Hg. destruct st as [|n|].
  - destruct Hrest as [-> [-> [Hr _]]]. exact Hr.
  - destruct Hrest as [t [pend [-> [_ [-> [_ [Hr _]]]]]]]. exact Hr.
  - destruct Hrest as [-> [Hr _]]. rewrite app_nil_r. exact Hr.
Qed.

Lemma filelog_close sz traj ops d : lives [] ops = Some d ->
  exists s', f_close (fexec sz ops (flog_init traj)) = (Ok tt, s') /\
  forall i, nmemd i d = true ->
    rows_of i (evals (erase ops)) (match f_table i s' with Some t => t_rows t | None => [] end).
Proof.
  intros H. destruct (FI_exec sz ops [] [] (flog_init traj) d (FI_init traj) H) as [HFI _].
  set (s := fexec sz ops (flog_init traj)) in *. cbn [app] in HFI.
  unfold f_close, bind, modify, f_flush.
  set (s0 := fset_root _ s).
  assert (HFI0 : FI d (evals (erase ops)) s0).
  { destruct HFI as [Hk Ho Hc Ha Hall Hnd]. split; auto. }
  destruct (FI_flush_all d _ (dkeys (f_chunk s0)) s0 HFI0) as [s' [E [HFI' [_ [Hk' [Hc' _]]]]]]; auto; [apply HFI0|].
  exists s'. split; [exact E|]. intros i Hm. destruct HFI' as [Hk Ho Hc Ha Hall Hnd]. specialize (Hall i).
  unfold f_table. unfold dmem in Hm. destruct (nget i d) as [st|] eqn:Est; [|discriminate].
  destruct Hall as [Hi0 [Hb [g [Hg Hrest]]]]. rewrite Hg. destruct st as [|n|].
  - destruct Hrest as [-> [_ [Hr _]]]. exact Hr.
  - destruct Hrest as [t [pend [-> [_ [Hp [_ [Hr _]]]]]]].
    assert (Hin : In i (dkeys (f_chunk s0))) by (rewrite <- Hk'; apply nget_some_in; eauto).
    rewrite (Hc' i Hin) in Hp. injection Hp as <-. rewrite app_nil_r in Hr. exact Hr.
  - destruct Hrest as [_ [Hr _]]. exact Hr.
Qed.

(** ** C06: simulation of the memory log *)
Definition sim_entry (o1 o2 : option entry) : Prop :=
  match o1, o2 with
  | Some e1, Some e2 => e_cols e1 = firstn 3 (e_cols e2)
  | None, None => True
  | _, _ => False
  end.

Record bsim (b m : logger) : Prop := mkBsim {
  bs_core : same_core b m;
  bs_traj : l_traj b = l_traj m;
  bs_ent : forall i, sim_entry (nget i (l_store b)) (nget i (l_store m)) }.

Lemma same_core_trans a b c : same_core a b -> same_core b c -> same_core a c.
Proof. unfold same_core. intuition congruence. Qed.

Lemma same_core_sym a b : same_core a b -> same_core b a.
Proof. unfold same_core. intuition congruence. Qed.

Lemma lstep_traj o b : l_traj (snd (lstep o b)) = l_traj b.
Proof.
  destruct o as [j ty t|j hd|r|j|j k v|j m]; cbn [lstep].
  - reflexivity.
  - unfold add_iter_history. destruct (nget j (l_store b)); reflexivity.
  - apply put_iteration_traj.
  - unfold clear_cache. destruct (l_traj b) eqn:E; [exact E|]. destruct j as [[|j]|]; try exact E. destruct (nmemd _ _); exact E.
  - unfold put_metadata. destruct (nget j (l_store b)); reflexivity.
  - unfold put_message. destruct (nget j (l_store b)); reflexivity.
Qed.

(** Writing metadata on the file side only does not disturb the simulation. *)
Lemma bsim_meta_l b m i k v : bsim b m -> bsim (snd (put_metadata i k v b)) m.
Proof.
  intros [Hc Ht He]. split.
  - eapply same_core_trans; [apply same_core_sym, core_meta| exact Hc].
  - rewrite <- Ht. apply (lstep_traj (PutMeta i k v)).
  - intro j. specialize (He j). unfold put_metadata. destruct (nget i (l_store b)) as [e|] eqn:E; [|exact He]. cbn.
    rewrite nget_nset. destruct (Nat.eqb_spec j i) as [->|]; [|exact He]. rewrite E in He. exact He.
Qed.

Lemma bsim_meta_star b b' m : meta_star b b' -> bsim b m -> bsim b' m.
Proof. induction 1; [auto|]. intro. apply IHmeta_star, bsim_meta_l. assumption. Qed.

Lemma bsim_meta b m i k v : bsim b m -> bsim (snd (put_metadata i k v b)) (snd (put_metadata i k v m)).
Proof.
  intros [Hc Ht He]. split.
  - eapply same_core_trans; [apply same_core_sym, core_meta|]. eapply same_core_trans; [exact Hc| apply core_meta].
  - pose proof (lstep_traj (PutMeta i k v) b) as H1. pose proof (lstep_traj (PutMeta i k v) m) as H2. cbn [lstep] in *. congruence.
  - intro j. pose proof (He j) as Hj. pose proof (He i) as Hi. unfold put_metadata, sim_entry in *.
    destruct (nget i (l_store b)) as [e|] eqn:E; destruct (nget i (l_store m)) as [e2|] eqn:E2; try contradiction; [|exact Hj]. cbn.
    rewrite !nget_nset. destruct (Nat.eqb_spec j i) as [->|]; [|exact Hj]. exact Hi.
Qed.

Lemma bsim_msg b m i x : bsim b m -> bsim (snd (put_message i x b)) (snd (put_message i x m)).
Proof.
  intros [Hc Ht He]. split.
  - eapply same_core_trans; [apply same_core_sym, core_msg|]. eapply same_core_trans; [exact Hc| apply core_msg].
  - pose proof (lstep_traj (PutMsg i x) b) as H1. pose proof (lstep_traj (PutMsg i x) m) as H2. cbn [lstep] in *. congruence.
  - intro j. pose proof (He j) as Hj. pose proof (He i) as Hi. unfold put_message, sim_entry in *.
    destruct (nget i (l_store b)) as [e|] eqn:E; destruct (nget i (l_store m)) as [e2|] eqn:E2; try contradiction; [|exact Hj]. cbn.
    rewrite !nget_nset. destruct (Nat.eqb_spec j i) as [->|]; [|exact Hj]. exact Hi.
Qed.

Lemma bsim_add b m i ty t : bsim b m -> bsim (snd (add_optimizer i ty t b)) (snd (add_optimizer i ty t m)).
Proof.
  intros [[C1 [C2 [C3 [C4 C5]]]] Ht He]. split; cbn; auto.
  - unfold same_core. cbn. rewrite C2, C3. auto.
  - intro j. rewrite !nget_nset. destruct (Nat.eqb j i); [reflexivity| apply He].
Qed.

Lemma bsim_hist b m i hd : bsim b m -> (exists e, nget i (l_store b) = Some e /\ e_cols e = []) ->
  bsim (snd (add_iter_history i [] b)) (snd (add_iter_history i hd m)).
Proof.
  intros [Hc Ht He] [e1 [H1 H1c]]. split.
  - eapply same_core_trans; [apply same_core_sym, core_add_hist|]. eapply same_core_trans; [exact Hc| apply core_add_hist].
  - pose proof (lstep_traj (AddHist i []) b) as H2. pose proof (lstep_traj (AddHist i hd) m) as H3. cbn [lstep] in *. congruence.
  - intro j. pose proof (He j) as Hj. pose proof (He i) as Hi. unfold add_iter_history, sim_entry in *. rewrite H1 in *.
    destruct (nget i (l_store m)) as [e2|] eqn:E2; try contradiction. cbn [snd l_store set_store].
    rewrite !nget_nset. destruct (Nat.eqb_spec j i) as [->|]; [|exact Hj]. cbn [e_cols]. rewrite H1c in *.
    assert (e_cols e2 = []) as -> by (destruct (e_cols e2) as [|? [|? [|? ?]]]; discriminate || reflexivity).
    destruct (reset_cols_init hd) as [ks [Hks _]]. unfold base_headers in Hks. rewrite Hks. reflexivity.
Qed.

Lemma zip_firstn n : forall c v, firstn n (zip_append c v) = zip_append (firstn n c) v.
Proof. induction n as [|n IH]; intros [|[k l] c] [|x v]; try reflexivity. cbn. f_equal. apply IH. Qed.

Lemma bsim_put b m r a : bsim b m -> addr_ok b -> nget (ir_opt r) (l_bests b) = Some a ->
  bsim (snd (put_iteration r b)) (snd (put_iteration r m)).
Proof.
  intros [[C1 [C2 [C3 [C4 C5]]]] Ht He] Ha Hb.
  assert (Hbm : put_iteration r b = put_row r (snd (put_max r (snd (put_best r (set_count (S (l_count b)) b))))) /\
                put_iteration r m = put_row r (snd (put_max r (snd (put_best r (set_count (S (l_count m)) m)))))).
  { split; rewrite put_iteration_eq.
    - destruct (put_best_ok r (set_count (S (l_count b)) b) a Ha Hb) as [s2 ->]. reflexivity.
    - assert (Ha' : addr_ok m) by (unfold addr_ok in *; rewrite <- C2, <- C3, <- C4; exact Ha). rewrite C3 in Hb.
      destruct (put_best_ok r (set_count (S (l_count m)) m) a Ha' Hb) as [s2 ->]. reflexivity. }
  destruct Hbm as [-> ->].
  set (p := fun l => snd (put_max r (snd (put_best r (set_count (S (l_count l)) l))))).
  assert (Hp : same_core (p b) (p m) /\ l_store (p b) = l_store b /\ l_store (p m) = l_store m /\ l_traj (p b) = l_traj b /\ l_traj (p m) = l_traj m).
  { assert (Hst : forall l, l_store (p l) = l_store l /\ l_traj (p l) = l_traj l).
    { intro l. unfold p. destruct (put_max_same r (snd (put_best r (set_count (S (l_count l)) l)))) as [-> [_ ->]].
      destruct (put_best_bests r (set_count (S (l_count l)) l)) as [_ [-> ->]]. auto. }
    destruct (Hst b), (Hst m). splits; auto. unfold p, same_core, put_best. cbn. rewrite <- C3, <- C2, Hb, <- C1, <- C4.
    destruct (nth_error (l_heap b) a) as [b0|] eqn:E0.
    - destruct (nlt (ir_fx r) (b_fx b0)) eqn:El; cbn.
      + destruct (nth_error _ (l_best b)) as [g|] eqn:Eg; cbn.
        * destruct (nlt (ir_fx r) (b_fx g)); cbn; rewrite <- C5; destruct (_ && _); cbn; auto.
        * rewrite <- C5; destruct (_ && _); cbn; auto.
      + rewrite <- C5; destruct (_ && _); cbn; rewrite ?C1, ?C2, ?C3, ?C4, ?C5; auto.
    - cbn. rewrite <- C5; destruct (_ && _); cbn; rewrite ?C1, ?C2, ?C3, ?C4, ?C5; auto. }
  change (bsim (snd (put_row r (p b))) (snd (put_row r (p m)))). clearbody p.
  destruct Hp as [Hpc [Hs1 [Hs2 [Ht1 Ht2]]]]. split.
  - eapply same_core_trans; [apply same_core_sym, core_row|]. eapply same_core_trans; [exact Hpc| apply core_row].
  - unfold put_row. destruct (nget _ (l_store (p b))), (nget _ (l_store (p m))); cbn; congruence.
  - intro j. pose proof (He j) as Hj. pose proof (He (ir_opt r)) as Hi. unfold put_row. rewrite Hs1, Hs2. unfold sim_entry in *.
    destruct (nget (ir_opt r) (l_store b)) as [e|] eqn:E; destruct (nget (ir_opt r) (l_store m)) as [e2|] eqn:E2; try contradiction;
      [|cbn; rewrite Hs1, Hs2; exact Hj]. cbn [snd l_store set_store].
    rewrite ?Hs1, ?Hs2, !nget_nset. destruct (Nat.eqb_spec j (ir_opt r)) as [->|]; [|exact Hj]. cbn [e_cols].
    destruct Hpc as [Hcnt _]. rewrite Hi, zip_firstn, Hcnt.
    set (c := firstn 3 (e_cols e2)). assert (Hlen : length c <= 3) by apply firstn_le_length. clearbody c.
    reflexivity.
Qed.

Lemma bsim_clear b m i : i <> 0 -> NoDup (dkeys (l_store b)) -> NoDup (dkeys (l_store m)) -> bsim b m ->
  bsim (if nmemd i (l_store b) then snd (clear_cache (Some i) b) else b) (snd (clear_cache (Some i) m)).
Proof.
  intros Hi Hn1 Hn2 [Hc Ht He].
  assert (Heq : nmemd i (l_store b) = nmemd i (l_store m)).
  { specialize (He i). unfold dmem, sim_entry in *. destruct (nget i (l_store b)), (nget i (l_store m)); try contradiction; reflexivity. }
  destruct i as [|i]; [congruence|]. unfold clear_cache. rewrite <- Ht, <- Heq.
  destruct (l_traj b) eqn:Etr; [destruct (nmemd _ _); cbn; split; auto; congruence|].
  destruct (nmemd (S i) (l_store b)) eqn:Em; cbn; [|split; auto; congruence]. split; cbn; auto; try congruence.
  intro j. destruct (Nat.eq_dec j (S i)) as [->|Hne].
  - rewrite !nget_ndel_same by assumption. exact I.
  - rewrite !nget_ndel_other by assumption. apply He.
Qed.

(** FileLogger clears one after the other what the memory log drops at once. *)
Lemma core_clears l : forall b b2, clears l b b2 -> same_core b b2 /\ l_traj b2 = l_traj b.
Proof.
  induction 1 as [|i l b b1 b2 Hms Hcl [IHc IHt]]; [split; [apply same_core_refl| reflexivity]|].
  assert (Hm : same_core b b1 /\ l_traj b1 = l_traj b).
  { clear -Hms. induction Hms as [|b i c _ [IH1 IH2]]; [split; [apply same_core_refl| reflexivity]|]. split.
    - eapply same_core_trans; [apply core_meta| exact IH1].
    - rewrite IH2. apply (lstep_traj (PutMeta i "best_iter" "")). }
  assert (Hx : same_core b1 (if nmemd i (l_store b1) then snd (clear_cache (Some i) b1) else b1) /\
               l_traj (if nmemd i (l_store b1) then snd (clear_cache (Some i) b1) else b1) = l_traj b1).
  { destruct (nmemd i (l_store b1)); [|split; [apply same_core_refl| reflexivity]]. split; [apply core_clear| apply (lstep_traj (ClearCache (Some i)))]. }
  destruct Hm, Hx. split; [|congruence]. eapply same_core_trans; [eassumption|]. eapply same_core_trans; eassumption.
Qed.

Lemma meta_star_facts b b' : meta_star b b' ->
  (forall j, match nget j (l_store b), nget j (l_store b') with Some e, Some e' => e_cols e' = e_cols e | None, None => True | _, _ => False end) /\
  (NoDup (dkeys (l_store b)) -> NoDup (dkeys (l_store b'))).
Proof.
  induction 1 as [b|b i c _ [IH1 IH2]].
  - split; [|auto]. intro j. destruct (nget j (l_store b)); auto.
  - split.
    + intro j. specialize (IH1 j). destruct (put_metadata_base i "best_iter" "" b) as [_ [Ho [Hs [Hn _]]]].
      destruct (Nat.eq_dec j i) as [->|Hne].
      * destruct (nget i (l_store b)) as [e|].
        -- destruct (Hs e eq_refl) as [e' [H [H' _]]]. rewrite H in IH1. destruct (nget i (l_store c)); [congruence| exact IH1].
        -- rewrite (Hn eq_refl) in IH1. exact IH1.
      * rewrite Ho in IH1 by exact Hne. exact IH1.
    + intro H. apply IH2, (NoDup_store_step (PutMeta i "best_iter" "")), H.
Qed.

Lemma clears_store l : forall b b2, clears l b b2 -> ~ In 0 l -> NoDup (dkeys (l_store b)) -> forall j,
  if l_traj b then match nget j (l_store b), nget j (l_store b2) with Some e, Some e' => e_cols e' = e_cols e | None, None => True | _, _ => False end
  else if nmem j l then nget j (l_store b2) = None
  else match nget j (l_store b), nget j (l_store b2) with Some e, Some e' => e_cols e' = e_cols e | None, None => True | _, _ => False end.
Proof.
  induction 1 as [b|i l b b1 b2 Hms Hcl IH]; intros H0 Hnd j.
  - destruct (l_traj b); destruct (nget j (l_store b)); auto; cbn; auto.
  - assert (Hi : i <> 0) by (intro; apply H0; left; congruence).
    destruct (meta_star_facts b b1 Hms) as [Hf1 Hf2]. specialize (Hf2 Hnd).
    assert (Htr : l_traj b1 = l_traj b).
    { destruct (core_clears [i] b (if nmemd i (l_store b1) then snd (clear_cache (Some i) b1) else b1)) as [_ H].
      { econstructor; [exact Hms| constructor]. }
      rewrite <- H. destruct (nmemd i (l_store b1)); [|reflexivity]. symmetry. apply (lstep_traj (ClearCache (Some i))). }
    assert (Hx : forall j, nget j (l_store (if nmemd i (l_store b1) then snd (clear_cache (Some i) b1) else b1)) =
                 if l_traj b then nget j (l_store b1) else if Nat.eqb j i then None else nget j (l_store b1)).
    { intro k. destruct i as [|i]; [congruence|]. unfold clear_cache. rewrite Htr.
      destruct (nmemd (S i) (l_store b1)) eqn:Em.
      - destruct (l_traj b); [reflexivity|]. cbn. destruct (Nat.eqb_spec k (S i)) as [->|Hne].
        + apply nget_ndel_same, Hf2.
        + apply nget_ndel_other, Hne.
      - destruct (l_traj b); [reflexivity|]. destruct (Nat.eqb_spec k (S i)) as [->|Hne]; [|reflexivity].
        apply nget_none, nmemd_false, Em. }
    assert (Hnd' : NoDup (dkeys (l_store (if nmemd i (l_store b1) then snd (clear_cache (Some i) b1) else b1)))).
    { destruct (nmemd i (l_store b1)); [apply (NoDup_store_step (ClearCache (Some i))); exact Hf2| exact Hf2]. }
    assert (Htr' : l_traj (if nmemd i (l_store b1) then snd (clear_cache (Some i) b1) else b1) = l_traj b).
    { rewrite <- Htr. destruct (nmemd i (l_store b1)); [apply (lstep_traj (ClearCache (Some i)))| reflexivity]. }
    specialize (IH (fun H => H0 (or_intror H)) Hnd' j). specialize (Hf1 j). rewrite Htr', Hx in IH.
    unfold nmem in *. cbn [existsb].
    destruct (l_traj b).
    + destruct (nget j (l_store b)), (nget j (l_store b1)), (nget j (l_store b2)); try contradiction; try congruence; auto.
    + destruct (Nat.eqb j i); cbn.
      * destruct (existsb (Nat.eqb j) l); [exact IH|]. destruct (nget j (l_store b2)); [contradiction| reflexivity].
      * destruct (existsb (Nat.eqb j) l); [exact IH|].
        destruct (nget j (l_store b)), (nget j (l_store b1)), (nget j (l_store b2)); try contradiction; try congruence; auto.
Qed.

(** The full relation carried along a run. *)
Record SI (d : list (nat * status)) (s : flogger) (m : logger) : Prop := mkSI {
  SI_b : bsim (f_base s) m;
  SI_nd : NoDup (dkeys (l_store m));
  SI_in : forall i, nmemd i (l_store m) = true -> nmemd i d = true;
  SI_all : l_traj m = true -> dkeys (l_store m) = dkeys d }.

Lemma store_keys_step m o : (match o with AddOpt _ _ _ | ClearCache _ => False | _ => True end) ->
  dkeys (l_store (snd (lstep o m))) = dkeys (l_store m).
Proof.
  destruct o as [j ty t|j hd|r|j|j k v|j x]; cbn [lstep]; intros []; try contradiction.
  - unfold add_iter_history. destruct (nget j (l_store m)) eqn:E; [|reflexivity]. cbn. apply dkeys_nset_in. unfold dmem. rewrite E. reflexivity.
  - destruct (put_iteration_store r m) as [->|[e [e' [E ->]]]]; [reflexivity|]. apply dkeys_nset_in. unfold dmem. rewrite E. reflexivity.
  - unfold put_metadata. destruct (nget j (l_store m)) eqn:E; [|reflexivity]. cbn. apply dkeys_nset_in. unfold dmem. rewrite E. reflexivity.
  - unfold put_message. destruct (nget j (l_store m)) eqn:E; [|reflexivity]. cbn. apply dkeys_nset_in. unfold dmem. rewrite E. reflexivity.
Qed.

Lemma SI_keep d s s' m o : SI d s m -> (match o with AddOpt _ _ _ | ClearCache _ => False | _ => True end) ->
  bsim (f_base s') (snd (lstep o m)) -> forall d', dkeys d' = dkeys d -> SI d' s' (snd (lstep o m)).
Proof.
  intros [Hb Hn Hi Ha] Ho Hb' d' Hd. pose proof (store_keys_step m o Ho) as Hk. split; auto.
  - rewrite Hk. exact Hn.
  - intros i H. apply nmemd_true. rewrite Hd. apply nmemd_true, Hi, nmemd_true. rewrite <- Hk. apply nmemd_true, H.
  - rewrite lstep_traj, Hk, Hd. exact Ha.
Qed.

Lemma SI_step sz d h s m o d' : FI d h s -> SI d s m -> next d o = Some d' ->
  SI d' (snd (fstep sz o s)) (lexec (erase [o]) m).
Proof.
  intros HFI HSI Hn. pose proof (SI_b _ _ _ HSI) as Hb.
  destruct o as [[i ty t|i hd|r|i|i k v|i x]|i]; cbn [next fstep erase] in *; try change (lexec [?o] m) with (snd (lstep o m)).
  - destruct (Nat.eqb_spec i (S (length d))) as [Hi|]; [|discriminate]. injection Hn as <-.
    destruct (FI_add d h s i ty t HFI Hi) as [s' [E [_ Hb']]]. rewrite E. cbn [snd lexec fold_left lstep].
    destruct HSI as [_ H1 H2 H3]. split.
    + rewrite Hb'. apply bsim_add, Hb.
    + apply NoDup_nset. exact H1.
    + intros j. cbn. rewrite !nmemd_true, !dkeys_nset. intro Hj.
      assert (In j (dkeys d) \/ j = i).
      { destruct (nmem i (dkeys (l_store m))); [left; apply nmemd_true, H2, nmemd_true, Hj|].
        apply in_app_iff in Hj as [Hj|[->|[]]]; [left; apply nmemd_true, H2, nmemd_true, Hj|auto]. }
      destruct (nmem i (dkeys d)) eqn:Ei; [|apply in_app_iff; cbn; intuition].
      destruct H; [assumption|]. subst j. apply nmem_in. exact Ei.
    + intro Htr. cbn in Htr. etransitivity; [apply (dkeys_nset i _ (l_store m))|]. rewrite dkeys_nset, (H3 Htr). reflexivity.
  - destruct (nget i d) as [[| |]|] eqn:Hi; try discriminate. injection Hn as <-.
    destruct (FI_hist d h s i hd HFI Hi) as [s' [E [_ Hb']]]. rewrite E. cbn [snd].
    change (lexec [AddHist i hd] m) with (snd (lstep (AddHist i hd) m)).
    apply (SI_keep d s s' m (AddHist i hd) HSI I).
    + rewrite Hb'. apply bsim_hist; [exact Hb|]. pose proof (FI_all _ _ _ HFI i) as Ha. rewrite Hi in Ha.
      destruct Ha as [_ [_ [g [_ [_ [_ [_ He]]]]]]]. exact He.
    + apply dkeys_nset_in. unfold dmem. rewrite Hi. reflexivity.
  - destruct (nget (ir_opt r) d) as [[|n|]|] eqn:Hi; try discriminate.
    destruct (Nat.eqb_spec (length (ir_extras r)) n) as [Hx|]; [|discriminate]. injection Hn as <-.
    destruct (FI_put sz d h s r n HFI Hi Hx) as [s' [E [_ Hb']]]. rewrite E. cbn [snd].
    change (lexec [PutIter r] m) with (snd (lstep (PutIter r) m)).
    apply (SI_keep d s s' m (PutIter r) HSI I); [|reflexivity].
    eapply bsim_meta_star; [exact Hb'|]. pose proof (FI_all _ _ _ HFI (ir_opt r)) as Ha. rewrite Hi in Ha.
    destruct Ha as [_ [[a Ha] _]]. eapply bsim_put; [exact Hb| apply HFI| exact Ha].
  - assert (Hall : d' = map (fun p => (fst p, Closed)) d ->
              SI d' (snd (for_each (seq 1 (f_ocount s)) clear_one s)) (snd (clear_cache None m))).
    { intros ->. destruct (FI_clear_all d h s HFI) as [s' [E [_ Hcl]]]. rewrite E. cbn [snd].
      assert (Hdk : dkeys (map (fun p : nat * status => (fst p, Closed)) d) = dkeys d) by (unfold dkeys; rewrite map_map; reflexivity).
      destruct Hb as [Hbc Hbt Hbe]. destruct (core_clears _ _ _ Hcl) as [Hcc Hct].
      assert (H00 : ~ In 0 (seq 1 (length d))) by (rewrite in_seq; lia).
      pose proof (clears_store _ _ _ Hcl H00 (proj2 (FI_addr _ _ _ HFI))) as Hst. rewrite Hbt in Hst.
      destruct HSI as [_ H1 H2 H3]. unfold clear_cache. destruct (l_traj m) eqn:Etr; cbn [snd].
      - split; auto.
        + split; [eapply same_core_trans; [apply same_core_sym, Hcc| exact Hbc]| congruence|].
          intro j. specialize (Hst j). specialize (Hbe j). unfold sim_entry in *.
          destruct (nget j (l_store (f_base s))), (nget j (l_store (f_base s'))), (nget j (l_store m)); try contradiction; congruence || auto.
        + intros k Hk. apply nmemd_true. rewrite Hdk. apply nmemd_true, H2, Hk.
        + intros _. rewrite Hdk. auto.
      - split; cbn.
        + split; cbn; [eapply same_core_trans; [apply same_core_sym, Hcc|]; eapply same_core_trans; [exact Hbc| apply same_core_store]| congruence|].
          intro j. specialize (Hst j). specialize (Hbe j). unfold sim_entry in *.
          destruct (nmem j (seq 1 (length d))) eqn:Ej; [rewrite Hst; exact I|].
          assert (Hno : nget j (l_store m) = None).
          { apply nget_none. intro Hin. apply nmemd_true, H2, nmemd_true in Hin. rewrite (FI_keys _ _ _ HFI) in Hin.
            apply nmem_false in Ej. contradiction. }
          rewrite Hno in Hbe. destruct (nget j (l_store (f_base s))); [contradiction|].
          destruct (nget j (l_store (f_base s'))); [contradiction| exact I].
        + constructor.
        + discriminate.
        + congruence. }
    destruct i as [[|i]|].
    + injection Hn as <-. change (lexec [ClearCache (Some 0)] m) with (snd (clear_cache None m)). apply Hall. reflexivity.
    + destruct (nmemd (S i) d) eqn:Hm; [|discriminate]. injection Hn as <-. cbn [f_clear_cache].
      destruct (FI_clear_one d h s (S i) HFI Hm) as [s' [E [_ [b [Hms Hb']]]]]. rewrite E. cbn [snd].
      change (lexec [ClearCache (Some (S i))] m) with (snd (clear_cache (Some (S i)) m)).
      destruct (dkeys_nset_in d (S i) Closed Hm) as [Hdk _]. destruct HSI as [_ H1 H2 H3]. split.
      * rewrite Hb'. apply bsim_clear; auto; [|eapply bsim_meta_star; eassumption].
        apply (proj2 (meta_star_facts _ _ Hms)), (proj2 (FI_addr _ _ _ HFI)).
      * apply (NoDup_store_step (ClearCache (Some (S i)))). exact H1.
      * intros j Hj. apply nmemd_true. rewrite Hdk. apply nmemd_true, H2.
        assert (Hst : l_store (snd (clear_cache (Some (S i)) m)) = l_store m \/ l_store (snd (clear_cache (Some (S i)) m)) = ndel (S i) (l_store m)).
        { unfold clear_cache. destruct (l_traj m); [auto|]. destruct (nmemd (S i) (l_store m)); auto. }
        change (nmemd j (l_store (snd (clear_cache (Some (S i)) m))) = true) in Hj.
        destruct Hst as [Hst|Hst]; rewrite Hst in Hj; [exact Hj|]. apply nmemd_true in Hj. apply nmemd_true. eapply in_dkeys_ndel, Hj.
      * intro Htr. rewrite Hdk. rewrite (lstep_traj (ClearCache (Some (S i)))) in Htr.
        assert (Hst : l_store (snd (clear_cache (Some (S i)) m)) = l_store m) by (unfold clear_cache; rewrite Htr; reflexivity).
        etransitivity; [exact (f_equal (@dkeys _ _) Hst)| auto].
    + injection Hn as <-. change (lexec [ClearCache None] m) with (snd (clear_cache None m)). apply Hall. reflexivity.
  - destruct (nmemd i d) eqn:Hm; [|discriminate]. injection Hn as <-.
    destruct (FI_meta d h s i k v HFI Hm) as [s' [E [_ Hb']]]. rewrite E. cbn [snd].
    change (lexec [PutMeta i k v] m) with (snd (lstep (PutMeta i k v) m)).
    apply (SI_keep d s s' m (PutMeta i k v) HSI I); [|reflexivity]. rewrite Hb'. apply bsim_meta, Hb.
  - assert (d' = d /\ (nget i d = Some Ready \/ exists n, nget i d = Some (Open n))) as [-> Hs].
    { destruct (nget i d) as [[|n|]|]; try discriminate; injection Hn as <-; eauto. }
    destruct (FI_msg d h s i x HFI Hs) as [s' [E [_ Hb']]]. rewrite E. cbn [snd].
    change (lexec [PutMsg i x] m) with (snd (lstep (PutMsg i x) m)).
    apply (SI_keep d s s' m (PutMsg i x) HSI I); [|reflexivity]. rewrite Hb'. apply bsim_msg, Hb.
  - change (lexec [] m) with m.
    assert (Hfl : d' = d /\ exists s', f_flush i s = (Ok tt, s') /\ meta_star (f_base s) (f_base s')).
    { assert (Hall : exists s', for_each (dkeys (f_chunk s)) flush_one s = (Ok tt, s') /\ meta_star (f_base s) (f_base s')).
      { destruct (FI_flush_all d h (dkeys (f_chunk s)) s HFI) as [s' [E [_ [H _]]]]; auto; [apply HFI|]. eauto. }
      destruct i as [[|i]|]; cbn [f_flush].
      - injection Hn as <-. auto.
      - assert (d' = d /\ (nget (S i) d = Some Ready \/ exists n, nget (S i) d = Some (Open n))) as [-> Hs].
        { destruct (nget (S i) d) as [[|n|]|]; try discriminate; injection Hn as <-; eauto. }
        destruct (FI_flush_one d h s (S i) HFI Hs) as [s' [E [_ [_ [_ H]]]]]. split; [reflexivity|]. exists s'. split; [exact E|].
        destruct H as [-> | ->]; [apply ms_refl| eapply ms_step; apply ms_refl].
      - injection Hn as <-. auto. }
    destruct Hfl as [-> [s' [-> Hms]]]. cbn [snd]. destruct HSI as [_ H1 H2 H3]. split; auto. eapply bsim_meta_star; eassumption.
Qed.

Lemma SI_exec sz ops : forall d h s m d', FI d h s -> SI d s m -> lives d ops = Some d' ->
  SI d' (fexec sz ops s) (lexec (erase ops) m).
Proof.
  induction ops as [|o ops IH]; intros d h s m d' HFI HSI Hl; cbn in Hl.
  - injection Hl as <-. exact HSI.
  - destruct (next d o) as [d1|] eqn:Hn; [|discriminate].
    pose proof (SI_step sz d h s m o d1 HFI HSI Hn) as HSI1.
    destruct (FI_step sz d h s o d1 HFI Hn) as [s1 [E HFI1]].
    change (fexec sz (o :: ops) s) with (fexec sz ops (snd (fstep sz o s))). change (o :: ops) with ([o] ++ ops).
    rewrite erase_app, lexec_app. rewrite E in *. cbn [snd] in *. eapply IH; eassumption.
Qed.

Lemma bsim_init traj : SI [] (flog_init traj) (log_init traj).
Proof.
  split; cbn; try discriminate; auto; try constructor; cbn; auto; try apply same_core_refl.
Qed.

Lemma sget_firstn {V} n k : forall (l : list (string * V)) c, sget k (firstn n l) = Some c -> sget k l = Some c.
Proof.
  induction n as [|n IH]; intros [|[k' v] l] c; cbn; try discriminate. destruct (String.eqb k k'); auto.
Qed.

Lemma sget_mem {V} k : forall (l : list (string * V)), In k (dkeys l) -> exists c, sget k l = Some c.
Proof.
  induction l as [|[k' v] l IH]; cbn; [intros []|]. destruct (String.eqb_spec k k') as [->|Hn]; [eauto|].
  intros [->|H]; [congruence| auto].
Qed.

Lemma filelog_same sz traj ops d : lives [] ops = Some d ->
  let s := fexec sz ops (flog_init traj) in
  let m := lexec (erase ops) (log_init traj) in
  f_log_len s = log_len m /\ f_largest_eval s = largest_eval m /\
  (forall i, f_get_best_iter i s = get_best_iter i m) /\
  (traj = true -> f_n_optimizers s = n_optimizers m) /\
  (forall i tr, In tr base_headers -> traj = true \/ nget i d <> Some Closed ->
     f_get_history i tr s = (get_history i tr m, s) /\ f_len_opt i s = len_opt i m /\
     f_has_iter_history i s = has_iter_history i m).
Proof.
  intros Hl s m.
  destruct (FI_exec sz ops [] [] (flog_init traj) d (FI_init traj) Hl) as [HFI _].
  pose proof (SI_exec sz ops [] [] (flog_init traj) (log_init traj) d (FI_init traj) (bsim_init traj) Hl) as HSI.
  fold s in HFI, HSI. fold m in HSI. cbn [app] in HFI.
  destruct HSI as [[[C1 [C2 [C3 [C4 C5]]]] Htr He] Hnd Hin Hall].
  assert (Htm : l_traj m = traj).
  { unfold m. clear.
    assert (forall l, l_traj (lexec (erase ops) l) = l_traj l).
    { generalize (erase ops). intro o. induction o as [|a o IH]; intro l; [reflexivity|]. rewrite lexec_cons, IH. apply lstep_traj. }
    rewrite H. reflexivity. }
  splits.
  - exact C1.
  - exact C5.
  - intro i. unfold f_get_best_iter, get_best_iter. rewrite C2, C3, C4. reflexivity.
  - intros ->. unfold f_n_optimizers, n_optimizers. rewrite (FI_oc _ _ _ HFI).
    assert (Hk := Hall Htm). apply (f_equal (@length nat)) in Hk. unfold dkeys in Hk. rewrite !map_length in Hk. congruence.
  - intros i tr Htri Hcl. specialize (He i).
    pose proof (FI_all _ _ _ HFI i) as Ha.
    assert (Hcase : (nget i (l_store m) = None /\ nget i (l_store (f_base s)) = None /\ f_table i s = None) \/
      exists e1 e2, nget i (l_store (f_base s)) = Some e1 /\ nget i (l_store m) = Some e2 /\ e_cols e1 = firstn 3 (e_cols e2) /\
        match f_table i s with Some _ => dkeys (e_cols e1) = base_headers | None => e_cols e1 = [] end).
    { unfold sim_entry in He. unfold f_table. destruct (nget i d) as [st|] eqn:Est.
      - destruct Ha as [_ [_ [g [Hg Hrest]]]]. rewrite Hg. right.
        assert (Hst : exists e1, nget i (l_store (f_base s)) = Some e1).
        { destruct st as [|n|].
          - destruct Hrest as [_ [_ [_ [e [H _]]]]]. eauto.
          - destruct Hrest as [t [pend [_ [_ [_ [_ [_ [e [H _]]]]]]]]]. eauto.
          - destruct Hcl as [->|Hcl]; [|congruence]. specialize (Hall Htm).
            assert (Hi : nmemd i (l_store m) = true) by (apply nmemd_true; rewrite Hall; apply nmemd_true; unfold dmem; rewrite Est; reflexivity).
            unfold dmem in Hi. destruct (nget i (l_store m)); [|discriminate]. destruct (nget i (l_store (f_base s))); [eauto| contradiction]. }
        destruct Hst as [e1 He1]. rewrite He1 in *. destruct (nget i (l_store m)) as [e2|]; [|contradiction].
        exists e1, e2. splits; auto. destruct st as [|n|].
        + destruct Hrest as [-> [_ [_ [e [H1 H2]]]]]. congruence.
        + destruct Hrest as [t [pend [-> [_ [_ [_ [_ [e [H1 H2]]]]]]]]]. congruence.
        + destruct Hrest as [_ [_ H]]. specialize (H e1 eq_refl). exact H.
      - destruct Ha as [Hg _]. rewrite Hg. left.
        assert (Hn : nget i (l_store m) = None).
        { apply nget_none. intro H. apply nmemd_true, Hin in H. unfold dmem in H. rewrite Est in H. discriminate. }
        rewrite Hn in *. destruct (nget i (l_store (f_base s))); [contradiction| auto]. }
    unfold f_get_history, get_history, f_len_opt, len_opt, f_has_iter_history, has_iter_history, super_column.
    destruct Hcase as [[Hm [Hs Hf]]|[e1 [e2 [H1 [H2 [H3 H4]]]]]].
    + rewrite Hm, Hs, Hf. auto.
    + rewrite H1, H2. destruct (f_table i s) as [t|].
      * assert (Hcol : forall k, In k base_headers -> exists c, sget k (e_cols e1) = Some c /\ sget k (e_cols e2) = Some c).
        { intros k Hk. rewrite <- H4 in Hk. destruct (sget_mem k _ Hk) as [c Hc]. exists c. split; [exact Hc|].
          rewrite H3 in Hc. apply sget_firstn in Hc. exact Hc. }
        destruct (Hcol "fx") as [cf [Hf1 Hf2]]; [cbn; auto|]. destruct (Hcol tr Htri) as [c [Hc1 Hc2]].
        unfold dmem. rewrite Hf1, Hf2, Hc1, Hc2. auto.
      * assert (e_cols e2 = []) as -> by (rewrite H4 in H3; destruct (e_cols e2) as [|? [|? [|? ?]]]; discriminate || reflexivity).
        auto.
Qed.
