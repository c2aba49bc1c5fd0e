(** * Proofs about the plots *)
From Verif Require Import Prelude Prelude_Proofs Logger_Proofs Helpers_Proofs.
From Verif Require Export Plot_Spec.
From Coq Require Import Sorting Lqa.
Open Scope nat_scope.

(** ** The state of a log that a manager fills *)
Lemma last_cond_app i a : forall b d, last_cond i (a ++ b) d = last_cond i b (last_cond i a d).
Proof. induction a as [|o a IH]; intros b d; [reflexivity|]. destruct o; cbn; auto. Qed.
Lemma registered_app a b : registered (a ++ b) = registered a ++ registered b.
Proof. induction a as [|o a IH]; [reflexivity|]. destruct o; cbn; rewrite ?IH; reflexivity. Qed.

Record PInv (pre : list lop) (n : nat) (op : list nat) (s : logger) : Prop := {
  p_traj : l_traj s = true;
  p_addr : addr_ok s;
  p_count : l_count s = length (evals pre);
  p_keys : dkeys (l_store s) = seq 1 n;
  p_op : forall i, nmem i op = true -> 1 <= i <= n;
  p_fresh : forall i, n < i -> last_cond i pre None = None /\ own i (evals pre) = [];
  p_reg : forall i ty, In (i, ty) (registered pre) -> i <= n;
  p_best : forall i, 1 <= i <= n -> exists a, nget i (l_bests s) = Some a;
  p_opt : forall i, 1 <= i <= n -> exists e ty, nget i (l_store s) = Some e /\ sget "opt_type" (e_meta e) = Some ty /\
          In (i, ty) (registered pre) /\ sget "end_cond" (e_meta e) = last_cond i pre None /\
          (if nmem i op then exists ks ids, positions_of i (evals pre) ids /\ e_cols e = hist_cols ids ks (own i (evals pre))
           else e_cols e = [] /\ own i (evals pre) = []) }.

Lemma PInv_init : PInv [] 0 [] (log_init true).
Proof. split; cbn; auto using addr_ok_init; try discriminate; intros; try lia; try contradiction. Qed.

Lemma nmem_cons i j l : nmem i (j :: l) = Nat.eqb i j || nmem i l.
Proof. reflexivity. Qed.
Lemma nmem_seq i n : nmem i (seq 1 n) = true <-> 1 <= i <= n.
Proof.
  unfold nmem. rewrite existsb_exists. split.
  - intros [x [Hx He]]. apply in_seq in Hx. apply Nat.eqb_eq in He. lia.
  - intro H. exists i. split; [apply in_seq; lia| apply Nat.eqb_refl].
Qed.
Lemma nmem_seq_false i n : ~ 1 <= i <= n -> nmem i (seq 1 n) = false.
Proof. intro H. destruct (nmem i (seq 1 n)) eqn:E; [apply nmem_seq in E; tauto|reflexivity]. Qed.

Lemma PInv_step pre n op s o rest : PInv pre n op s -> managed_from n op (o :: rest) = true ->
  exists n' op', PInv (pre ++ [o]) n' op' (snd (lstep o s)) /\ managed_from n' op' rest = true.
Proof.
  intros H Hm. destruct H as [Ht Ha Hc Hk Hop Hf Hreg Hb Ho]. destruct o as [i ty t|i hd|r|i|i k v|i m]; cbn [managed_from] in Hm.
  - apply andb_true_iff in Hm as [He Hm]. apply Nat.eqb_eq in He. subst i. exists (S n), op. split; [|exact Hm].
    destruct (Hf (S n) ltac:(lia)) as [Hf1 Hf2].
    split; rewrite ?evals_app; cbn [evals]; rewrite ?app_nil_r.
    + exact Ht.
    + apply (addr_ok_step (AddOpt (S n) ty t)), Ha.
    + exact Hc.
    + change (dkeys (nset (S n) (mkE [("opt_id", ""); ("opt_type", ty); ("t_start", t)]%string [] []) (l_store s)) = seq 1 (S n)).
      rewrite dkeys_nset, Hk, nmem_seq_false by lia. rewrite <- seq_S. reflexivity.
    + intros i Hi. apply Hop in Hi. lia.
    + intros i Hi. rewrite last_cond_app. cbn. apply Hf. lia.
    + intros i ty' Hi. rewrite registered_app in Hi. apply in_app_iff in Hi as [Hi|[[= <- _]|[]]]; [apply Hreg in Hi; lia|lia].
    + intros i Hi. change (exists a, nget i (nset (S n) (length (l_heap s)) (l_bests s)) = Some a). rewrite nget_nset.
      destruct (Nat.eqb_spec i (S n)); [eauto|]. apply Hb. lia.
    + intros i Hi. change (l_store (snd (lstep (AddOpt (S n) ty t) s))) with (nset (S n) (mkE [("opt_id", ""); ("opt_type", ty); ("t_start", t)]%string [] []) (l_store s)).
      rewrite nget_nset, last_cond_app, registered_app. cbn [registered last_cond]. destruct (Nat.eqb_spec i (S n)) as [->|Hn].
      * eexists _, ty. split; [reflexivity|]. cbn. splits; auto.
        -- apply in_or_app. right. left. reflexivity.
        -- destruct (nmem (S n) op) eqn:E; [apply Hop in E; lia|]. auto.
      * destruct (Ho i ltac:(lia)) as [e [ty' [H1 [H2 [H3 [H4 H5]]]]]]. exists e, ty'. splits; auto.
        apply in_or_app. auto.
  - apply andb_true_iff in Hm as [Hm1 Hm]. apply andb_true_iff in Hm1 as [Hm1 Hni]. apply andb_true_iff in Hm1 as [Hm1 Hm2].
    apply Nat.leb_le in Hm1, Hm2. apply negb_true_iff in Hni. exists n, (i :: op). split; [|exact Hm].
    destruct (Ho i (conj Hm1 Hm2)) as [e [ty [H1 [H2 [H3 [H4 H5]]]]]]. rewrite Hni in H5. destruct H5 as [H5 H6].
    assert (Hst : snd (lstep (AddHist i hd) s) = set_store (nset i (mkE (e_meta e) (e_msgs e) (reset_cols (base_headers ++ hd) [])) (l_store s)) s).
    { cbn. unfold add_iter_history. rewrite H1. cbn. rewrite H5. reflexivity. }
    split; rewrite ?evals_app, ?Hst; cbn [evals]; rewrite ?app_nil_r.
    + exact Ht.
    + rewrite <- Hst. apply addr_ok_step, Ha.
    + exact Hc.
    + cbn [l_store set_store]. rewrite dkeys_nset, Hk. rewrite (proj2 (nmem_seq i n)) by lia. reflexivity.
    + intros j. rewrite nmem_cons. destruct (Nat.eqb_spec j i); [subst; lia|]. apply Hop.
    + intros j Hj. rewrite last_cond_app. cbn. apply Hf, Hj.
    + intros j ty' Hj. rewrite registered_app in Hj. cbn [registered] in Hj. rewrite app_nil_r in Hj. eapply Hreg, Hj.
    + exact Hb.
    + intros j Hj. cbn [l_store set_store]. rewrite nget_nset, nmem_cons, last_cond_app, registered_app. cbn [registered last_cond]. rewrite app_nil_r.
      destruct (Nat.eqb_spec j i) as [->|Hn].
      * eexists _, ty. split; [reflexivity|]. cbn [e_meta e_cols orb]. splits; auto.
        destruct (reset_cols_init hd) as [ks [-> _]]. exists ks, []. rewrite H6. split; [|reflexivity]. apply positions_none, H6.
      * cbn [orb]. apply (Ho j Hj).
  - apply andb_true_iff in Hm as [Hm1 Hm]. exists n, op. split; [|exact Hm].
    pose proof (Hop _ Hm1) as Hr. destruct (Hb _ Hr) as [a Hba].
    destruct (put_iteration_parts r s a Ha Hba) as [s3 [E3 [A3 [B3 [S3 [T3 C3]]]]]].
    destruct (Ho _ Hr) as [e [ty [H1 [H2 [H3 [H4 H5]]]]]]. rewrite Hm1 in H5. destruct H5 as [ks [ids [H5 H6]]].
    assert (Hst : snd (lstep (PutIter r) s) = set_store (nset (ir_opt r) (mkE (e_meta e) (e_msgs e) (hist_cols (ids ++ [S (length (evals pre))]) ks (own (ir_opt r) (evals pre) ++ [r]))) (l_store s)) s3).
    { cbn [lstep]. rewrite E3. unfold put_row. rewrite S3, H1. cbn [snd]. rewrite H6, C3, Hc, zip_hist. reflexivity. }
    split; rewrite ?evals_app, ?Hst; cbn [evals].
    + cbn. congruence.
    + rewrite <- Hst. apply addr_ok_step, Ha.
    + cbn. rewrite C3, Hc, app_length. cbn. lia.
    + cbn [l_store set_store]. rewrite dkeys_nset, Hk. rewrite (proj2 (nmem_seq _ n)) by lia. reflexivity.
    + exact Hop.
    + intros j Hj. rewrite last_cond_app. cbn [last_cond]. destruct (Hf j Hj) as [F1 F2]. rewrite own_snoc, F2.
      destruct (Nat.eqb_spec (ir_opt r) j); [lia|]. auto.
    + intros j ty' Hj. rewrite registered_app in Hj. cbn [registered] in Hj. rewrite app_nil_r in Hj. eapply Hreg, Hj.
    + cbn. rewrite B3. exact Hb.
    + intros j Hj. cbn [l_store set_store]. rewrite nget_nset, last_cond_app, registered_app. cbn [registered last_cond]. rewrite app_nil_r, own_snoc.
      destruct (Nat.eqb_spec j (ir_opt r)) as [->|Hn].
      * eexists _, ty. split; [reflexivity|]. cbn [e_meta e_cols]. rewrite Hm1, Nat.eqb_refl. splits; auto.
        exists ks, (ids ++ [S (length (evals pre))]). split; [apply positions_take; auto|reflexivity].
      * destruct (Ho j Hj) as [e' [ty' [G1 [G2 [G3 [G4 G5]]]]]]. exists e', ty'. splits; auto.
        destruct (Nat.eqb_spec (ir_opt r) j); [congruence|]. rewrite app_nil_r. destruct (nmem j op); [|exact G5].
        destruct G5 as [ks' [ids' [G5 G6]]]. exists ks', ids'. split; [apply positions_skip; auto|exact G6].
  - exists n, op. split; [|exact Hm]. cbn [lstep]. unfold clear_cache. rewrite Ht. cbn [snd].
    split; rewrite ?evals_app; cbn [evals]; rewrite ?app_nil_r; auto.
    + intros j Hj. rewrite last_cond_app. cbn. auto.
    + intros j ty' Hj. rewrite registered_app in Hj. cbn [registered] in Hj. rewrite app_nil_r in Hj. eapply Hreg, Hj.
    + intros j Hj. rewrite last_cond_app, registered_app. cbn. rewrite app_nil_r. auto.
  - apply andb_true_iff in Hm as [Hm1 Hm]. apply andb_true_iff in Hm1 as [Hm1 Hni]. apply andb_true_iff in Hm1 as [Hm1 Hm2].
    apply Nat.leb_le in Hm1, Hm2. apply negb_true_iff, String.eqb_neq in Hni. exists n, op. split; [|exact Hm].
    destruct (Ho i (conj Hm1 Hm2)) as [e [ty [H1 [H2 [H3 [H4 H5]]]]]].
    assert (Hst : snd (lstep (PutMeta i k v) s) = set_store (nset i (mkE (sset k v (e_meta e)) (e_msgs e) (e_cols e)) (l_store s)) s).
    { cbn. unfold put_metadata. rewrite H1. reflexivity. }
    split; rewrite ?evals_app, ?Hst; cbn [evals]; rewrite ?app_nil_r.
    + exact Ht.
    + rewrite <- Hst. apply addr_ok_step, Ha.
    + exact Hc.
    + cbn [l_store set_store]. rewrite dkeys_nset, Hk. rewrite (proj2 (nmem_seq i n)) by lia. reflexivity.
    + exact Hop.
    + intros j Hj. rewrite last_cond_app. cbn. destruct (Nat.eqb_spec i j); [lia|]. cbn. apply Hf, Hj.
    + intros j ty' Hj. rewrite registered_app in Hj. cbn [registered] in Hj. rewrite app_nil_r in Hj. eapply Hreg, Hj.
    + exact Hb.
    + intros j Hj. cbn [l_store set_store]. rewrite nget_nset, last_cond_app, registered_app. cbn [registered last_cond]. rewrite app_nil_r.
      destruct (Nat.eqb_spec j i) as [->|Hn].
      * eexists _, ty. split; [reflexivity|]. cbn [e_meta e_cols]. rewrite Nat.eqb_refl, !sget_sset. splits; auto.
        -- destruct (String.eqb_spec "opt_type" k); [congruence|exact H2].
        -- cbn [andb]. rewrite String.eqb_sym. destruct (String.eqb k "end_cond"); auto.
      * destruct (Nat.eqb_spec i j); [congruence|]. cbn [andb]. apply (Ho j Hj).
  - exists n, op. split; [|exact Hm].
    assert (Hst : snd (lstep (PutMsg i m) s) = s \/ exists e, nget i (l_store s) = Some e /\ snd (lstep (PutMsg i m) s) = set_store (nset i (mkE (e_meta e) (e_msgs e ++ [m]) (e_cols e)) (l_store s)) s).
    { cbn. unfold put_message. destruct (nget i (l_store s)) as [e|] eqn:E; [right; eauto|left; reflexivity]. }
    destruct Hst as [Hst|[e [He Hst]]]; (split; rewrite ?evals_app, ?Hst; cbn [evals]; rewrite ?app_nil_r; auto);
      try (intros j Hj; rewrite last_cond_app; cbn; apply (Hf j Hj));
      try (intros j ty' Hj; rewrite registered_app in Hj; cbn [registered] in Hj; rewrite app_nil_r in Hj; eapply Hreg, Hj).
    + intros j Hj. rewrite last_cond_app, registered_app. cbn. rewrite app_nil_r. auto.
    + cbn [l_store set_store]. rewrite dkeys_nset, Hk. assert (Hin : In i (dkeys (l_store s))) by (apply nget_some_in; eauto). rewrite Hk in Hin.
      apply in_seq in Hin. rewrite (proj2 (nmem_seq i n)) by lia. reflexivity.
    + intros j Hj. rewrite last_cond_app, registered_app. cbn [registered last_cond l_store set_store]. rewrite app_nil_r, nget_nset.
      destruct (Nat.eqb_spec j i) as [->|Hn]; [|apply (Ho j Hj)].
      destruct (Ho i Hj) as [e' [ty' [G1 [G2 [G3 [G4 G5]]]]]]. rewrite G1 in He. injection He as ->. eexists _, ty'. split; [reflexivity|].
      cbn. splits; auto.
Qed.

Lemma PInv_exec ops : forall pre n op s, PInv pre n op s -> managed_from n op ops = true ->
  exists n' op', PInv (pre ++ ops) n' op' (lexec ops s).
Proof.
  induction ops as [|o ops IH]; intros pre n op s H Hm; [rewrite app_nil_r; eauto|].
  destruct (PInv_step pre n op s o ops H Hm) as [n' [op' [H' Hm']]]. rewrite lexec_cons.
  replace (pre ++ o :: ops) with ((pre ++ [o]) ++ ops) by (rewrite <- app_assoc; reflexivity). eauto.
Qed.
Lemma PInv_log ops : managed ops = true -> exists n op, PInv ops n op (lexec ops (log_init true)).
Proof. intro H. exact (PInv_exec ops [] 0 [] _ PInv_init H). Qed.

(** ** The points of a curve *)
Lemma sorted_unique l : forall l', StronglySorted lt l -> StronglySorted lt l' -> (forall k, In k l <-> In k l') -> l = l'.
Proof.
  induction l as [|a l IH]; intros [|b l'] H H' Hi; [reflexivity| exfalso; apply (Hi b); left; reflexivity| exfalso; apply (Hi a); left; reflexivity|].
  inversion H as [|? ? Hs Hf]; inversion H' as [|? ? Hs' Hf']; subst. rewrite Forall_forall in Hf, Hf'.
  assert (a = b).
  { destruct (proj1 (Hi a)) as [E|E]; [left; reflexivity| congruence|]. destruct (proj2 (Hi b)) as [E'|E']; [left; reflexivity|congruence|].
    apply Hf' in E. apply Hf in E'. lia. }
  subst b. f_equal. apply IH; auto. intro k. split; intro Hk.
  - destruct (proj1 (Hi k)) as [->|]; [right; exact Hk| |assumption]. apply Hf in Hk. lia.
  - destruct (proj2 (Hi k)) as [->|]; [right; exact Hk| |assumption]. apply Hf' in Hk. lia.
Qed.

Fixpoint nown (i k : nat) (h : list iterres) : list (nat * iterres) :=
  match h with
  | [] => []
  | r :: h => if Nat.eqb (ir_opt r) i then (k, r) :: nown i (S k) h else nown i (S k) h
  end.
Lemma nown_snd i h : forall k, map snd (nown i k h) = own i h.
Proof. induction h as [|r h IH]; intro k; cbn; [reflexivity|]. destruct (Nat.eqb (ir_opt r) i); cbn; rewrite IH; reflexivity. Qed.
Lemma nown_in i h : forall k m r, In (m, r) (nown i k h) <-> k <= m /\ nth_error h (m - k) = Some r /\ ir_opt r = i.
Proof.
  induction h as [|r0 h IH]; intros k m r; cbn.
  - split; [tauto|]. intros [_ [H _]]. destruct (m - k); discriminate.
  - assert (Hstep : In (m, r) (nown i (S k) h) <-> k < m /\ nth_error (r0 :: h) (m - k) = Some r /\ ir_opt r = i).
    { rewrite IH. split.
      - intros [H1 H2]. replace (m - k) with (S (m - S k)) by lia. cbn. split; [lia|exact H2].
      - intros [H1 H2]. replace (m - k) with (S (m - S k)) in H2 by lia. split; [lia|exact H2]. }
    destruct (Nat.eqb_spec (ir_opt r0) i) as [E|E]; cbn [In]; rewrite Hstep.
    + split.
      * intros [[= <- <-]|[H1 H2]]; [rewrite Nat.sub_diag; auto|split; [lia|exact H2]].
      * intros [H1 H2]. destruct (Nat.eq_dec k m) as [->|Hn]; [|right; split; [lia|exact H2]].
        rewrite Nat.sub_diag in H2. cbn in H2. left. destruct H2 as [[= ->] _]. reflexivity.
    + split; [intros [H1 H2]; split; [lia|exact H2]|].
      intros [H1 H2]. split; [|exact H2]. destruct (Nat.eq_dec k m) as [->|Hn]; [|lia].
      rewrite Nat.sub_diag in H2. cbn in H2. destruct H2 as [[= ->] H2]. congruence.
Qed.
Lemma nown_sorted i h : forall k, StronglySorted lt (map fst (nown i k h)).
Proof.
  induction h as [|r h IH]; intro k; cbn; [constructor|]. destruct (Nat.eqb (ir_opt r) i); cbn; [|apply IH].
  constructor; [apply IH|]. apply Forall_forall. intros m Hm. apply in_map_iff in Hm as [[m' r'] [<- Hm]]. apply nown_in in Hm. cbn. lia.
Qed.
Lemma positions_nown i h ids : positions_of i h ids -> ids = map fst (nown i 1 h).
Proof.
  intros [Hs Hp]. apply sorted_unique; [exact Hs|apply nown_sorted|]. intro k. rewrite Hp, in_map_iff. split.
  - intros [r [H1 [H2 H3]]]. exists (k, r). split; [reflexivity|]. apply nown_in. auto.
  - intros [[k' r] [<- H]]. apply nown_in in H as [H1 [H2 H3]]. exists r. cbn. split; [lia|auto].
Qed.
Definition pts_of (i : nat) (h : list iterres) : list (nat * num) := map (fun p => (fst p, ir_fx (snd p))) (nown i 1 h).
Lemma pts_of_points i h : points_of i h (pts_of i h).
Proof.
  split.
  - unfold pts_of. rewrite map_map. cbn. apply nown_sorted.
  - intros k v. unfold pts_of. rewrite in_map_iff. split.
    + intros [[k' r] [[= <- <-] H]]. apply nown_in in H as [H1 [H2 H3]]. exists r. cbn. splits; auto.
    + intros [r [H1 [H2 [H3 H4]]]]. exists (k, r). cbn. split; [congruence|]. apply nown_in. auto.
Qed.
Lemma combine_split_map {A B C} (f : B -> C) (l : list (A * B)) : combine (map fst l) (map f (map snd l)) = map (fun p => (fst p, f (snd p))) l.
Proof. induction l as [|[a b] l IH]; cbn; [reflexivity|]. rewrite IH. reflexivity. Qed.
Lemma ids_of_map l : ids_of (map CId l) = Some l.
Proof. induction l as [|a l IH]; cbn; [reflexivity|]. rewrite IH. reflexivity. Qed.
Lemma numbers_map l : numbers (map value_of (map CF l)) = Some l.
Proof. induction l as [|a l IH]; cbn; [reflexivity|]. rewrite IH. reflexivity. Qed.

(** What the log returns for an optimizer. *)
Lemma PInv_get ops n op s i : PInv ops n op s -> 1 <= i <= n -> exists ty,
  get_history i "call_id" s = Ok (map CId (map fst (nown i 1 (evals ops)))) /\
  get_history i "fx" s = Ok (map CF (map ir_fx (own i (evals ops)))) /\
  get_metadata i "opt_type" s = Ok ty /\ In (i, ty) (registered ops) /\
  get_metadata i "end_cond" s = match last_cond i ops None with Some t => Ok t | None => Err KeyError end.
Proof.
  intros H Hi. destruct (p_opt _ _ _ _ H i Hi) as [e [ty [H1 [H2 [H3 [H4 H5]]]]]]. exists ty.
  unfold get_history, has_iter_history, get_metadata. rewrite H1, H2, H4.
  assert (Hh : e_cols e = [] /\ own i (evals ops) = [] \/ exists ks ids, positions_of i (evals ops) ids /\ e_cols e = hist_cols ids ks (own i (evals ops))).
  { destruct (nmem i op); [right; exact H5|left; exact H5]. }
  destruct Hh as [[Hc Ho]|[ks [ids [Hp Hc]]]]; rewrite Hc.
  - cbn. rewrite Ho. assert (Hn : nown i 1 (evals ops) = []) by (apply (map_eq_nil snd); rewrite nown_snd; exact Ho). rewrite Hn. cbn. splits; auto.
  - apply positions_nown in Hp. rewrite <- Hp. cbn. splits; auto.
Qed.

Lemma rev_last {A} (l : list A) p r : rev l = p :: r -> last_of l p.
Proof. intro H. exists (rev r). rewrite <- (rev_involutive l), H. reflexivity. Qed.
Lemma rev_empty {A} (l : list A) : rev l = [] -> l = [].
Proof. intro H. rewrite <- (rev_involutive l), H. reflexivity. Qed.

Section Draw.
Variable lg : Q -> Q.

Definition scale (log : bool) : num -> num := if log then sign_log lg else fun v => v.
Lemma scale_map (log : bool) l : (if log then map (sign_log lg) l else l) = map (scale log) l.
Proof. destruct log; cbn; [reflexivity|]. symmetry. apply map_id. Qed.

Lemma draw_shows log ops n op s i : PInv ops n op s -> 1 <= i <= n ->
  exists c, draw lg log false s i = Ok c /\ cv_opt c = i /\ shows ops (scale log) c.
Proof.
  intros H Hi. destruct (PInv_get ops n op s i H Hi) as [ty [H1 [H2 [H3 [H4 H5]]]]].
  unfold draw. rewrite H1, H2, H3, H5. unfold values. rewrite numbers_map, ids_of_map, scale_map.
  rewrite <- (nown_snd i (evals ops) 1), !map_length, Nat.eqb_refl.
  assert (Hc : combine (map fst (nown i 1 (evals ops))) (map (scale log) (map ir_fx (map snd (nown i 1 (evals ops))))) =
               map (fun p => (fst p, scale log (snd p))) (pts_of i (evals ops))).
  { unfold pts_of. rewrite (map_map ir_fx), combine_split_map, map_map. reflexivity. }
  rewrite Hc. eexists. split; [reflexivity|]. split; [reflexivity|]. split; [exact H4|]. split.
  - exists (pts_of i (evals ops)). split; [apply pts_of_points|reflexivity].
  - cbn [cv_opt cv_pts cv_end]. destruct (last_cond i ops None) as [t|]; [|reflexivity].
    destruct (rev (map _ _)) as [|p r] eqn:E.
    + left. split; [apply rev_empty, E|reflexivity].
    + right. exists p. split; [eapply rev_last, E|reflexivity].
Qed.

Lemma draw_all_shows log ops n op s ids : PInv ops n op s -> (forall i, In i ids -> 1 <= i <= n) ->
  exists cs, draw_all lg log false s ids = Ok cs /\ map cv_opt cs = ids /\ Forall (shows ops (scale log)) cs.
Proof.
  intros H. induction ids as [|i ids IH]; intro Hi; cbn; [exists []; auto|].
  destruct (draw_shows log ops n op s i H (Hi i (or_introl eq_refl))) as [c [-> [Hc Hs]]].
  destruct IH as [cs [-> [H1 H2]]]; [intros j Hj; apply Hi; right; exact Hj|].
  exists (c :: cs). cbn. rewrite Hc, H1. auto.
Qed.

(** With best_fx *)
Lemma draw_best log ops n op s i : PInv ops n op s -> 1 <= i <= n ->
  if existsb (fun r => Nat.eqb (ir_opt r) i && nnan (ir_fx r)) (evals ops) then draw lg log true s i = Err AssertionError
  else exists c, draw lg log true s i = Ok c.
Proof.
  intros H Hi. destruct (PInv_get ops n op s i H Hi) as [ty [H1 [H2 [H3 [H4 H5]]]]].
  unfold draw. rewrite H1, H2, H3. unfold values, rolling_min. rewrite numbers_map, ids_of_map.
  assert (He : existsb nnan (map ir_fx (own i (evals ops))) = existsb (fun r => Nat.eqb (ir_opt r) i && nnan (ir_fx r)) (evals ops)).
  { clear. unfold own. induction (evals ops) as [|r h IH]; cbn; [reflexivity|]. destruct (Nat.eqb (ir_opt r) i); cbn; rewrite IH; reflexivity. }
  rewrite He. destruct (existsb _ (evals ops)); [reflexivity|].
  rewrite scale_map, !map_length. rewrite <- (nown_snd i (evals ops) 1), map_map. destruct (nown i 1 (evals ops)) as [|p l]; cbn; [eauto|].
  rewrite rolling_length, !map_length, Nat.eqb_refl. eauto.
Qed.
Lemma draw_all_best log ops n op s ids : PInv ops n op s -> (forall i, In i ids -> 1 <= i <= n) ->
  if existsb (fun r => nmem (ir_opt r) ids && nnan (ir_fx r)) (evals ops) then draw_all lg log true s ids = Err AssertionError
  else exists cs, draw_all lg log true s ids = Ok cs.
Proof.
  intros H. induction ids as [|i ids IH]; intro Hi.
  - destruct (existsb _ _) eqn:E; cbn; [|eauto]. apply existsb_exists in E as [r [_ E]]. discriminate.
  - specialize (IH (fun j Hj => Hi j (or_intror Hj))). pose proof (draw_best log ops n op s i H (Hi i (or_introl eq_refl))) as Hd.
    assert (He : existsb (fun r => nmem (ir_opt r) (i :: ids) && nnan (ir_fx r)) (evals ops) =
                 existsb (fun r => Nat.eqb (ir_opt r) i && nnan (ir_fx r)) (evals ops) || existsb (fun r => nmem (ir_opt r) ids && nnan (ir_fx r)) (evals ops)).
    { clear. induction (evals ops) as [|r h IH]; [reflexivity|]. cbn [existsb]. rewrite IH, nmem_cons.
      destruct (Nat.eqb (ir_opt r) i), (nmem (ir_opt r) ids), (nnan (ir_fx r)); cbn; rewrite ?orb_true_r, ?orb_false_r; reflexivity. }
    rewrite He. cbn [draw_all]. destruct (existsb (fun r => Nat.eqb (ir_opt r) i && nnan (ir_fx r)) (evals ops)); cbn [orb].
    + rewrite Hd. reflexivity.
    + destruct Hd as [c ->]. destruct (existsb _ _); [rewrite IH; reflexivity|]. destruct IH as [cs ->]. eauto.
Qed.

Lemma registered_count ops : forall n op, managed_from n op ops = true -> map fst (registered ops) = seq (S n) (length (registered ops)).
Proof.
  induction ops as [|o ops IH]; intros n op H; [reflexivity|]. destruct o; cbn in *; repeat (apply andb_true_iff in H as [? H]); eauto.
  apply Nat.eqb_eq in H0. subst. f_equal. eauto.
Qed.
Lemma PInv_n ops n op s : PInv ops n op s -> managed ops = true -> n_optimizers s = length (registered ops) /\ n_optimizers s = n.
Proof.
  intros H Hm. assert (Hn : n_optimizers s = n).
  { unfold n_optimizers. rewrite <- (map_length fst). change (length (dkeys (l_store s)) = n). rewrite (p_keys _ _ _ _ H). apply seq_length. }
  split; [|exact Hn]. rewrite Hn. pose proof (registered_count ops 0 [] Hm) as Hr.
  apply Nat.le_antisymm.
  - destruct n as [|n]; [lia|]. destruct (p_opt _ _ _ _ H (S n) ltac:(lia)) as [e [ty [_ [_ [Hin _]]]]].
    apply (in_map fst) in Hin. rewrite Hr in Hin. apply in_seq in Hin. cbn in Hin. lia.
  - destruct (length (registered ops)) as [|m] eqn:E; [lia|].
    destruct (Nat.le_gt_cases (S m) n) as [|Hgt]; [assumption|]. exfalso.
    assert (Hin : In (S m) (map fst (registered ops))) by (rewrite Hr; apply in_seq; lia).
    apply in_map_iff in Hin as [[i ty] [Hi Hin]]. cbn in Hi. subst i.
    pose proof (p_reg _ _ _ _ H _ _ Hin). lia.
Qed.
End Draw.

Ltac ands := repeat match goal with H : _ && _ = true |- _ => apply andb_true_iff in H; destruct H end.
(** Every evaluation belongs to a known optimizer. *)
Lemma PInv_evals ops n op s r : PInv ops n op s -> In r (evals ops) -> 1 <= ir_opt r <= n \/ ir_opt r = 0.
Proof.
  intros H Hr. destruct (Nat.eq_dec (ir_opt r) 0) as [|Hn]; [auto|left]. split; [lia|].
  destruct (Nat.le_gt_cases (ir_opt r) n) as [|Hg]; [assumption|]. destruct (p_fresh _ _ _ _ H _ Hg) as [_ Ho].
  assert (Hin : In r (own (ir_opt r) (evals ops))) by (apply filter_In; rewrite Nat.eqb_refl; auto). rewrite Ho in Hin. contradiction.
Qed.
Lemma managed_open ops : forall n op, managed_from n op ops = true -> (forall i, nmem i op = true -> 1 <= i) -> forall r, In r (evals ops) -> 1 <= ir_opt r.
Proof.
  induction ops as [|o ops IH]; intros n op H Hop r Hr; [contradiction|].
  destruct o as [i ty t|i hd|r0|i|i k v|i m]; cbn in *; ands; eauto.
  - eapply IH; eauto. intros j. rewrite nmem_cons. destruct (Nat.eqb_spec j i); [|apply Hop]. subst. intros _. apply Nat.leb_le. assumption.
  - destruct Hr as [<-|Hr]; eauto.
Qed.

(** Discipline of the log theorems *)
Lemma managed_disciplined ops : forall n op seen, managed_from n op ops = true -> (forall i, nmem i seen = true <-> 1 <= i <= n) ->
  (forall i, nmem i op = true -> 1 <= i <= n) -> disciplined_from seen ops = true.
Proof.
  induction ops as [|o ops IH]; intros n op seen H Hs Hop; [reflexivity|].
  destruct o as [i ty t|i hd|r0|i|i k v|i m]; cbn in *; ands; eauto.
  - apply Nat.eqb_eq in H. subst i. destruct (nmem (S n) seen) eqn:E; [apply Hs in E; lia|]. cbn. apply (IH (S n) op); auto.
    + intro i. rewrite nmem_cons. destruct (Nat.eqb_spec i (S n)); cbn; [subst; split; [lia|auto]|]. rewrite Hs. lia.
    + intros i Hi. apply Hop in Hi. lia.
  - eapply IH; eauto. intros j. rewrite nmem_cons. destruct (Nat.eqb_spec j i); [|apply Hop]. subst. intros _. split; apply Nat.leb_le; assumption.
  - rewrite (proj2 (Hs _) (Hop _ H)). cbn. eauto.
Qed.

(** ** The scale *)
Lemma max_greatest l hi : max_finite l hi -> (nfinite hi = true -> greatest l hi) /\ (nfinite hi = false -> hi = NInf /\ forall v, In v l -> nfinite v = false).
Proof.
  intros [[-> H]|[H1 [[v [Hv ->]] H3]]]; split; try discriminate; auto.
  - intros _. split; [exact Hv|]. split; auto.
  - intro H. congruence.
Qed.
Lemma greatest_unique l a b : greatest l a -> greatest l b -> neq a b = true.
Proof.
  intros [A1 [A2 A3]] [B1 [B2 B3]]. unfold neq. rewrite (B3 a A1 A2), (A3 b B1 B2). reflexivity.
Qed.

Lemma least_unique l a b : least l a -> least l b -> neq a b = true.
Proof.
  intros [A1 [A2 A3]] [B1 [B2 B3]]. apply A3 in B1. apply B3 in A1. clear A3 B3. unfold neq.
  destruct a, b; cbn in *; try discriminate; auto. apply negb_false_iff in A1, B1. rewrite A1, B1. reflexivity.
Qed.
Lemma first_best_least h o x fx c : first_best h (fun _ => true) o x fx c ->
  (fx = PInf /\ forall v, In v (map ir_fx h) -> nlt v PInf = false) \/ least (map ir_fx h) fx.
Proof.
  intros [[-> [_ [_ H]]]|[r [H1 [H2 [_ [_ [_ [H3 [H4 [H5 _]]]]]]]]]].
  - left. split; [reflexivity|]. intros v Hv. apply in_map_iff in Hv as [r [<- Hr]]. auto.
  - right. split; [rewrite <- H3; apply in_map; eapply nth_error_In, H2|]. split; [exact H4|].
    intros v Hv. apply in_map_iff in Hv as [r' [<- Hr]]. auto.
Qed.

Lemma wide_iff lo hi : nlt lo PInf = true -> nfinite hi = true -> nle lo hi = true ->
  nlt (Fin 0) (nmul hi lo) && nlt (Fin 100000) (nminus hi lo) = true <->
  (nlt (Fin 0) lo = true \/ nlt hi (Fin 0) = true) /\ nlt (Fin 100000) (nminus hi lo) = true.
Proof.
  intros H1 H2 H3. rewrite andb_true_iff. apply and_iff_compat_r. destruct hi as [| |q|]; try discriminate. destruct lo as [| |p|]; try discriminate.
  - cbn. destruct (Qcompare_spec q 0) as [E|E|E]; rewrite ?negb_true_iff.
    + split; [discriminate|]. intros [X|X]; [discriminate|]. apply not_true_iff_false in X. exfalso. apply X, Qle_bool_iff. lra.
    + split; [|reflexivity]. intros _. right. apply not_true_iff_false. intro X. apply Qle_bool_iff in X. lra.
    + split; [discriminate|]. intros [X|X]; [discriminate|]. apply not_true_iff_false in X. exfalso. apply X, Qle_bool_iff. lra.
  - cbn in *. apply Qle_bool_iff in H3. rewrite !negb_true_iff, <- !not_true_iff_false, !Qle_bool_iff. split.
    + intro X. destruct (Qlt_le_dec 0 p) as [Hp|Hp]; [left; lra|]. right. intro Hq. apply X. nra.
    + intros [X|X] Y; nra.
Qed.

Lemma nlt_neq_l a b c : neq a b = true -> nlt a c = nlt b c.
Proof.
  unfold neq. rewrite andb_true_iff. intros [H1 H2]. destruct a as [| |p|], b as [| |q|]; cbn in *; try discriminate; try reflexivity; destruct c as [| |r|]; try reflexivity.
  apply Qle_bool_iff in H1, H2. f_equal. apply eq_true_iff_eq. rewrite !Qle_bool_iff. split; intro; lra.
Qed.
Lemma nlt_neq_r a b c : neq a b = true -> nlt c a = nlt c b.
Proof.
  unfold neq. rewrite andb_true_iff. intros [H1 H2]. destruct a as [| |p|], b as [| |q|]; cbn in *; try discriminate; try reflexivity; destruct c as [| |r|]; try reflexivity.
  apply Qle_bool_iff in H1, H2. cbn. f_equal. apply eq_true_iff_eq. rewrite !Qle_bool_iff. split; intro; lra.
Qed.
Lemma nminus_neq a b c d : neq a b = true -> neq c d = true -> nfinite a = true -> nlt (Fin 100000) (nminus a c) = nlt (Fin 100000) (nminus b d).
Proof.
  unfold neq. rewrite !andb_true_iff. intros [H1 H2] [H3 H4] Hf.
  destruct a as [| |p|], b as [| |q|]; cbn in *; try discriminate; destruct c as [| |r|], d as [| |t|]; cbn in *; try discriminate; try reflexivity.
  apply Qle_bool_iff in H1, H2, H3, H4. f_equal. apply eq_true_iff_eq. rewrite !Qle_bool_iff. split; intro; lra.
Qed.
Lemma least_le_greatest l lo hi : least l lo -> greatest l hi -> nle lo hi = true.
Proof.
  intros [L1 [L2 L3]] [G1 [G2 G3]]. apply L3 in G1. destruct lo as [| |p|], hi as [| |q|]; cbn in *; try discriminate; auto.
  apply negb_false_iff in G1. exact G1.
Qed.

Lemma pick_scale_iff traj ops : disciplined ops = true ->
  let l := map ir_fx (evals ops) in
  exists b, pick_scale (lexec ops (log_init traj)) = Ok b /\
  (b = true <-> exists lo hi, least l lo /\ greatest l hi /\ (nlt (Fin 0) lo = true \/ nlt hi (Fin 0) = true) /\ nlt (Fin 100000) (nminus hi lo) = true).
Proof.
  intros Hd l. destruct (log_best_overall traj ops Hd) as [b [Hb [Hf _]]]. pose proof (log_largest traj ops Hd) as Hm.
  unfold pick_scale. rewrite Hb. eexists. split; [reflexivity|].
  set (hi := largest_eval _) in *. clearbody hi. set (lo := b_fx b) in *. clearbody lo. clear Hb.
  apply first_best_least in Hf. fold l in Hf, Hm. apply max_greatest in Hm as [Hm1 Hm2]. split.
  - intro H. destruct (nfinite hi) eqn:Eh.
    + pose proof (Hm1 eq_refl) as Hg. destruct Hf as [[-> Hf]|Hl].
      * destruct Hg as [Hi _]. apply Hf in Hi. destruct hi; discriminate.
      * exists lo, hi. splits; auto. apply wide_iff in H; [tauto| apply Hl|exact Eh|eapply least_le_greatest; eauto].
        apply wide_iff in H; [tauto| apply Hl|exact Eh|eapply least_le_greatest; eauto].
    + destruct (Hm2 eq_refl) as [-> Hn]. destruct Hf as [[-> _]|[Hl1 [Hl2 _]]]; [discriminate|].
      apply Hn in Hl1. destruct lo; cbn in *; discriminate.
  - intros [lo' [hi' [Hl [Hg [Hs Hw]]]]]. destruct (nfinite hi) eqn:Eh.
    + pose proof (greatest_unique l _ _ (Hm1 eq_refl) Hg) as Eg. destruct Hf as [[-> Hf]|Hl'].
      * destruct Hl as [Hl1 [Hl2 _]]. rewrite (Hf _ Hl1) in Hl2. discriminate.
      * pose proof (least_unique l _ _ Hl' Hl) as El. apply wide_iff; [apply Hl'|exact Eh|eapply least_le_greatest; eauto|].
        rewrite (nlt_neq_r _ _ (Fin 0) El), (nlt_neq_l _ _ (Fin 0) Eg), (nminus_neq _ _ _ _ Eg El Eh). auto.
    + destruct (Hm2 eq_refl) as [_ Hn]. destruct Hg as [Hg1 [Hg2 _]]. rewrite (Hn _ Hg1) in Hg2. discriminate.
Qed.

(** On a log scale *)
Section Log.
Variable lg : Q -> Q.
Hypothesis lg_mono : forall a b, (0 < a)%Q -> (a <= b)%Q -> (lg a <= lg b)%Q.
Lemma sign_log_pos a b : nlt (Fin 0) a = true -> nle a b = true -> nle (sign_log lg a) (sign_log lg b) = true.
Proof.
  destruct a as [| |p|], b as [| |q|]; cbn; try discriminate; auto.
  - rewrite negb_true_iff, <- not_true_iff_false, !Qle_bool_iff. intros Hp H.
    destruct (Qcompare_spec p 0); [lra|lra|]. destruct (Qcompare_spec q 0); [lra|lra|]. cbn. apply Qle_bool_iff, lg_mono; assumption.
  - destruct (Qcompare_spec p 0); rewrite ?negb_true_iff, <- ?not_true_iff_false, ?Qle_bool_iff; intros; [lra|lra|reflexivity].
Qed.
Lemma sign_log_neg a b : nlt b (Fin 0) = true -> nle a b = true -> nle (sign_log lg a) (sign_log lg b) = true.
Proof.
  destruct a as [| |p|], b as [| |q|]; cbn; try discriminate; auto.
  - rewrite negb_true_iff, <- not_true_iff_false, Qle_bool_iff. intros Hq _. destruct (Qcompare_spec q 0); [lra|reflexivity|lra].
  - rewrite negb_true_iff, <- not_true_iff_false, !Qle_bool_iff. intros Hq H.
    destruct (Qcompare_spec q 0); [lra| |lra]. destruct (Qcompare_spec p 0); [lra| |lra]. cbn. apply Qle_bool_iff.
    assert (lg (- q) <= lg (- p))%Q by (apply lg_mono; lra). lra.
Qed.
Lemma sign_log_fin q : ~ (q == 0)%Q -> nfinite (sign_log lg (Fin q)) = true.
Proof. cbn. destruct (Qcompare_spec q 0); [contradiction|reflexivity|reflexivity]. Qed.
End Log.

(** ** The markers *)
Open Scope string_scope.
Lemma prefix_app n r : String.prefix n (n ++ r) = true.
Proof. induction n as [|c n IH]; cbn; [destruct r; reflexivity|]. destruct (Ascii.ascii_dec c c); [exact IH|congruence]. Qed.
Lemma contains_prefix n r : contains n (n ++ r) = true.
Proof. pose proof (prefix_app n r) as H. destruct (n ++ r); cbn [contains]; rewrite H; reflexivity. Qed.
Lemma contains_skip c n a b : ~ In c (chars a) -> contains (String c n) (a ++ b) = contains (String c n) b.
Proof.
  induction a as [|d a IH]; intro H; [reflexivity|]. change (String d a ++ b) with (String d (a ++ b)). cbn [contains String.prefix].
  destruct (Ascii.ascii_dec c d) as [->|_]; [exfalso; apply H; left; reflexivity|]. cbn [orb]. apply IH. intro X. apply H. right. exact X.
Qed.
Lemma contains_none c n a : ~ In c (chars a) -> contains (String c n) a = false.
Proof.
  intro H. assert (E : a ++ "" = a) by (clear; induction a as [|d a IH]; cbn; [reflexivity|rewrite IH; reflexivity]).
  rewrite <- E. rewrite contains_skip by exact H. reflexivity.
Qed.
Lemma append_assoc a b c : (a ++ b) ++ c = a ++ (b ++ c).
Proof. induction a as [|d a IH]; cbn; [reflexivity|rewrite IH; reflexivity]. Qed.

Ltac nochar := let H := fresh in intro H; cbn in H; repeat destruct H as [H|H]; try discriminate H; try contradiction.

Lemma mark_killed h r : mark_of (text (EKilled h r)) = Killed.
Proof. reflexivity. Qed.
Lemma mark_error d : number_text d -> mark_of (text (EError d)) = Crashed.
Proof.
  intro Hd. assert (Hn : forall c n, ~ In c (chars "-0123456789") -> ~ In c (chars "Error termination (exitcode ") -> ~ In c (chars ").") ->
    contains (String c n) (text (EError d)) = false).
  { intros c n H1 H2 H3. cbn [text]. rewrite contains_skip by exact H2. rewrite contains_skip by (intro X; apply H1, Hd, X).
    apply contains_none, H3. }
  unfold mark_of.
  rewrite (Hn _ "loMPO Termination"), (Hn _ "ptimizer convergence"), (Hn _ "ormal termination") by nochar.
  cbn [orb]. cbn [text]. replace ("Error termination (exitcode " ++ d ++ ").") with ("Error termination" ++ (" (exitcode " ++ d ++ ").")) by reflexivity.
  rewrite contains_prefix. reflexivity.
Qed.
Lemma mark_convergence d : mark_of ("Optimizer convergence" ++ d) = if contains "GloMPO Termination" d then Killed else Converged.
Proof.
  unfold mark_of. rewrite contains_skip by nochar. rewrite contains_prefix. reflexivity.
Qed.
Lemma contains_step n c s : String.prefix n (String c s) = false -> contains n (String c s) = contains n s.
Proof. intro H. cbn [contains]. rewrite H. reflexivity. Qed.
Definition bool_text (b : bool) : string := if b then "True" else "False".
Definition float_text (z : string) : Prop := forall c, In c (chars z) -> In c (chars "0123456789.e-+infa").
Lemma mark_nevergrad above below zero : float_text zero -> mark_of (nevergrad_message (bool_text above) (bool_text below) zero) = NoMark.
Proof.
  intros Hz. set (m := nevergrad_message _ _ _).
  assert (Hn : forall c n, ~ In c (chars "TrueFalse") -> ~ In c (chars "0123456789.e-+infa") ->
    ~ In c (chars "Nevergrad termination conditions:") -> ~ In c (chars nl) -> ~ In c (chars "(fx >= 1e30) = ") -> ~ In c (chars "(fx <= ") -> ~ In c (chars ") = ") ->
    contains (String c n) m = false).
  { intros c n H1 H2 H3 H4 H5 H6 H7. assert (Hb : forall b, ~ In c (chars (bool_text b))).
    { intros b X. apply H1. change (chars "TrueFalse") with (chars "True" ++ chars "False")%list. apply in_or_app. destruct b; auto. }
    unfold m, nevergrad_message. rewrite !contains_skip; auto. apply contains_none. auto. }
  assert (HN : contains "Normal termination" m = false).
  { assert (E : m = String (Ascii.ascii_of_nat 78) ("evergrad termination conditions:" ++ nl ++ "(fx >= 1e30) = " ++ bool_text above ++ nl ++ "(fx <= " ++ zero ++ ") = " ++ bool_text below)) by reflexivity.
    rewrite E, contains_step by reflexivity.
    rewrite !contains_skip; try solve [nochar | destruct above; nochar]; [destruct below; reflexivity|].
    intro X. apply Hz in X. revert X. nochar. }
  assert (HT : contains "Traceback" m = false).
  { unfold m, nevergrad_message. rewrite 3 contains_skip by nochar.
    assert (Hr : contains "Traceback" (nl ++ "(fx <= " ++ zero ++ ") = " ++ bool_text below) = false).
    { rewrite !contains_skip; try solve [nochar]; [destruct below; reflexivity|]. intro X. apply Hz in X. revert X. nochar. }
    destruct above; cbn [bool_text].
    - assert (E : forall r, "True" ++ r = String (Ascii.ascii_of_nat 84) ("rue" ++ r)) by reflexivity.
      rewrite E, contains_step by reflexivity. rewrite contains_skip by nochar. exact Hr.
    - rewrite contains_skip by nochar. exact Hr. }
  unfold mark_of. rewrite HN, HT, (Hn _ "loMPO Termination"), (Hn _ "ptimizer convergence"), (Hn _ "rror termination") by nochar. reflexivity.
Qed.
Open Scope nat_scope.

Lemma plot_shows lg log ops : managed ops = true -> exists cs,
  plot_trajectory lg log false (lexec ops (log_init true)) = Ok cs /\ map cv_opt cs = seq 1 (length (registered ops)) /\
  Forall (shows ops (if log then sign_log lg else fun v => v)) cs.
Proof.
  intro Hm. destruct (PInv_log ops Hm) as [n [op H]]. destruct (PInv_n _ _ _ _ H Hm) as [Hn1 Hn2].
  unfold plot_trajectory. rewrite Hn1, <- Hn1, Hn2.
  apply (draw_all_shows lg log ops n op _ (seq 1 n) H). intros i Hi. apply in_seq in Hi. lia.
Qed.
Lemma plot_best_nan lg log ops : managed ops = true ->
  (plot_trajectory lg log true (lexec ops (log_init true)) = Err AssertionError <-> exists r, In r (evals ops) /\ ir_fx r = NaN) /\
  ((forall r, In r (evals ops) -> ir_fx r <> NaN) -> exists cs, plot_trajectory lg log true (lexec ops (log_init true)) = Ok cs).
Proof.
  intro Hm. destruct (PInv_log ops Hm) as [n [op H]]. destruct (PInv_n _ _ _ _ H Hm) as [_ Hn2].
  unfold plot_trajectory. rewrite Hn2.
  pose proof (draw_all_best lg log ops n op _ (seq 1 n) H) as Hd.
  assert (Hs : forall i, In i (seq 1 n) -> 1 <= i <= n) by (intros i Hi; apply in_seq in Hi; lia). specialize (Hd Hs).
  destruct (existsb _ (evals ops)) eqn:E.
  - apply existsb_exists in E as [r [Hr E]]. apply andb_true_iff in E as [_ E]. split.
    + split; [|auto]. intros _. exists r. split; [exact Hr|]. destruct (ir_fx r); try discriminate. reflexivity.
    + intro Hx. exfalso. apply (Hx r Hr). destruct (ir_fx r); try discriminate. reflexivity.
  - destruct Hd as [cs ->]. split; [|eauto]. split; [discriminate|]. intros [r [Hr Hx]]. exfalso.
    assert (existsb (fun r => nmem (ir_opt r) (seq 1 n) && nnan (ir_fx r)) (evals ops) = true); [|congruence].
    apply existsb_exists. exists r. split; [exact Hr|]. rewrite Hx. cbn [nnan]. rewrite andb_true_r. apply nmem_seq.
    pose proof (managed_open ops 0 [] Hm ltac:(discriminate) r Hr). destruct (PInv_evals _ _ _ _ _ H Hr); lia.
Qed.

Lemma log_order lg l : (forall a b, (0 < a)%Q -> (a <= b)%Q -> (lg a <= lg b)%Q) ->
  (exists lo hi, least l lo /\ greatest l hi /\ (nlt (Fin 0) lo = true \/ nlt hi (Fin 0) = true)) ->
  forall a b, In a l -> In b l -> nle a b = true -> nle (sign_log lg a) (sign_log lg b) = true.
Proof.
  intros Hlg [lo [hi [[L1 [L2 L3]] [[G1 [G2 G3]] [Hs|Hs]]]]] a b Ha Hb Hab.
  - apply sign_log_pos; auto. apply L3 in Ha. destruct a as [| |p|], lo as [| |q|], b as [| |r|]; cbn in *; try discriminate; auto;
    rewrite ?negb_true_iff, ?negb_false_iff, <- ?not_true_iff_false, ?Qle_bool_iff in *; lra.
  - assert (Hneg : forall v, In v l -> nle v v = true -> nlt v (Fin 0) = true \/ v = PInf).
    { intros v Hv Hnan. destruct v as [| |q|]; try discriminate; auto. left. apply G3 in Hv; [|reflexivity]. destruct hi as [| |h|]; try discriminate.
      cbn in *. rewrite negb_true_iff, <- not_true_iff_false, !Qle_bool_iff in *. lra. }
    assert (Hb' : nle b b = true) by (destruct a as [| |p|], b as [| |q|]; cbn in *; try discriminate; auto; apply Qle_bool_iff; lra).
    assert (Ha' : nle a a = true) by (destruct a as [| |p|], b as [| |q|]; cbn in *; try discriminate; auto; apply Qle_bool_iff; lra).
    destruct (Hneg b Hb Hb') as [Hn| ->]; [apply sign_log_neg; auto|].
    destruct (Hneg a Ha Ha') as [Hn| ->]; [|reflexivity]. destruct a as [| |p|]; try discriminate; [reflexivity|]. cbn in *.
    rewrite negb_true_iff, <- not_true_iff_false, Qle_bool_iff in Hn. destruct (Qcompare_spec p 0); [lra|reflexivity|reflexivity].
Qed.
Lemma log_finite lg l : (exists lo hi, least l lo /\ greatest l hi /\ (nlt (Fin 0) lo = true \/ nlt hi (Fin 0) = true)) ->
  forall a, In a l -> nfinite (sign_log lg a) = nfinite a.
Proof.
  intros [lo [hi [[L1 [L2 L3]] [[G1 [G2 G3]] Hs]]]] a Ha. destruct a as [| |q|]; try reflexivity. apply sign_log_fin. intro Hq.
  destruct Hs as [Hs|Hs].
  - apply L3 in Ha. destruct lo as [| |p|]; cbn in *; try discriminate.
    rewrite negb_true_iff, negb_false_iff, <- not_true_iff_false, !Qle_bool_iff in *. lra.
  - apply G3 in Ha; [|reflexivity]. destruct hi as [| |p|]; cbn in *; try discriminate.
    rewrite negb_true_iff, <- not_true_iff_false, !Qle_bool_iff in *. lra.
Qed.
