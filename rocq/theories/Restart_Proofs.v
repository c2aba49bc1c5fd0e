(** * Resuming: proofs *)
From Coq Require Import Sorted.
From Verif Require Import Prelude Prelude_Proofs Logger_Model Logger_Spec Logger_Proofs FileLogger_Model FileLogger_Spec FileLogger_Proofs Restart_Model Restart_Spec.

(** ** Slots *)
Lemma sum_const {A} (l : list A) k : sum_nat (map (fun _ => k) l) = length l * k.
Proof. induction l as [|a l IH]; cbn; [reflexivity|]. rewrite IH. reflexivity. Qed.
Lemma apportion_spec mj saved out : apportion mj saved = Ok out ->
  map fst out = map fst saved /\ sum_nat (map snd out) <= mj /\
  (sum_nat (map snd saved) <= mj -> out = saved) /\
  (mj < sum_nat (map snd saved) -> forall i n, In (i, n) out -> 1 <= n /\ n = mj / length saved).
Proof.
  unfold apportion. destruct (Nat.ltb_spec mj (sum_nat (map snd saved))) as [H|H].
  - destruct (Nat.ltb_spec (mj / length saved) 1) as [H1|H1]; [discriminate|]. intros [= <-]. rewrite !map_map. cbn [fst snd]. splits; auto.
    + rewrite sum_const. apply Nat.mul_div_le. destruct saved; [cbn in H; lia| discriminate].
    + lia.
    + intros _ i n Hi. apply in_map_iff in Hi as [[j m] [[= <- <-] _]]. auto.
  - intros [= <-]. splits; auto; lia.
Qed.
Lemma apportion_err mj saved e : apportion mj saved = Err e -> e = CheckpointingError /\ mj < sum_nat (map snd saved) /\ mj < length saved.
Proof.
  unfold apportion. destruct (Nat.ltb_spec mj (sum_nat (map snd saved))) as [H|H]; [|discriminate].
  destruct (Nat.ltb_spec (mj / length saved) 1) as [H1|H1]; [|discriminate]. intros [= <-]. splits; auto.
  destruct saved as [|p l]; [cbn in H; lia|]. set (s := p :: l) in *. assert (E : mj / length s = 0) by lia. apply Nat.div_small_iff in E; [exact E| discriminate].
Qed.
Lemma filter_sum (p : nat * nat -> bool) l : sum_nat (map snd (filter p l)) <= sum_nat (map snd l).
Proof. induction l as [|[a b] l IH]; cbn; [lia|]. destruct (p (a, b)); cbn; lia. Qed.

(** ** Bisection *)
Lemma sorted_nth ids i j : StronglySorted lt ids -> i < j -> j < length ids -> nth i ids 0 < nth j ids 0.
Proof.
  intro H. revert i j. induction H as [|a l Hl IH Ha]; intros i j Hij Hj; cbn in Hj; [lia|].
  destruct j as [|j]; [lia|]. destruct i as [|i]; cbn.
  - rewrite Forall_forall in Ha. apply Ha. apply nth_In. lia.
  - apply IH; lia.
Qed.
Lemma bisect_spec ids key : StronglySorted lt ids -> forall fuel lo hi, hi - lo <= fuel -> lo <= hi -> hi <= length ids ->
  (forall i, i < lo -> nth i ids 0 <= key) -> (forall i, hi <= i -> i < length ids -> key < nth i ids 0) ->
  let r := bisect fuel ids key lo hi in r <= length ids /\ (forall i, i < r -> nth i ids 0 <= key) /\ (forall i, r <= i -> i < length ids -> key < nth i ids 0).
Proof.
  intros Hs. induction fuel as [|k IH]; intros lo hi Hf Hle Hl H1 H2; cbn [bisect].
  - assert (lo = hi) by lia. subst. splits; auto.
  - destruct (Nat.ltb_spec lo hi) as [Hlt|Hge]; [|assert (lo = hi) by lia; subst; splits; auto].
    set (mid := lo + (hi - lo) / 2). assert (Hm : lo <= mid < hi).
    { unfold mid. assert ((hi - lo) / 2 < hi - lo) by (apply Nat.div_lt; lia). lia. }
    destruct (Nat.leb_spec (nth mid ids 0) key) as [Hk|Hk].
    + apply IH; try lia; [|exact H2]. intros i Hi. destruct (Nat.eq_dec i mid) as [->|]; [exact Hk|].
      pose proof (sorted_nth ids i mid Hs). lia.
    + apply IH; try lia; [exact H1|]. intros i Hi Hi'. destruct (Nat.eq_dec i mid) as [->|]; [exact Hk|].
      pose proof (sorted_nth ids mid i Hs). lia.
Qed.
Lemma split_filter {A} (p : A -> bool) (d : A) l : forall r, r <= length l ->
  (forall i, i < r -> p (nth i l d) = true) -> (forall i, r <= i -> i < length l -> p (nth i l d) = false) -> firstn r l = filter p l.
Proof.
  induction l as [|a l IH]; intros r Hr H1 H2; [destruct r; reflexivity|]. destruct r as [|r]; cbn [firstn filter].
  - pose proof (H2 0 (Nat.le_refl _) (Nat.lt_0_succ _)) as Ha. cbn in Ha. rewrite Ha. rewrite <- (IH 0); [reflexivity| lia| lia|].
    intros i Hi Hl. apply (H2 (S i)); cbn; lia.
  - pose proof (H1 0 (Nat.lt_0_succ _)) as Ha. cbn in Ha. rewrite Ha. f_equal. apply IH; cbn in Hr; [lia| |].
    + intros i Hi. apply (H1 (S i)). lia.
    + intros i Hi Hl. apply (H2 (S i)); cbn; lia.
Qed.
Lemma cut_rows f t : StronglySorted lt (map rw_call (t_rows t)) -> t_rows (cut_table f t) = filter (fun r => Nat.leb (rw_call r) f) (t_rows t).
Proof.
  intro Hs. cbn [cut_table t_rows]. set (ids := map rw_call (t_rows t)) in *. unfold searchsorted_right.
  destruct (bisect_spec ids f Hs (length ids) 0 (length ids)) as [H0 [H1 H2]]; try lia. 
  assert (El : length ids = length (t_rows t)) by (unfold ids; apply map_length).
  assert (En : forall i, i < length (t_rows t) -> nth i ids 0 = rw_call (nth i (t_rows t) (mkRow 0 [] NaN []))).
  { intros i Hi. unfold ids. rewrite (nth_indep _ 0 (rw_call (mkRow 0 [] NaN []))) by (rewrite map_length; exact Hi). apply map_nth. }
  apply (split_filter (fun r => Nat.leb (rw_call r) f) (mkRow 0 [] NaN [])); [lia| |].
  - intros i Hi. apply Nat.leb_le. rewrite <- En by lia. apply H1, Hi.
  - intros i Hi Hi'. apply Nat.leb_gt. rewrite <- En by lia. apply H2; lia.
Qed.
Lemma cut_trimmed f g : (forall t, g_table g = Some t -> StronglySorted lt (map rw_call (t_rows t))) -> trimmed f g (cut_group f g).
Proof.
  intro H. unfold trimmed, cut_group. cbn [g_attrs g_msgs g_table]. splits; auto. destruct (g_table g) as [t|]; cbn [option_map]; [|exact I].
  split; [reflexivity|]. apply cut_rows, H. reflexivity.
Qed.
Lemma nget_cut f o gs i : nget i (filter (fun p => Nat.leb (fst p) o) (map (fun p : nat * group => (fst p, cut_group f (snd p))) gs)) =
  if Nat.leb i o then option_map (cut_group f) (nget i gs) else None.
Proof.
  induction gs as [|[j g] gs IH]; cbn [map filter fst snd dget]; [destruct (Nat.leb i o); reflexivity|].
  destruct (Nat.leb_spec j o) as [Hj|Hj]; cbn [dget].
  - destruct (Nat.eqb_spec i j) as [->|Hne]; [|exact IH]. assert (E : Nat.leb j o = true) by (apply Nat.leb_le, Hj). rewrite E. reflexivity.
  - rewrite IH. destruct (Nat.leb_spec i o) as [Hi|Hi]; [|reflexivity]. destruct (Nat.eqb_spec i j) as [->|Hne]; [lia| reflexivity].
Qed.
Lemma roll_back_spec sum f o h n : h_sum h = sum -> h_count h = Some n -> f < n -> ordered h -> exists h', roll_back sum f o h = Rolled h' /\
  forall i, match nget i (h_groups h), nget i (h_groups h') with
            | Some g, Some g' => i <= o /\ trimmed f g g'
            | Some _, None => o < i
            | None, None => True
            | None, Some _ => False
            end.
Proof.
  intros Hs Hn Hf Ho. unfold roll_back. rewrite Hs, String.eqb_refl, Hn. apply Nat.ltb_lt in Hf. rewrite Hf. eexists. split; [reflexivity|].
  intro i. cbn [h_groups]. rewrite nget_cut. destruct (nget i (h_groups h)) as [g|] eqn:E.
  - destruct (Nat.leb_spec i o) as [Hi|Hi]; cbn [option_map]; [|exact Hi]. split; [exact Hi|]. apply cut_trimmed. intros t Ht.
    eapply Ho; [exact E| exact Ht].
  - cbn [option_map]. destruct (Nat.leb i o); exact I.
Qed.

(** ** Whole runs *)
Lemma positions_cut i h1 h2 ids : positions_of i (h1 ++ h2) ids -> positions_of i h1 (filter (fun k => Nat.leb k (length h1)) ids).
Proof.
  intros [Hs Hp]. split.
  - clear Hp. induction Hs as [|a l Hl IH Ha]; cbn; [constructor|]. destruct (Nat.leb a (length h1)); [|exact IH]. constructor; [exact IH|].
    rewrite Forall_forall in *. intros x Hx. apply filter_In in Hx as [Hx _]. auto.
  - intro k. rewrite filter_In, Hp, Nat.leb_le. split.
    + intros [[r [H1 [H2 H3]]] Hk]. exists r. splits; auto. rewrite nth_error_app1 in H2 by lia. exact H2.
    + intros [r [H1 [H2 H3]]]. assert (k - 1 < length h1) by (apply nth_error_Some; congruence). split; [|lia]. exists r. splits; auto.
      rewrite nth_error_app1 by lia. exact H2.
Qed.
Lemma own_app i h1 h2 : own i (h1 ++ h2) = own i h1 ++ own i h2.
Proof. apply filter_app. Qed.
Lemma positions_number i h : forall ids, positions_of i h ids -> length ids = length (own i h).
Proof.
  induction h as [|r h IH] using rev_ind; intros ids H.
  - destruct ids as [|a ids]; [reflexivity|]. destruct H as [_ H]. destruct (proj1 (H a) (or_introl eq_refl)) as [r [_ [H1 _]]]. destruct (a - 1); discriminate.
  - destruct H as [Hs Hp]. rewrite own_snoc. destruct (Nat.eqb_spec (ir_opt r) i) as [E|E].
    + assert (Hlast : In (S (length h)) ids).
      { apply Hp. exists r. splits; [lia| |exact E]. rewrite nth_error_app2 by lia. replace (S (length h) - 1 - length h) with 0 by lia. reflexivity. }
      assert (Hc : positions_of i h (filter (fun k => Nat.leb k (length h)) ids)) by (apply (positions_cut i h [r] ids); split; assumption).
      rewrite app_length. cbn. rewrite <- (IH _ Hc).
      assert (Hmax : forall k, In k ids -> k <= S (length h)).
      { intros k Hk. apply Hp in Hk as [r' [_ [Hk _]]]. assert (k - 1 < length (h ++ [r])) by (apply nth_error_Some; congruence). rewrite app_length in *. cbn in *. lia. }
      clear -Hs Hlast Hmax. induction Hs as [|a l Hl IH Ha]; [destruct Hlast|]. cbn [filter]. rewrite Forall_forall in Ha. destruct Hlast as [->|Hlast].
      * assert (l = []) as ->. { destruct l as [|b l]; [reflexivity|]. pose proof (Ha b (or_introl eq_refl)). pose proof (Hmax b (or_intror (or_introl eq_refl))). lia. }
        cbn. assert (E : Nat.leb (S (length h)) (length h) = false) by (apply Nat.leb_gt; lia). cbn in E. rewrite E. reflexivity.
      * assert (E : Nat.leb a (length h) = true) by (apply Nat.leb_le; pose proof (Ha _ Hlast); lia). rewrite E. cbn [length]. rewrite IH; auto. intros; apply Hmax; right; assumption.
    + rewrite app_nil_r. apply IH. split; [exact Hs|]. intro k. rewrite Hp. split; intros [r' [H1 [H2 H3]]]; exists r'; splits; auto.
      * destruct (Nat.lt_ge_cases (k - 1) (length h)) as [L|L]; [rewrite nth_error_app1 in H2 by exact L; exact H2|].
        rewrite nth_error_app2 in H2 by exact L. destruct (k - 1 - length h) as [|q]; cbn in H2; [congruence| destruct q; discriminate].
      * rewrite nth_error_app1; [exact H2|]. apply nth_error_Some. congruence.
Qed.
Lemma filter_map_comm {A B} (f : A -> B) p l : map f (filter (fun a => p (f a)) l) = filter p (map f l).
Proof. induction l as [|a l IH]; cbn; [reflexivity|]. destruct (p (f a)); cbn; rewrite IH; reflexivity. Qed.
Lemma sorted_filter_firstn f l : StronglySorted lt (map rw_call l) -> exists k, filter (fun r => Nat.leb (rw_call r) f) l = firstn k l.
Proof.
  intro H. set (t := mkT [] l). exists (searchsorted_right (map rw_call l) f). symmetry. exact (cut_rows f t H).
Qed.
Lemma rows_cut i h1 h2 rows : rows_of i (h1 ++ h2) rows -> rows_of i h1 (filter (fun r => Nat.leb (rw_call r) (length h1)) rows).
Proof.
  intros [Hp Hr]. assert (Hc := positions_cut _ _ _ _ Hp). assert (Hs := proj1 Hp).
  split; [rewrite (filter_map_comm rw_call (fun k => Nat.leb k (length h1))); exact Hc|].
  destruct (sorted_filter_firstn (length h1) rows Hs) as [k Hk].
  assert (Hl : length (filter (fun r => Nat.leb (rw_call r) (length h1)) rows) = length (own i h1)).
  { rewrite <- (positions_number _ _ _ Hc), <- (filter_map_comm rw_call (fun k => Nat.leb k (length h1))), map_length. reflexivity. }
  rewrite own_app, map_app in Hr. rewrite Hk in Hl |- *.
  set (g := fun r => (rw_x r, rw_fx r, rw_extras r)) in *. rewrite <- (firstn_all (map g (firstn k rows))), map_length, Hl.
  rewrite <- firstn_map, firstn_firstn, Hr.
  assert (Hmin : Nat.min (length (own i h1)) k = length (own i h1)) by (rewrite <- Hl, firstn_length; lia).
  rewrite Hmin. rewrite firstn_app, map_length, Nat.sub_diag. cbn [firstn]. rewrite app_nil_r, <- (map_length (fun r => (ir_x r, ir_fx r, ir_extras r)) (own i h1)). apply firstn_all.
Qed.

Lemma lives_app ops1 : forall d ops2, lives d (ops1 ++ ops2) = match lives d ops1 with Some d1 => lives d1 ops2 | None => None end.
Proof. induction ops1 as [|o ops1 IH]; intros d ops2; cbn; [reflexivity|]. destruct (next d o); [apply IH| reflexivity]. Qed.
Lemma next_grows d o d' i : next d o = Some d' -> nmemd i d = true -> nmemd i d' = true.
Proof.
  assert (Hset : forall j v, nmemd i d = true -> nmemd i (nset j v d) = true).
  { intros j v H. unfold dmem in *. rewrite nget_nset. destruct (Nat.eqb i j); [reflexivity| exact H]. }
  unfold next. intros H Hi. destruct o as [[j ty t|j hd|r|[[|j]|]|j k v|j m]|[[|j]|]];
    repeat match type of H with context [match ?x with _ => _ end] => destruct x eqn:? end; try discriminate; injection H as <-; auto.
  - unfold dmem. rewrite nget_map_closed. rewrite Hi. reflexivity.
  - unfold dmem. rewrite nget_map_closed. rewrite Hi. reflexivity.
Qed.
Lemma lives_grows ops : forall d d' i, lives d ops = Some d' -> nmemd i d = true -> nmemd i d' = true.
Proof.
  induction ops as [|o ops IH]; intros d d' i H Hi; cbn in H; [injection H as <-; exact Hi|].
  destruct (next d o) as [d1|] eqn:E; [|discriminate]. eapply IH; [exact H|]. eapply next_grows; eassumption.
Qed.

Lemma close_FI sz ops d h s0 : FI d h s0 -> lives d ops <> None -> let s := fexec sz ops s0 in
  exists d' s', lives d ops = Some d' /\ f_close s = (Ok tt, s') /\ FI d' (h ++ evals (erase ops)) s' /\
  (forall i, In i (dkeys (f_chunk s')) -> nget i (f_chunk s') = Some []).
Proof.
  intros H0 Hl s. destruct (lives d ops) as [d'|] eqn:El; [|congruence]. exists d'. destruct (FI_exec sz ops d h s0 d' H0 El) as [HFI _]. fold s in HFI.
  unfold f_close, bind, modify, f_flush. set (s1 := fset_root _ s).
  assert (HFI1 : FI d' (h ++ evals (erase ops)) s1) by (destruct HFI as [Hk Ho Hc Ha Hall Hnd]; split; auto).
  destruct (FI_flush_all d' _ (dkeys (f_chunk s1)) s1 HFI1) as [s' [E [HFI' [_ [Hk' [Hc' _]]]]]]; auto; [apply HFI1|].
  exists s'. splits; auto. intros i Hi. apply Hc'. rewrite <- Hk'. exact Hi.
Qed.
Lemma flush_FI d h s : FI d h s -> exists s', f_flush None s = (Ok tt, s') /\ FI d h s' /\
  (forall i, In i (dkeys (f_chunk s')) -> nget i (f_chunk s') = Some []).
Proof.
  intro H. destruct (FI_flush_all d h (dkeys (f_chunk s)) s H) as [s' [E [HFI' [_ [Hk' [Hc' _]]]]]]; auto; [apply H|].
  exists s'. splits; auto. intros i Hi. apply Hc'. rewrite <- Hk'. exact Hi.
Qed.
(** With nothing pending the rows of an optimizer are those of its table. *)
Lemma FI_rows d h s i : FI d h s -> (forall i, In i (dkeys (f_chunk s)) -> nget i (f_chunk s) = Some []) -> nmemd i d = true ->
  exists g, nget i (f_groups s) = Some g /\ rows_of i h (rows_in i (f_groups s)).
Proof.
  intros [Hk Ho Hc Ha Hall Hnd] He Hm. specialize (Hall i). unfold dmem in Hm. destruct (nget i d) as [st|] eqn:Est; [|discriminate].
  destruct Hall as [Hi0 [Hb [g [Hg Hrest]]]]. exists g. split; [exact Hg|]. unfold rows_in. rewrite Hg. destruct st as [|n|].
  - destruct Hrest as [-> [_ [Hr _]]]. exact Hr.
  - destruct Hrest as [t [pend [-> [_ [Hp [_ [Hr _]]]]]]].
    assert (Hin : In i (dkeys (f_chunk s))) by (apply nget_some_in; eauto). rewrite (He i Hin) in Hp. injection Hp as <-. rewrite app_nil_r in Hr. exact Hr.
  - destruct Hrest as [_ [Hr _]]. exact Hr.
Qed.
Lemma FI_members d h s i : FI d h s -> nmemd i (f_groups s) = nmemd i d.
Proof.
  intros [Hk Ho Hc Ha Hall Hnd]. specialize (Hall i). unfold dmem. destruct (nget i d) as [st|].
  - destruct Hall as [_ [_ [g [-> _]]]]. reflexivity.
  - destruct Hall as [-> _]. reflexivity.
Qed.
Lemma FI_range d h s i : FI d h s -> nmemd i d = true <-> 0 < i <= length d.
Proof. intros H. apply nget_range. apply H. Qed.
Lemma FI_ordered d h s sum : FI d h s -> (forall i, In i (dkeys (f_chunk s)) -> nget i (f_chunk s) = Some []) -> ordered (closed_file sum s).
Proof.
  intros H He i g t Hg Ht. cbn [h_groups closed_file] in Hg.
  assert (Hm : nmemd i d = true) by (rewrite <- (FI_members d h s i H); unfold dmem; rewrite Hg; reflexivity).
  destruct (FI_rows d h s i H He Hm) as [g' [Hg' [[Hs _] _]]]. unfold rows_in in Hs. rewrite Hg, Ht in Hs. exact Hs.
Qed.

(** A run to the checkpoint and beyond, closed; then rolled back. *)
Lemma rolled_rows sz sum traj ops1 ops2 d1 d : lives [] ops1 = Some d1 -> lives d1 ops2 = Some d -> evals (erase ops2) <> [] ->
  exists s' h', f_close (fexec sz (ops1 ++ ops2) (flog_init traj)) = (Ok tt, s') /\
  roll_back sum (length (evals (erase ops1))) (length d1) (closed_file sum s') = Rolled h' /\
  forall i, nmemd i (h_groups h') = nmemd i d1 /\ (nmemd i d1 = true -> rows_of i (evals (erase ops1)) (rows_in i (h_groups h'))) /\
    (forall g', nget i (h_groups h') = Some g' -> exists g, nget i (f_groups s') = Some g /\ trimmed (length (evals (erase ops1))) g g').
Proof.
  intros H1 H2 Hne. assert (Hl : lives [] (ops1 ++ ops2) = Some d) by (rewrite lives_app, H1; exact H2).
  destruct (close_FI sz (ops1 ++ ops2) [] [] (flog_init traj) (FI_init traj)) as [d' [s' [E1 [E2 [HFI He]]]]]; [congruence|].
  rewrite Hl in E1. injection E1 as <-. cbn [app] in HFI. rewrite erase_app, evals_app in HFI.
  destruct (FI_exec sz ops1 [] [] (flog_init traj) d1 (FI_init traj) H1) as [HFI1 _].
  destruct (roll_back_spec sum (length (evals (erase ops1))) (length d1) (closed_file sum s') (l_count (f_base s'))) as [h' [Hr Hi]]; auto.
  { rewrite (FI_cnt _ _ _ HFI), app_length. destruct (evals (erase ops2)); [congruence| cbn; lia]. }
  { eapply FI_ordered; eassumption. }
  exists s', h'. splits; auto. intro i. specialize (Hi i). cbn [closed_file h_groups] in Hi.
  pose proof (FI_members _ _ _ i HFI) as Hm. pose proof (FI_range _ _ _ i HFI) as Hr1. pose proof (FI_range _ _ _ i HFI1) as Hr2.
  assert (Hm' : nmemd i (h_groups h') = nmemd i d1).
  { apply Bool.eq_true_iff_eq. rewrite Hr2. unfold dmem in *. destruct (nget i (f_groups s')) as [g|], (nget i (h_groups h')) as [g'|]; try (destruct Hi; fail).
    - split; [|auto]. intros _. symmetry in Hm. apply Hr1 in Hm. lia.
    - split; [discriminate|]. lia.
    - split; [discriminate|]. intro Hd. exfalso. apply Hr2 in Hd. pose proof (lives_grows ops2 d1 d i H2 Hd) as Hg. unfold dmem in Hg. destruct (nget i d); discriminate. }
  splits; [exact Hm'| |].
  - intro Hd. rewrite Hd in Hm'. unfold dmem in Hm'. destruct (nget i (h_groups h')) as [g'|] eqn:Eg'; [|discriminate].
    destruct (FI_rows _ _ _ i HFI He (lives_grows ops2 d1 d i H2 Hd)) as [g [Hg Hrows]]. rewrite Hg in Hi. destruct Hi as [Hle [_ [_ Ht]]].
    unfold rows_in in *. rewrite Hg in Hrows. rewrite Eg'. apply rows_cut in Hrows.
    destruct (g_table g) as [t|], (g_table g') as [t'|]; try (destruct Ht; fail); [destruct Ht as [_ ->]; exact Hrows| exact Hrows].
  - intros g' Hg'. rewrite Hg' in Hi. destruct (nget i (f_groups s')) as [g|]; [|destruct Hi]. exists g. split; [reflexivity| apply Hi].
Qed.

(** ** Tables keep their headers; tables are only made by add_iter_history *)
Definition kept (s s' : flogger) : Prop := forall i g, nget i (f_groups s) = Some g -> exists g', nget i (f_groups s') = Some g' /\
  forall t, g_table g = Some t -> exists t', g_table g' = Some t' /\ t_hdrs t' = t_hdrs t.
Definition tableless (i : nat) (s : flogger) : Prop := forall g, nget i (f_groups s) = Some g -> g_table g = None.
Lemma kept_refl s : kept s s.
Proof. intros i g H. exists g. split; [exact H|]. eauto. Qed.
Lemma kept_trans a b c : kept a b -> kept b c -> kept a c.
Proof.
  intros H1 H2 i g Hg. destruct (H1 i g Hg) as [g1 [Hg1 Ht1]]. destruct (H2 i g1 Hg1) as [g2 [Hg2 Ht2]]. exists g2. split; [exact Hg2|].
  intros t Ht. destruct (Ht1 t Ht) as [t1 [E1 E2]]. destruct (Ht2 t1 E1) as [t2 [E3 E4]]. exists t2. split; [exact E3| congruence].
Qed.
(** What an operation does to the nodes. *)
Definition gentle (only : nat -> Prop) (s s' : flogger) : Prop := kept s s' /\ forall i, ~ only i -> tableless i s -> tableless i s'.
Lemma gentle_refl P s : gentle P s s.
Proof. split; [apply kept_refl| auto]. Qed.
Lemma gentle_trans P a b c : gentle P a b -> gentle P b c -> gentle P a c.
Proof. intros [H1 H2] [H3 H4]. split; [eapply kept_trans; eassumption| auto]. Qed.
Lemma gentle_same P s s' : f_groups s' = f_groups s -> gentle P s s'.
Proof. intro E. split; [intros i g Hg; exists g; rewrite E; split; eauto| intros i _ H g; rewrite E; apply H]. Qed.
Lemma gentle_set P s s' i g g' : nget i (f_groups s) = Some g -> f_groups s' = nset i g' (f_groups s) ->
  (forall t, g_table g = Some t -> exists t', g_table g' = Some t' /\ t_hdrs t' = t_hdrs t) -> (P i \/ (g_table g = None -> g_table g' = None)) -> gentle P s s'.
Proof.
  intros Hg E H1 H2. split.
  - intros j g0 Hj. rewrite E, nget_nset. destruct (Nat.eqb_spec j i) as [->|]; [|exists g0; split; eauto].
    rewrite Hg in Hj. injection Hj as <-. eauto.
  - intros j HP Ht g0. rewrite E, nget_nset. destruct (Nat.eqb_spec j i) as [->|]; [|apply Ht]. intros [= <-]. destruct H2 as [H2|H2]; [tauto|]. apply H2, Ht, Hg.
Qed.
Definition mild (only : nat -> Prop) {A} (m : M flogger A) : Prop := forall s, gentle only s (snd (m s)).
Lemma mild_bind P {A B} (m : M flogger A) (f : A -> M flogger B) : mild P m -> (forall a, mild P (f a)) -> mild P (bind m f).
Proof.
  intros H1 H2 s. unfold bind. specialize (H1 s). destruct (m s) as [[a|e] s1]; cbn in *; [|exact H1]. eapply gentle_trans; [exact H1|]. apply H2.
Qed.
Lemma mild_base P {A} (m : M logger A) : mild P (on_base m).
Proof. intro s. unfold on_base. destruct (m (f_base s)). cbn. apply gentle_same. reflexivity. Qed.
Lemma mild_for_each P {A} (l : list A) f : (forall a, mild P (f a)) -> mild P (for_each l f).
Proof. intro H. induction l as [|a l IH]; cbn [for_each]; [intro s; apply gentle_refl|]. apply mild_bind; [apply H| intros _; exact IH]. Qed.
Lemma mild_meta P i k v : mild P (f_put_metadata i k v).
Proof.
  unfold f_put_metadata. apply mild_bind.
  - intro s. unfold swallow_key, try_except, on_base. destruct (put_metadata i k v (f_base s)) as [[a|e] b]; cbn; [apply gentle_same; reflexivity|].
    destruct e; cbn; apply gentle_same; reflexivity.
  - intros _ s. destruct (nget i (f_groups s)) as [g|] eqn:E; cbn; [|apply gentle_refl]. eapply gentle_set; [exact E| reflexivity| cbn; eauto| cbn; auto].
Qed.
Lemma mild_flush_one P i : mild P (flush_one i).
Proof.
  intro s. unfold flush_one. destruct (nget i (f_chunk s)) as [[|r rows]|]; try apply gentle_refl.
  destruct (nget i (l_bests (f_base s))); [|apply gentle_refl]. apply (mild_bind P (f_put_metadata i "best_iter" "")); [apply mild_meta|].
  intros _ s1. destruct (nget i (f_groups s1)) as [g|] eqn:E; [|apply gentle_refl]. destruct (g_table g) as [t|] eqn:Et; [|apply gentle_refl].
  match goal with |- context [forallb ?f ?l] => destruct (forallb f l) end; [|apply gentle_refl].
  eapply gentle_set; [exact E| reflexivity| |right; congruence]. intros t0 Ht0. eexists. split; [reflexivity|]. cbn. congruence.
Qed.
Lemma mild_flush P i : mild P (f_flush i).
Proof.
  destruct i as [[|i]|]; cbn [f_flush]; [|apply mild_flush_one|]; intro s; apply mild_for_each; intro; apply mild_flush_one.
Qed.
Lemma mild_clear_one P i : mild P (clear_one i).
Proof.
  unfold clear_one. apply mild_bind.
  - intro s. destruct (nmemd i (f_chunk s)); [|apply gentle_refl]. apply (mild_bind P (flush_one i)); [apply mild_flush_one|]. intros _ s1. apply gentle_same. reflexivity.
  - intros _ s. destruct (nmemd i (l_store (f_base s))); [apply mild_base| apply gentle_refl].
Qed.
Lemma fstep_gentle sz o : mild (fun i => exists hd, o = FOp (AddHist i hd)) (fstep sz o).
Proof.
  destruct o as [[j ty t|j hd|r|j|j k v|j m]|j]; cbn [fstep].
  - apply mild_bind; [apply mild_base|]. intros _ s. destruct (nmemd j (f_groups s)) eqn:E; [apply gentle_refl|]. cbn [snd].
    assert (En : nget j (f_groups s) = None) by (unfold dmem in E; destruct (nget j (f_groups s)); [discriminate| reflexivity]). split.
    + intros i g Hg. cbn. rewrite nget_nset. destruct (Nat.eqb_spec i j) as [->|]; [congruence|]. exists g. split; eauto.
    + intros i _ Ht g. cbn. rewrite nget_nset. destruct (Nat.eqb_spec i j) as [->|]; [|apply Ht]. intros [= <-]. reflexivity.
  - apply mild_bind; [apply mild_base|]. intros _ s. destruct (nget j (f_groups s)) as [g|] eqn:E; [|apply gentle_refl].
    destruct (g_table g) as [t|] eqn:Et; [apply gentle_refl|]. eapply gentle_set; [exact E| reflexivity| intros t Ht; congruence| left; eauto].
  - unfold f_put_iteration. apply mild_bind.
    { intro s. unfold swallow_key, try_except, on_base. destruct (put_iteration r (f_base s)) as [[a|e] b]; cbn; [apply gentle_same; reflexivity|].
      destruct e; cbn; apply gentle_same; reflexivity. }
    intros _. apply mild_bind; [intro s; unfold modify; cbn; destruct (N.eqb _ _); apply gentle_same; reflexivity|]. intros _. apply mild_bind.
    + intro s. destruct (nget (ir_opt r) (f_chunk s)); [apply gentle_same; reflexivity| apply gentle_refl].
    + intros _ s. destruct (N.ltb _ _); [apply mild_flush| apply gentle_refl].
  - unfold f_clear_cache. destruct j as [[|j]|]; [|apply mild_clear_one|]; intro s; apply mild_for_each; intro; apply mild_clear_one.
  - apply mild_meta.
  - apply mild_bind; [apply mild_base|]. intros _ s. destruct (nget j (f_groups s)) as [g|] eqn:E; [|apply gentle_refl].
    eapply gentle_set; [exact E| reflexivity| cbn; eauto| cbn; auto].
  - apply mild_flush.
Qed.
Lemma fexec_kept sz ops : forall s, kept s (fexec sz ops s).
Proof. induction ops as [|o ops IH]; intro s; [apply kept_refl|]. eapply kept_trans; [apply (fstep_gentle sz o)| apply IH]. Qed.
Lemma next_closed d o d' i : next d o = Some d' -> i <= length d -> nget i d = Some Closed ->
  nget i d' = Some Closed /\ forall hd, o <> FOp (AddHist i hd).
Proof.
  unfold next. intros H Hle Hi. split.
  - destruct o as [[j ty t|j hd|r|[[|j]|]|j k v|j m]|[[|j]|]];
      repeat match type of H with context [match ?x with _ => _ end] => destruct x eqn:? end; try discriminate; injection H as <-; auto;
      try (rewrite nget_nset; destruct (Nat.eqb_spec i (S j)); auto; fail); try (rewrite nget_map_closed; unfold dmem; rewrite Hi; reflexivity).
    + rewrite nget_nset. destruct (Nat.eqb_spec i j) as [->|]; [|exact Hi]. exfalso. apply Nat.eqb_eq in Heqb. lia.
    + rewrite nget_nset. destruct (Nat.eqb_spec i j) as [->|]; [congruence| exact Hi].
  - intros hd ->. rewrite Hi in H. discriminate.
Qed.
Lemma closed_tableless sz ops i : forall d h s d', FI d h s -> lives d ops = Some d' -> nget i d = Some Closed -> tableless i s -> tableless i (fexec sz ops s).
Proof.
  induction ops as [|o ops IH]; intros d h s d' H Hl Hi Ht; [exact Ht|]. cbn [lives] in Hl. destruct (next d o) as [d1|] eqn:En; [|discriminate].
  destruct (FI_step sz d h s o d1 H En) as [s1 [E H1]]. change (fexec sz (o :: ops) s) with (fexec sz ops (snd (fstep sz o s))).
  assert (Hr : i <= length d) by (apply (FI_range d h s i H); unfold dmem; rewrite Hi; reflexivity).
  destruct (next_closed d o d1 i En Hr Hi) as [Hi1 Hno]. pose proof (fstep_gentle sz o s) as Hg. rewrite E in *. cbn [snd] in *.
  eapply IH; try eassumption. apply Hg; [|exact Ht]. intros [hd Ehd]. exact (Hno hd Ehd).
Qed.
Lemma mild_close P : mild P f_close.
Proof. apply mild_bind; [intro s; apply gentle_same; reflexivity| intros _; apply mild_flush]. Qed.
Lemma fexec_app sz a b s : fexec sz (a ++ b) s = fexec sz b (fexec sz a s).
Proof. apply fold_left_app. Qed.

(** The log of the resumed run again satisfies the invariant of the log. *)
Lemma resumed_FI sz sum traj ops1 ops2 d1 d :
  let pre := ops1 ++ [FFlush None] in
  lives [] pre = Some d1 -> lives d1 ops2 = Some d -> evals (erase ops2) <> [] ->
  let s1 := fexec sz pre (flog_init traj) in
  exists s' h', f_close (fexec sz ops2 s1) = (Ok tt, s') /\
  roll_back sum (length (evals (erase ops1))) (length d1) (closed_file sum s') = Rolled h' /\
  ((forall i, nget i d1 = Some Ready -> f_table i s' = None) -> FI d1 (evals (erase ops1)) (resumed s1 h')).
Proof.
  intros pre H1 H2 Hne s1. assert (Ev : evals (erase pre) = evals (erase ops1)) by (unfold pre; rewrite erase_app, evals_app; cbn; apply app_nil_r).
  destruct (rolled_rows sz sum traj pre ops2 d1 d H1 H2 Hne) as [s' [h' [E1 [E2 Hi]]]]. rewrite fexec_app in E1. fold s1 in E1. rewrite Ev in *.
  exists s', h'. splits; auto. intro Hready.
  destruct (FI_exec sz pre [] [] (flog_init traj) d1 (FI_init traj) H1) as [HFI1 _]. fold s1 in HFI1. cbn [app] in HFI1. rewrite Ev in HFI1.
  assert (Hempty : forall i, In i (dkeys (f_chunk s1)) -> nget i (f_chunk s1) = Some []).
  { assert (Hl1 : lives [] ops1 = Some d1).
    { unfold pre in H1. rewrite lives_app in H1. destruct (lives [] ops1); [|discriminate]. exact H1. }
    destruct (FI_exec sz ops1 [] [] (flog_init traj) d1 (FI_init traj) Hl1) as [HFI0 _]. destruct (flush_FI _ _ _ HFI0) as [s2 [Es2 [_ He]]].
    assert (s1 = s2) as ->; [|exact He]. unfold s1, pre. rewrite fexec_app. cbn [fexec fold_left fstep]. rewrite Es2. reflexivity. }
  assert (Hkept : kept s1 s').
  { eapply kept_trans; [apply (fexec_kept sz ops2 s1)|]. pose proof (mild_close (fun _ => False) (fexec sz ops2 s1)) as Hc. rewrite E1 in Hc. apply Hc. }
  assert (Hless : forall i, nget i d1 = Some Closed -> tableless i s1 -> tableless i s').
  { intros i Hc Ht. pose proof (mild_close (fun _ => False) (fexec sz ops2 s1)) as Hg. rewrite E1 in Hg. apply Hg; [auto|]. eapply closed_tableless; eassumption. }
  destruct HFI1 as [Hk Ho Hc Ha Hall Hnd]. split; auto. intro i. specialize (Hall i). destruct (Hi i) as [Hm [Hrows Hg]].
  unfold assn in *. unfold resumed. cbn [f_groups f_chunk f_base fset_groups] in *. destruct (nget i d1) as [st|] eqn:Est.
  2:{ destruct Hall as [_ [Hc0 Hr0]]. splits; auto. unfold dmem in Hm. rewrite Est in Hm. destruct (nget i (h_groups h')); [discriminate| reflexivity]. }
  assert (Hm1 : nmemd i d1 = true) by (unfold dmem; rewrite Est; reflexivity). specialize (Hrows Hm1). rewrite Hm1 in Hm.
  unfold dmem in Hm. unfold rows_in in Hrows. destruct (nget i (h_groups h')) as [g'|] eqn:Eg'; [|discriminate].
  destruct (Hg g' eq_refl) as [g [Egs [Ha' [Hm' Ht']]]]. destruct Hall as [Hi0 [Hb [g1 [Hg1 Hrest]]]]. destruct (Hkept i g1 Hg1) as [gx [Egx Hkt]]. rewrite Egs in Egx. injection Egx as <-.
  splits; auto. exists g'. split; [reflexivity|]. destruct st as [|n|].
  - destruct Hrest as [Hn [Hch [Hr He]]]. splits; auto. specialize (Hready i Est). unfold f_table in Hready. rewrite Egs in Hready. rewrite Hready in Ht'.
    destruct (g_table g'); [destruct Ht'| reflexivity].
  - destruct Hrest as [t [pend [Ht [Hl [Hch [Hf [Hr He]]]]]]].
    assert (Hin : In i (dkeys (f_chunk s1))) by (apply nget_some_in; eauto). rewrite (Hempty i Hin) in Hch. injection Hch as <-.
    destruct (Hkt t Ht) as [t2 [Et2 Eh2]]. rewrite Et2 in Ht'. destruct (g_table g') as [t'|]; [|destruct Ht']. destruct Ht' as [Eh' _].
    exists t', []. splits; auto. + congruence. + rewrite app_nil_r. exact Hrows.
  - destruct Hrest as [Hch [Hr He]]. splits; auto. intros e Hne'. specialize (He e Hne').
    destruct (g_table g1) as [t1|] eqn:Et1.
    + destruct (Hkt t1 eq_refl) as [t2 [Et2 _]]. rewrite Et2 in Ht'. destruct (g_table g'); [exact He| destruct Ht'].
    + assert (Hls : tableless i s1) by (intros gy Hy; rewrite Hg1 in Hy; injection Hy as <-; exact Et1).
      specialize (Hless i Est Hls g Egs). rewrite Hless in Ht'. destruct (g_table g'); [destruct Ht'| exact He].
Qed.
Lemma resumed_run sz sum traj ops1 ops2 ops3 d1 d d3 :
  let pre := ops1 ++ [FFlush None] in
  lives [] pre = Some d1 -> lives d1 ops2 = Some d -> evals (erase ops2) <> [] -> lives d1 ops3 = Some d3 ->
  let s1 := fexec sz pre (flog_init traj) in
  exists s' h', f_close (fexec sz ops2 s1) = (Ok tt, s') /\
  roll_back sum (length (evals (erase ops1))) (length d1) (closed_file sum s') = Rolled h' /\
  ((forall i, nget i d1 = Some Ready -> f_table i s' = None) ->
   all_ok sz ops3 (resumed s1 h') /\
   exists s3, f_close (fexec sz ops3 (resumed s1 h')) = (Ok tt, s3) /\
   forall i, nmemd i d3 = true -> rows_of i (evals (erase (ops1 ++ ops3))) (rows_in i (f_groups s3))).
Proof.
  intros pre H1 H2 Hne H3 s1. destruct (resumed_FI sz sum traj ops1 ops2 d1 d H1 H2 Hne) as [s' [h' [E1 [E2 HF]]]].
  exists s', h'. splits; auto. intro Hr. specialize (HF Hr). destruct (FI_exec sz ops3 _ _ _ d3 HF H3) as [_ Hok]. split; [exact Hok|].
  destruct (close_FI sz ops3 _ _ _ HF) as [d3' [s3 [E3 [E4 [HF3 He]]]]]; [congruence|]. rewrite H3 in E3. injection E3 as <-.
  exists s3. split; [exact E4|]. intros i Hi. rewrite erase_app, evals_app. destruct (FI_rows _ _ _ i HF3 He Hi) as [g [_ H]]. exact H.
Qed.
