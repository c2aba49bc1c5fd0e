(** * Runs over several sessions: proofs *)
From Verif Require Import Prelude Prelude_Proofs Logger_Model Logger_Spec Logger_Proofs Manager_Model Manager_Spec Manager_Proofs
  Manager_Trace Manager_Props Restart_Model Restart_Proofs Restart_Props Resumed_Model Due_Spec Due_Proofs Resumed_Spec.

(** ** The log determines the best evaluation *)
Lemma first_best_unique h sel o x fx c o' x' fx' c' : first_best h sel o x fx c -> first_best h sel o' x' fx' c' ->
  c = c' /\ x = x' /\ fx = fx' /\ (c <> 0 -> o = o').
Proof.
  intros H1 H2. pose proof (first_best_not_nan _ _ _ _ _ _ H1) as N1. pose proof (first_best_not_nan _ _ _ _ _ _ H2) as N2.
  destruct H1 as [(-> & -> & -> & A)|(r & A1 & A2 & A3 & A4 & A5 & A6 & A7 & A8 & A9)];
  destruct H2 as [(-> & -> & -> & B)|(r' & B1 & B2 & B3 & B4 & B5 & B6 & B7 & B8 & B9)].
  - splits; auto. congruence.
  - specialize (A r' (nth_error_In _ _ B2) B3). congruence.
  - specialize (B r (nth_error_In _ _ A2) A3). congruence.
  - assert (K : c = c').
    { destruct (Nat.lt_trichotomy c c') as [K|[K|K]]; [|exact K|]; exfalso.
      - pose proof (B9 (c - 1) r ltac:(lia) A2 A3) as F. pose proof (A8 r' (nth_error_In _ _ B2) B3) as G.
        rewrite A6 in F. rewrite B6 in G. rewrite (nlt_false_nle _ _ N2 N1 G) in F. discriminate.
      - pose proof (A9 (c' - 1) r' ltac:(lia) B2 B3) as F. pose proof (B8 r (nth_error_In _ _ A2) A3) as G.
        rewrite B6 in F. rewrite A6 in G. rewrite (nlt_false_nle _ _ N1 N2 G) in F. discriminate. }
    subst c'. rewrite A2 in B2. injection B2 as <-. subst. auto.
Qed.

Lemma best_determined reg h s t : NoDup (map fst reg) -> Inv reg h s -> Inv reg h t -> get_best_iter None s = get_best_iter None t.
Proof.
  intros Hn Hs Ht. destruct (Inv_best _ _ _ Hs) as (b & E & F & Z & N). destruct (Inv_best _ _ _ Ht) as (b' & E' & F' & Z' & N').
  rewrite E, E'. f_equal. destruct (first_best_unique _ _ _ _ _ _ _ _ _ _ F F') as (K1 & K2 & K3 & K4).
  destruct (Nat.eq_dec (b_call b) 0) as [D|D]; [rewrite (Z D), (Z' ltac:(congruence)); reflexivity|].
  specialize (N D). specialize (N' ltac:(congruence)). specialize (K4 D). rewrite <- K4 in N'.
  assert (Ty : b_type b = b_type b').
  { clear - Hn N N'. induction reg as [|[i ty] reg IH]; [destruct N|]. inversion Hn; subst. cbn in N, N'.
    destruct N as [N|N], N' as [N'|N']; [congruence| | |auto].
    - injection N as -> _. exfalso. apply H1. exact (in_map fst _ _ N').
    - injection N' as -> _. exfalso. apply H1. exact (in_map fst _ _ N). }
  destruct b, b'; cbn in *; congruence.
Qed.

(** ** Histories *)
Lemma setups_app h1 h2 : setups (h1 ++ h2) = setups h2 ++ setups h1.
Proof.
  induction h1 as [|[c e] h1 IH]; [symmetry; apply app_nil_r|]. cbn [app].
  destruct e; cbn; rewrite IH; auto using app_assoc_reverse.
Qed.
Lemma starts_app h1 h2 : starts (h1 ++ h2) = starts h2 ++ starts h1.
Proof.
  induction h1 as [|[c e] h1 IH]; [symmetry; apply app_nil_r|]. cbn [app].
  destruct e; cbn; rewrite IH; auto using app_assoc_reverse.
Qed.

(** What held when an event was recorded, in whatever session. *)
Definition good (h : hist) : Prop :=
  snaps (fun c e h => e = EvLoad \/ exists g w, MInv g w (mkMS c h) /\ snap_ok g w c e h) h.

Lemma good_step g w l s s' : mstep g w l s s' -> MInv g w s -> good (st_hist s) -> good (st_hist s').
Proof.
  intros Hst HI HG. pose proof (MInv_step g w _ _ _ Hst HI) as HI'.
  destruct (step_session g w _ _ _ Hst) as [E|[e [He E]]]; rewrite E; [exact HG|]. split; [|exact HG].
  right. exists g, w. split; [destruct s; exact HI|]. apply (snaps_now_split (snap_ok g w) [] (st_core s) e (st_hist s) He); [intros []|].
  cbn [app]. rewrite <- E. apply (m_snap _ _ _ HI').
Qed.

Lemma good_star g w L s s' : star g w L s s' -> MInv g w s -> good (st_hist s) -> MInv g w s' /\ good (st_hist s').
Proof.
  intro H. induction H as [|l s s1 s2 Hl Hst _ IH]; intros HI HG; [auto|]. apply IH; [eapply MInv_step| eapply good_step]; eauto.
Qed.

Lemma nearest (ha hb ha' hb' : hist) cl cl' : ha ++ (cl, EvSaveLog) :: hb = ha' ++ (cl', EvSaveLog) :: hb' ->
  ~ In EvSaveLog (map snd ha) -> exists hm, ha' = ha ++ hm.
Proof.
  revert ha'. induction ha as [|p ha IH]; intros ha' E Hn; [exists ha'; reflexivity|].
  destruct ha' as [|p' ha']; cbn in E.
  - injection E as -> _. exfalso. apply Hn. left. reflexivity.
  - injection E as -> E. destruct (IH ha' E) as [hm ->]; [intro H; apply Hn; right; exact H|]. exists hm. reflexivity.
Qed.

Lemma last_hist h ha p (hb : hist) : h = ha ++ p :: hb -> exists hs, h = hs /\ In p hs.
Proof. intros ->. eexists. split; [reflexivity|]. apply in_app_iff. right. left. reflexivity. Qed.

(** ** The loaded state *)
Lemma living_dormant packs : sum_nat (map (fun p : nat * child => if c_alive (snd p) then c_slots (snd p) else 0) (map dormant packs)) = 0.
Proof. induction packs; cbn; auto. Qed.
Lemma slots_dormant packs : sum_nat (map (fun p : nat * child => c_slots (snd p)) (map dormant packs)) = sum_nat (map snd packs).
Proof. induction packs as [|p l IH]; cbn; auto. Qed.
Lemma keys_dormant packs : dkeys (map dormant packs) = map fst packs.
Proof. unfold dkeys. rewrite map_map. reflexivity. Qed.
Lemma nget_dormant i h packs : nget i (map dormant packs) = Some h -> c_alive h = false.
Proof. induction packs as [|p l IH]; cbn; [discriminate|]. destruct (Nat.eqb i (fst p)); [intros [= <-]; reflexivity| exact IH]. Qed.

Lemma restarts_keys found h : forall saved, restarts found h = Ok saved -> map fst saved = found.
Proof.
  induction found as [|i l IH]; intros saved H; cbn in H; [injection H as <-; reflexivity|].
  destruct (declared i h); [|discriminate]. destruct (restarts l h) as [r|]; [|discriminate]. injection H as <-. cbn. f_equal. auto.
Qed.

Lemma load_ok g k builds conv c : load g k builds conv = Ok c ->
  exists packs, c = loaded (ck_core k) (ck_log k) packs conv /\ map fst packs = filter builds (ck_found k) /\
                sum_nat (map snd packs) <= g_max_jobs g.
Proof.
  unfold load. destruct (restarts (ck_found k) (ck_hist k)) as [saved|] eqn:E; [|discriminate].
  pose proof (C39_rebuilt (g_max_jobs g) saved builds) as H. destruct (rebuild (g_max_jobs g) saved builds) as [packs|]; [|discriminate].
  intros [= <-]. destruct H as (H1 & H2 & _). exists packs. rewrite (restarts_keys _ _ _ E) in H2. auto.
Qed.

Lemma loaded_inv g w s k c builds conv :
  good (st_hist s) -> written s k [] -> load g k builds conv = Ok c ->
  MInv g w (begin k c) /\ good (st_hist (begin k c)) /\ idle g w (st_hist (begin k c)) (begin k c).
Proof.
  intros HG (h1 & ha & cl & hb & E1 & E2 & Hnear & Hlog & Hlate & Hnd & Hfound) Hload.
  destruct (load_ok _ _ _ _ _ Hload) as (packs & -> & Hkeys & Hsum). clear Hload.
  destruct k as [cs lg found h2]. cbn [ck_core ck_log ck_found ck_hist] in *. unfold begin. cbn [ck_core ck_hist st_hist].
  assert (HG2 : good ((cs, EvSaveManager) :: h2)).
  { rewrite E1 in HG. clear - HG. induction h1 as [|[c0 e0] h1 IH]; [exact HG|]. apply IH. apply HG. }
  destruct HG2 as [[HX|(g0 & w0 & HI & HS)] HG2]; [discriminate|].
  assert (HGl : good (ha ++ (cl, EvSaveLog) :: hb)) by (rewrite <- E2; exact HG2).
  pose proof (snaps_split _ ha cl EvSaveLog hb HGl) as HL. destruct HL as [HX|(g1 & w1 & HIl & HSl)]; [discriminate|].
  destruct HS as (S1 & S2 & S3 & S4 & Hw). destruct (S4 eq_refl) as (S5 & S6 & S7).
  destruct Hw as (Hex & ha' & cl' & hb' & E3 & W1 & W2 & W3).
  assert (Hq : setups ha = [] /\ starts ha = []).
  { rewrite E2 in E3. destruct (nearest _ _ _ _ _ _ E3 Hnear) as [hm ->]. rewrite setups_app in W1. rewrite starts_app in W2.
    apply app_eq_nil in W1 as [_ W1]. apply app_eq_nil in W2 as [_ W2]. auto. }
  destruct Hq as [Q1 Q2].
  assert (X1 : setups h2 = setups hb) by (rewrite E2, setups_app, Q1; cbn; apply app_nil_r).
  assert (X3 : accepted h2 = accepted hb) by (rewrite E2, accepted_app, <- Hlate; cbn; apply app_nil_r).
  pose proof (m_id _ _ _ HI) as HId. pose proof (m_log _ _ _ HI) as HLog. pose proof (m_log _ _ _ HIl) as HLogl. cbn [st_hist st_core] in *.
  assert (Hreg : NoDup (map fst (rev (setups h2)))).
  { rewrite map_rev. apply NoDup_rev. pose proof (id_setups _ _ _ HId) as Hse. cbn [st_hist] in Hse. rewrite Hse. apply seq_NoDup. }
  assert (HInv : Inv (rev (setups h2)) (accepted h2) lg).
  { rewrite X1, X3, Hlog. exact (lv_log _ HLogl). }
  assert (Hbest : get_best_iter None lg = get_best_iter None (k_log cs)).
  { apply (best_determined _ _ _ _ Hreg HInv). exact (lv_log _ HLog). }
  set (c0 := loaded cs lg packs conv).
  assert (Hids : forall i, In i (map fst packs) -> 1 <= i <= length (setups h2)).
  { intros i Hi. rewrite Hkeys in Hi. apply filter_In in Hi as [Hi _]. apply Hfound in Hi. apply in_map_iff in Hi as [[ci e] [Ee Hi]].
    cbn in Ee. subst e. apply in_split in Hi as [hp [hq ->]]. rewrite <- app_assoc in HGl. cbn [app] in HGl.
    pose proof (snaps_split _ hp ci _ _ HGl) as HP. destruct HP as [HX|(g2 & w2 & HIp & (_ & _ & _ & _ & Hin))]; [discriminate|].
    pose proof (kp_keys _ (m_keep _ _ _ HIp) i Hin) as K. cbn [st_hist st_core] in K. rewrite setups_app in K. rewrite setups_app in Q1. cbn in Q1, K.
    apply app_eq_nil in Q1 as [Q1 _]. rewrite Q1, app_nil_r in K. rewrite X1. exact K. }
  assert (Hpn : NoDup (map fst packs)) by (rewrite Hkeys; apply NoDup_filter; exact Hnd).
  assert (Hr : nnan (value (k_result cs)) = false).
  { destruct (m_res _ _ _ HI) as [acc [_ Hwb]]. eapply weak_value. exact Hwb. }
  assert (Hexact : exact cs -> exact c0).
  { intros [[H0 H1']|(b & a1 & a2 & a3 & B1 & B2 & B3)]; [left; split; assumption|]. right. exists b, a1, a2, a3.
    cbn. rewrite Hbest. auto. }
  splits.
  - split.
    + pose proof HId as [Y1 Y2 Y3 Y4 Y5 Y6 Y7 Y8 Y9 Y10 Y11 Y12 Y13 Y14]. cbn [st_core st_hist] in *. split; cbn [st_core st_hist c0 loaded k_packs k_grave k_victims k_queue k_files k_chkpt k_o]; auto.
      * rewrite keys_dormant. exact Hpn.
      * intros i Hi. rewrite keys_dormant in Hi. unfold id_ok. cbn. specialize (Hids i Hi). lia.
      * intros ch q [].
      * intros ch [].
      * intros n [].
    + split; cbn.
      * exact S1.
      * exact HInv.
      * intros i Hi. rewrite Hlog in Hi. apply (lv_store _ HLogl) in Hi. unfold id_ok in *. cbn in *.
        pose proof (id_len _ _ _ (m_id _ _ _ HIl)) as K. cbn in K. destruct HSl as (_ & _ & _ & S4l & _). destruct (S4l eq_refl) as (_ & K1 & _).
        rewrite X1 in S6. lia.
    + destruct (m_res _ _ _ HI) as [acc [H1 H2]]. exists acc. split; assumption.
    + pose proof (m_aux _ _ _ HI) as [A1 A2 A3 A4 A5]. cbn in A1, A2. split; cbn.
      * exact A1.
      * intros [H|[H|H]]; [discriminate|discriminate|auto].
      * discriminate.
      * intros _ H. exfalso. apply H. left. reflexivity.
      * intros _. unfold living_slots. cbn. rewrite living_dormant. lia.
    + exact I.
    + destruct (m_mono _ _ _ HI) as [M1 M2]. cbn [st_hist st_core] in M1, M2. split; cbn [st_hist st_core c0 loaded k_result].
      * intros c' e' [H|[H|H]]; [injection H as <- _; apply nle_refl, Hr| injection H as <- _; apply nle_refl, Hr| eapply M1; exact H].
      * cbn. splits; [|exact M1| exact M2]. intros c' e' [H|H]; [injection H as <- _; apply nle_refl, Hr| eapply M1; exact H].
    + split; cbn.
      * intros i Hi. rewrite keys_dormant in Hi. apply Hids. exact Hi.
      * rewrite Hlog. intros Ht i Hi. apply (kp_store _ (m_keep _ _ _ HIl)); [exact Ht|]. cbn. rewrite <- X1. exact Hi.
  - split; [left; reflexivity|]. split; [|exact HG2]. right. exists g0, w0. split; [exact HI|].
    unfold snap_ok. splits; auto. exists ha', cl', hb'. auto.
  - split; [split; reflexivity|]. intro l. unfold resting. splits.
    + unfold settled. cbn. splits; auto.
    + intros i h _ Hg. eapply nget_dormant. exact Hg.
    + intros _. unfold pack_slots. cbn. rewrite slots_dormant. exact Hsum.
    + discriminate.
Qed.

(** ** All sessions *)
Lemma session_inv g w s : in_step g w s -> MInv g w s /\ good (st_hist s).
Proof.
  intro H. induction H as [g w s Hm|g w s k late builds conv c g' w' limit _ [_ HG] Hw -> Hl].
  - destruct Hm as (limit & traj & ->).
    destruct (start_manager_step g w limit [] (fresh traj) (MInv_fresh g w traj) (fresh_idle g w traj)) as [H _].
    eapply good_star; [exact H| apply MInv_fresh| exact I].
  - destruct (loaded_inv g' w' s k c builds conv HG Hw Hl) as (H1 & H2 & H3).
    destruct (start_manager_step g' w' limit _ _ H1 H3) as [H _]. eapply good_star; eassumption.
Qed.

(** An event of any session. *)
Lemma session_snap g w s h1 c e h2 : in_step g w s -> st_hist s = h1 ++ (c, e) :: h2 -> e <> EvLoad ->
  exists g0 w0, MInv g0 w0 (mkMS c h2) /\ snap_ok g0 w0 c e h2.
Proof.
  intros Hs Hh He. destruct (session_inv _ _ _ Hs) as [_ HG]. rewrite Hh in HG.
  destruct (snaps_split _ _ _ _ _ HG) as [H|H]; [contradiction| exact H].
Qed.
(** An event of the current session. *)
Lemma session_now g w s h1 c e h2 : in_step g w s -> st_hist s = h1 ++ (c, e) :: h2 -> ~ In EvLoad (e :: map snd h1) ->
  snap_ok g w c e h2.
Proof.
  intros Hs Hh Hn. destruct (session_inv _ _ _ Hs) as [HI _]. pose proof (m_snap _ _ _ HI) as HS. rewrite Hh in HS.
  apply (snaps_now_split _ _ _ _ _ ) in HS; [exact HS| |]; intro; apply Hn; [left; congruence| right; assumption].
Qed.
(** How a resumed run returns. *)
Lemma resumed_outcome g w s k late builds conv c g' w' limit : in_step g w s -> written s k late -> late = [] ->
  load g' k builds conv = Ok c -> forall x, fst (resume g' w' limit k c) = Ok x ->
  outcome g' (st_hist (begin k c)) x (snd (resume g' w' limit k c)).
Proof.
  intros Hs Hw -> Hl x Hx. destruct (session_inv _ _ _ Hs) as [_ HG].
  destruct (loaded_inv g' w' s k c builds conv HG Hw Hl) as (H1 & H2 & H3).
  destruct (T_out g' w' _ _ _ _ _ _ (start_manager_step g' w' limit _) H1 H3) as (r & s' & E & _ & _ & Q).
  unfold resume in *. rewrite E in *. cbn in *. subst r. exact Q.
Qed.

(** Every optimizer with a file was started in this history. *)
Lemma declared_in i h : In i (map fst (starts h)) -> exists n, declared i h = Some n.
Proof.
  induction h as [|[c e] h IH]; cbn; [tauto|]. destruct e; auto. rewrite map_app, in_app_iff. cbn. intros [H|[->|[]]].
  - destruct (Nat.eqb i i0); [eauto| apply IH; exact H].
  - rewrite Nat.eqb_refl. eauto.
Qed.

(** *** The children a loaded manager has *)
Lemma declared_start i h n : declared i h = Some n -> exists c cls, In (c, EvStart i cls n) h.
Proof.
  induction h as [|[c e] h IH]; cbn; [discriminate|].
  assert (K : (exists c' cls, In (c', EvStart i cls n) h) -> exists c' cls, (c, e) = (c', EvStart i cls n) \/ In (c', EvStart i cls n) h).
  { intros (c' & cls & H). eauto. }
  destruct e; auto. destruct (Nat.eqb_spec i i0) as [<-|]; auto. intros [= <-]. eauto.
Qed.
Lemma start_listed i cls n c h : In (c, EvStart i cls n) h -> In i (map fst (starts h)).
Proof.
  induction h as [|[c' e] h IH]; cbn; [tauto|]. intros [[= -> ->]|H].
  - cbn. rewrite map_app, in_app_iff. cbn. auto.
  - specialize (IH H). destruct e; auto. rewrite map_app, in_app_iff. auto.
Qed.
Lemma start_declared i h n c cls : NoDup (map fst (starts h)) -> In (c, EvStart i cls n) h -> declared i h = Some n.
Proof.
  induction h as [|[c' e] h IH]; cbn; [tauto|]. intros Hnd [[= -> ->]|H].
  - cbn. rewrite Nat.eqb_refl. reflexivity.
  - destruct e; auto. cbn in Hnd. rewrite map_app in Hnd. cbn in Hnd. pose proof (start_listed _ _ _ _ _ H) as Hi.
    apply NoDup_remove in Hnd as [Hnd Hn]. rewrite app_nil_r in Hnd, Hn.
    destruct (Nat.eqb_spec i i0) as [<-|]; [contradiction| auto].
Qed.

Lemma nodup_front {A} (l l' : list A) : NoDup (l ++ l') -> NoDup l.
Proof.
  induction l as [|a l IH]; cbn; [constructor|]. intro H. inversion H as [|x y Hx Hy]; subst. constructor; auto.
  intro Ha. apply Hx. apply in_app_iff. auto.
Qed.

Lemma restarts_are found h saved : NoDup (map fst (starts h)) -> map fst saved = found ->
  (forall i n, In (i, n) saved -> exists c cls, In (c, EvStart i cls n) h) -> restarts found h = Ok saved.
Proof.
  intros Hnd <-. induction saved as [|[i n] l IH]; intro H; [reflexivity|]. cbn.
  destruct (H i n (or_introl eq_refl)) as (c & cls & Hc). rewrite (start_declared _ _ _ _ _ Hnd Hc), IH; [reflexivity|].
  intros j m Hj. apply H. right. exact Hj.
Qed.

Lemma dormant_child i h packs : nget i (map dormant packs) = Some h -> exists n, In (i, n) packs /\ h = mkCh n false 0 [] false true.
Proof.
  induction packs as [|[j n] l IH]; cbn; [discriminate|]. destruct (Nat.eqb_spec i j) as [<-|].
  - intros [= <-]. eauto.
  - intro H. destruct (IH H) as (m & H1 & H2). eauto.
Qed.

(** *** Counters *)
Lemma later_refl c : later c c.
Proof. split; auto using incl_refl. Qed.
Lemma later_trans a b c : later a b -> later b c -> later a c.
Proof. intros [] []. split; try lia; auto. eapply incl_tran; eassumption. Qed.

(** The attributes recorded are ever later ones, and at each moment the hunts so far are counted. *)
Fixpoint chain (h : hist) (c : core) : Prop :=
  k_hunts c = hunts h /\ match h with [] => True | (c', _) :: h' => later c' c /\ chain h' c' end.

Lemma nadd_incl i l : incl l (nadd i l).
Proof. unfold nadd. destruct (nmem i l); [apply incl_refl|]. intros x Hx. apply in_app_iff. auto. Qed.
Lemma nadd_len i l : length l <= length (nadd i l).
Proof. unfold nadd. destruct (nmem i l); [lia|]. rewrite app_length. lia. Qed.

Lemma chain_later h c c' : chain h c -> later c c' -> k_hunts c' = k_hunts c -> chain h c'.
Proof.
  destruct h as [|[c0 e] h]; cbn [chain]; intros [H1 H2] Hl He; (split; [congruence|]); [exact I|].
  destruct H2 as [H2 H3]. split; [eapply later_trans; eassumption| exact H3].
Qed.

Lemma chain_split h1 : forall c0 c e h2, chain (h1 ++ (c, e) :: h2) c0 -> later c c0 /\ chain h2 c.
Proof.
  induction h1 as [|[c' e'] h1 IH]; intros c0 c e h2 [_ [H1 H2]]; [auto|]. destruct (IH _ _ _ _ H2) as [H3 H4].
  split; [eapply later_trans; eassumption| exact H4].
Qed.

(** *** Spaced checkpoints *)
Lemma spaced_session n s : counted n s -> spaced n s.
Proof.
  intro H. induction H as [g w s Hb Hm|s k late builds conv c g w limit Hs IH Hw Hl Hb].
  - destruct Hm as (limit & traj & ->). apply (spaced_run g w limit n Hb). split; cbn; auto; try discriminate; try contradiction.
    + intros x y ([|z l1] & l2 & E); discriminate E.
    + intros [|x h1] c h2 E; discriminate E.
  - apply (spaced_run g w limit n Hb). destruct (load_ok _ _ _ _ _ Hl) as (packs & -> & _).
    destruct Hw as (h1 & ha & cl & hb & E1 & _). destruct IH as [A B C D F]. pose proof (F _ _ _ E1) as Fk.
    assert (Es : saves (st_hist s) = saves h1 ++ saves (ck_hist k)).
    { rewrite E1. unfold saves. rewrite filter_app, map_app. reflexivity. }
    unfold begin. split; cbn [st_hist st_core].
    + intros c Hc. apply A. rewrite Es. apply in_app_iff. right. exact Hc.
    + intros a b (l1 & l2 & Hab). apply B. exists (saves h1 ++ l1), l2. rewrite Es, <- app_assoc. f_equal. exact Hab.
    + intros c' l Hc. cbn. eapply Fk. exact Hc.
    + reflexivity.
    + intros [|x [|y h]] c h2 E; [discriminate E| |]; apply (f_equal (@tl _)) in E; cbn [tl app] in E.
      * injection E as <- <-. exact Fk.
      * apply (f_equal (@tl _)) in E. cbn [tl app] in E. apply (F (h1 ++ (ck_core k, EvSaveManager) :: h)).
        rewrite E1, E, <- app_assoc. reflexivity.
Qed.
