(** * Every run of the manager is a sequence of the steps of [Manager_Proofs] *)
From Verif Require Import Prelude Prelude_Proofs Logger_Model Logger_Spec Logger_Proofs Manager_Model Manager_Spec Manager_Proofs.

Arguments get_best_iter : simpl never.
Arguments lstep : simpl never.

Definition LQ (l : lab) : bool := match l with Quiet => true | _ => false end.
Definition LF (l : lab) : bool := match l with Quiet | Spawn => true | _ => false end.
Definition LE (l : lab) : bool := match l with Quiet | Eval => true | _ => false end.
Definition LA (l : lab) : bool := true.

Section Trace.
  Context (g : config) (w : world) (limit : nat).
  Notation step := (mstep g w).
  Notation run_to := (star g w).
  Notation Inv := (MInv g w).

  (** As [tr], with the invariants available at every moment. *)
  Definition T (L : lab -> bool) (P : mstate -> Prop) {A} (m : M mstate A) (Q : A -> mstate -> Prop)
             (E : exn -> mstate -> Prop) : Prop :=
    forall s, Inv s -> P s -> run_to L s (snd (m s)) /\ match m s with (Ok a, s') => Q a s' | (Err e, s') => E e s' end.

  Lemma star_MInv L s s' : run_to L s s' -> Inv s -> Inv s'.
  Proof. apply star_ind_inv. intros. eapply MInv_step; eauto. Qed.

  Lemma T_conseq (L L' : lab -> bool) (P P' : mstate -> Prop) {A} (m : M mstate A) (Q Q' : A -> mstate -> Prop)
        (E E' : exn -> mstate -> Prop) :
    T L P m Q E -> (forall l, L l = true -> L' l = true) -> (forall s, Inv s -> P' s -> P s) ->
    (forall a s, Inv s -> Q a s -> Q' a s) -> (forall e s, E e s -> E' e s) -> T L' P' m Q' E'.
  Proof.
    intros H HL HP HQ HE s HI Hs. destruct (H s HI (HP s HI Hs)) as [H1 H2].
    pose proof (star_MInv _ _ _ H1 HI) as HI'.
    split; [eapply star_sub; eassumption|]. destruct (m s) as [[a|e] s']; auto.
  Qed.

  Lemma T_ret L (P : mstate -> Prop) {A} (a : A) (Q : A -> mstate -> Prop) E :
    (forall s, Inv s -> P s -> Q a s) -> T L P (ret a) Q E.
  Proof. intros H s HI Hs. split; [constructor| cbn; auto]. Qed.

  Lemma T_raise L (P : mstate -> Prop) {A} e Q (E : exn -> mstate -> Prop) :
    (forall s, P s -> E e s) -> T L P (@raise mstate A e) Q E.
  Proof. intros H s HI Hs. split; [constructor| cbn; auto]. Qed.

  Lemma T_bind L P {A B} (m : M mstate A) (f : A -> M mstate B) R Q E :
    T L P m R E -> (forall a, T L (R a) (f a) Q E) -> T L P (bind m f) Q E.
  Proof.
    intros Hm Hf s HI Hs. unfold bind. destruct (Hm s HI Hs) as [H1 H2].
    pose proof (star_MInv _ _ _ H1 HI) as HI'.
    destruct (m s) as [[a|e] s'] eqn:Em; cbn in *; [|auto].
    destruct (Hf a s' HI' H2) as [H3 H4]. split; [eapply star_trans; eassumption| exact H4].
  Qed.

  Lemma T_getc L (P : mstate -> Prop) {A} (f : core -> A) E :
    T L P (getc f) (fun a s => P s /\ a = f (st_core s)) E.
  Proof. intros s HI Hs. split; [constructor| cbn; auto]. Qed.

  (** Reading and going on: the value read is known. *)
  Lemma T_getc_bind L (P : mstate -> Prop) {A B} (f : core -> A) (k : A -> M mstate B) Q E :
    (forall a, T L (fun s => P s /\ a = f (st_core s)) (k a) Q E) -> T L P (bind (getc f) k) Q E.
  Proof. intro H. eapply T_bind; [apply T_getc| exact H]. Qed.

  Lemma T_lift L (P : mstate -> Prop) {A} (r : res A) (E : exn -> mstate -> Prop) :
    (forall e s, r = Err e -> P s -> E e s) -> T L P (lift r) (fun a s => P s /\ r = Ok a) E.
  Proof. intros He s HI Hs. split; [constructor|]. cbn. destruct r; auto. Qed.

  Lemma T_try L P {A} (m : M mstate A) f h R Q E :
    T L P m Q R -> (forall e, f e = true -> T L (R e) (h e) Q E) -> (forall e s, f e = false -> R e s -> E e s) ->
    T L P (try_except m f h) Q E.
  Proof.
    intros Hm Hh He s HI Hs. unfold try_except. destruct (Hm s HI Hs) as [H1 H2].
    pose proof (star_MInv _ _ _ H1 HI) as HI'.
    destruct (m s) as [[a|e] s'] eqn:Em; cbn in *; [auto|].
    destruct (f e) eqn:Ef; [|auto]. destruct (Hh e Ef s' HI' H2) as [H3 H4]. split; [eapply star_trans; eassumption| exact H4].
  Qed.

  Lemma T_for_each L P {A} (l : list A) (f : A -> M mstate unit) E :
    (forall a, In a l -> T L P (f a) (fun _ => P) E) -> T L P (for_each l f) (fun _ => P) E.
  Proof.
    induction l as [|a l IH]; intro H; cbn.
    - apply T_ret. auto.
    - eapply T_bind; [apply H; left; reflexivity|]. intros []. apply IH. intros b Hb. apply H. right. exact Hb.
  Qed.

  Lemma T_step L l (P : mstate -> Prop) {A} (m : M mstate A) (F : mstate -> mstate) (a : A) (Q : A -> mstate -> Prop) E :
    L l = true -> (forall s, m s = (Ok a, F s)) -> (forall s, Inv s -> P s -> step l s (F s)) -> (forall s, Inv s -> P s -> Q a (F s)) ->
    T L P m Q E.
  Proof.
    intros HL Hm Hst HQ s HI Hs. rewrite Hm. cbn. split; [eapply star_one; eauto| auto].
  Qed.

  Lemma T_frame L (P F : mstate -> Prop) {A} (m : M mstate A) Q E :
    (forall l s s', L l = true -> Inv s -> step l s s' -> F s -> F s') ->
    T L P m Q E -> T L (fun s => P s /\ F s) m (fun a s => Q a s /\ F s) (fun e s => E e s /\ F s).
  Proof.
    intros HF Hm s HI [HP Hs]. destruct (Hm s HI HP) as [H1 H2]. split; [exact H1|].
    assert (HF' : F (snd (m s))).
    { clear H2. generalize dependent (snd (m s)). intros s' H1. revert HI Hs. clear HP.
      induction H1 as [|l s s1 s2 Hl Hst _ IH]; intros HI Hs; [assumption|]. apply IH; [eapply MInv_step| eapply HF]; eauto. }
    destruct (m s) as [[a|e] s']; cbn in *; auto.
  Qed.

  (** *** Facts kept by steps *)
  Lemma ids_kept l s s' i : step l s s' -> id_ok (st_core s) i -> id_ok (st_core s') i.
  Proof.
    intros Hst H. assert (Ho : k_o (st_core s) <= k_o (st_core s')).
    { destruct Hst; talks; cbn; auto.
      - rewrite (er_o _ _ _ (apply_moves_rel ms (st_core s))). auto.
      - destruct H0. lia. }
    eapply id_ok_mono; eassumption.
  Qed.

  Lemma quiet_kept l s s' : LQ l = true -> step l s s' ->
    k_o (st_core s') = k_o (st_core s) /\ k_f (st_core s') = k_f (st_core s) /\ k_result (st_core s') = k_result (st_core s) /\
    get_best_iter None (k_log (st_core s')) = get_best_iter None (k_log (st_core s)) /\
    setups (st_hist s') = setups (st_hist s) /\ starts (st_hist s') = starts (st_hist s).
  Proof.
    intros Hl Hst. destruct Hst; talks; try discriminate Hl; cbn; try (splits; reflexivity).
    - destruct (apply_moves_rel ms (st_core s)). cbn. splits; congruence.
    - destruct H. splits; congruence.
    - destruct H as [<-|[<-|[]]]; cbn; splits; reflexivity.
    - splits; try reflexivity. apply same_core_best. eapply plain_log_core. exact H.
    - splits; try reflexivity. apply same_core_best. apply core_clear.
  Qed.

  Lemma settled_kept l s s' : LQ l = true -> step l s s' -> settled s -> settled s'.
  Proof.
    intros Hl Hst [H1 [H2 H3]]. destruct (quiet_kept _ _ _ Hl Hst) as [Q1 [Q2 [Q3 [Q4 [Q5 Q6]]]]].
    unfold settled, exact in *. rewrite Q1, Q2, Q3, Q4, Q5, Q6. auto.
  Qed.

  Lemma T_settled (P : mstate -> Prop) {A} (m : M mstate A) Q E :
    T LQ P m Q E -> T LQ (fun s => P s /\ settled s) m (fun a s => Q a s /\ settled s) (fun e s => E e s /\ settled s).
  Proof. apply T_frame. intros. eapply settled_kept; eauto. Qed.

  Lemma T_id L i (P : mstate -> Prop) {A} (m : M mstate A) Q E :
    T L P m Q E -> T L (fun s => P s /\ id_ok (st_core s) i) m (fun a s => Q a s /\ id_ok (st_core s) i) (fun e s => E e s /\ id_ok (st_core s) i).
  Proof. apply T_frame. intros. eapply ids_kept; eauto. Qed.

  (** *** Leaves *)
  Definition env (ms : list move) (s : mstate) : mstate := upd (fun c => set_ktick (S (k_tick c)) (apply_moves ms c)) s.
  Definition env_stable (P : mstate -> Prop) : Prop := forall s ms, P s -> P (env ms s).

  Definition quits (e : exn) : Prop := e = KeyboardInterrupt \/ e = OutOfFuel.

  Lemma T_tick L (P : mstate -> Prop) (E : exn -> mstate -> Prop) :
    L Quiet = true -> env_stable P -> (forall e s, quits e -> P s -> E e s) -> T L P (tick w limit) (fun _ => P) E.
  Proof.
    intros HL HP HE s HI Hs. unfold tick. destruct (Nat.leb limit (k_tick (st_core s))).
    - cbn. split; [constructor|]. apply HE; [right; reflexivity| exact Hs].
    - assert (H1 : step Quiet s (env (w_moves w (k_tick (st_core s))) s)).
      { apply St_env. intros m Hm. eauto. }
      destruct (w_intr w _); cbn; (split; [eapply star_one; eauto|]).
      + apply HE; [left; reflexivity|]. apply HP. exact Hs.
      + apply HP. exact Hs.
  Qed.

  Lemma T_modc L (P : mstate -> Prop) (f : core -> core) (Q : unit -> mstate -> Prop) E :
    L Quiet = true -> (forall s, Inv s -> P s -> step Quiet s (upd f s)) -> (forall s, Inv s -> P s -> Q tt (upd f s)) ->
    T L P (modc f) Q E.
  Proof. intros HL H1 H2. eapply (T_step L Quiet P (modc f) (upd f) tt); auto. Qed.

  Lemma T_minor L (P : mstate -> Prop) (f : core -> core) E :
    L Quiet = true -> (forall c, minor c (f c)) -> (forall s, P s -> P (upd f s)) -> T L P (modc f) (fun _ => P) E.
  Proof. intros HL H1 H2. apply T_modc; auto. intros. apply St_minor. auto. Qed.

  Lemma T_act L l (P : mstate -> Prop) e (f : core -> core) (Q : unit -> mstate -> Prop) E :
    L l = true -> (forall s, Inv s -> P s -> step l s (noted e f s)) -> (forall s, Inv s -> P s -> Q tt (noted e f s)) ->
    T L P (act e f) Q E.
  Proof. intros HL H1 H2. eapply (T_step L l P (act e f) (noted e f) tt); auto. Qed.

  Lemma T_log L o (P : mstate -> Prop) (E : exn -> mstate -> Prop) :
    L Quiet = true -> (forall s, Inv s -> P s -> plain_log_op (st_core s) o) ->
    (forall s l, P s -> P (upd (set_klog l) s)) -> (forall e s, P s -> E e s) ->
    T L P (logm (lstep o)) (fun _ => P) E.
  Proof.
    intros HL Ho HP HE s HI Hs. unfold logm.
    pose proof (St_log g w s o (Ho s HI Hs)) as Hst.
    destruct (lstep o (k_log (st_core s))) as [r lg] eqn:El.
    assert (Heq : mkMS (set_klog lg (st_core s)) (st_hist s) = upd (fun c => set_klog (snd (lstep o (k_log c))) c) s)
      by (unfold upd; rewrite El; reflexivity).
    cbn [snd fst]. rewrite Heq. split; [eapply star_one; eauto|].
    assert (HP' : P (upd (fun c => set_klog (snd (lstep o (k_log c))) c) s)).
    { rewrite <- Heq. exact (HP s lg Hs). }
    destruct r; auto.
  Qed.

  Lemma T_put_end L i cond (P : mstate -> Prop) (E : exn -> mstate -> Prop) :
    L Quiet = true -> (forall s, Inv s -> P s -> id_ok (st_core s) i) ->
    (forall s l, P s -> P (upd (set_klog l) s)) -> (forall e s, P s -> E e s) ->
    T L P (put_end i cond) (fun _ => P) E.
  Proof.
    intros HL Hi HP HE. unfold put_end. eapply T_bind.
    - apply (T_log L (PutMeta i "t_stop" "now")); auto.
    - intro. apply (T_log L (PutMeta i "end_cond" cond)); auto.
  Qed.

  Definition any (e : exn) (s : mstate) : Prop := True.
  Definition top (s : mstate) : Prop := True.
  Definition topv {A} (a : A) (s : mstate) : Prop := True.

  Lemma T_is_alive L i (P : mstate -> Prop) (E : exn -> mstate -> Prop) :
    L Quiet = true -> env_stable P -> (forall e s, quits e -> P s -> E e s) ->
    T L P (is_alive w limit i) (fun a s => P s /\ a = match nget i (k_packs (st_core s)) with Some h => c_alive h | None => false end) E.
  Proof. intros HL HP HE. unfold is_alive. eapply T_bind; [apply T_tick; auto|]. intros t. apply T_getc. Qed.

  Lemma T_ext L (P : mstate -> Prop) (E : exn -> mstate -> Prop) :
    L Quiet = true -> env_stable P -> (forall e s, P s -> E e s) -> T L P (ext w limit) (fun _ => P) E.
  Proof.
    intros HL HP HE. unfold ext. eapply T_bind; [apply T_tick; auto|]. intro t.
    destruct (w_err w t); [apply T_raise| apply T_ret]; auto.
  Qed.

  Lemma T_pre L (P P' : mstate -> Prop) {A} (m : M mstate A) Q E :
    (forall s, Inv s -> P' s -> P s) -> T L P m Q E -> T L P' m Q E.
  Proof. intros H1 H2 s HI Hs. auto. Qed.

  Lemma T_post L (P : mstate -> Prop) {A} (m : M mstate A) (Q Q' : A -> mstate -> Prop) E :
    (forall a s, Inv s -> Q a s -> Q' a s) -> T L P m Q E -> T L P m Q' E.
  Proof. intros H1 H2. eapply T_conseq; eauto. Qed.

  Lemma T_topv L (P : mstate -> Prop) {A} (m : M mstate A) (Q : A -> mstate -> Prop) E :
    T L P m Q E -> T L P m topv any.
  Proof. intros H1. eapply T_conseq; eauto; intros; exact I. Qed.

  Lemma T_pure L (phi : Prop) (P : mstate -> Prop) {A} (m : M mstate A) Q E :
    (forall s, Inv s -> P s -> phi) -> (phi -> T L P m Q E) -> T L P m Q E.
  Proof. intros H1 H2 s HI Hs. exact (H2 (H1 s HI Hs) s HI Hs). Qed.

  Lemma T_sub (L L' : lab -> bool) (P : mstate -> Prop) {A} (m : M mstate A) Q E :
    (forall l, L l = true -> L' l = true) -> T L P m Q E -> T L' P m Q E.
  Proof. intros H1 H2. eapply T_conseq; eauto. Qed.

  (** Reading the core and going on. *)
  Ltac rd a := apply T_getc_bind; intro a.
  Ltac done := intros; exact I.

  Lemma top_stable : env_stable top.
  Proof. intros s ms _. exact I. Qed.

  (** Facts about the manager's own attributes survive moves of the outside. *)
  Ltac envt := intros ?s ?ms ?H; unfold env, upd in *; cbn in *;
    match goal with |- context[apply_moves ?m ?c] => destruct (apply_moves_rel m c); cbn in *;
      repeat match goal with H : _ = _ |- _ => rewrite H in * end; auto end.

  Lemma T_living ids : forall L (P : mstate -> Prop) (E : exn -> mstate -> Prop),
    L Quiet = true -> env_stable P -> (forall e s, quits e -> P s -> E e s) ->
    T L P (living w limit ids)
      (fun l s => P s /\ incl l ids /\ forall i h, In i ids -> nget i (k_packs (st_core s)) = Some h -> c_alive h = true -> In i l) E.
  Proof.
    induction ids as [|i ids IH]; intros L P E HL HP HE; cbn [living]; [apply T_ret; intros; splits; [assumption| intros ? []| intros ? ? []]|].
    eapply T_bind; [apply T_is_alive; auto|]. intro b.
    pose (R := fun s => P s /\ (b = false -> forall h, nget i (k_packs (st_core s)) = Some h -> c_alive h = false)).
    assert (HR : env_stable R).
    { intros s ms [H1 H2]. split; [apply HP; exact H1|]. intros Hb h Hg.
      destruct (er_child _ _ _ (apply_moves_rel ms (st_core s)) i h Hg) as [h0 [Hg0 [_ Ha]]].
      specialize (H2 Hb h0 Hg0). destruct (c_alive h); [|reflexivity]. rewrite Ha in H2; auto. }
    apply T_pre with (P := R).
    { intros s _ [H1 H2]. split; [exact H1|]. intros -> h Hg. rewrite Hg in H2. auto. }
    eapply T_bind.
    - apply (IH L R E HL HR). intros e s Hq [H1 _]. auto.
    - intro l. apply T_ret. intros s _ [[H1 H2] [H4 H3]]. splits; [exact H1| |].
      { intros j Hj. destruct b; [destruct Hj as [<-|Hj]; [left; reflexivity| right; auto]| right; auto]. }
      intros j h [<-|Hj] Hg Ha.
      + destruct b; [left; reflexivity|]. rewrite (H2 eq_refl h Hg) in Ha. discriminate.
      + specialize (H3 j h Hj Hg Ha). destruct b; [right|]; exact H3.
  Qed.

  Lemma T_send L i m (P : mstate -> Prop) (E : exn -> mstate -> Prop) :
    L Quiet = true -> env_stable P -> (forall s, P s -> P (noted (EvSend i m) (fun c => c) s)) ->
    (forall e s, quits e \/ e = OSError \/ e = KeyError -> P s -> E e s) -> T L P (send w limit i m) (fun _ => P) E.
  Proof.
    intros HL HP HN HE. unfold send. eapply T_bind; [apply T_tick; auto|]. intro t. rd h. destruct h as [h|].
    - destruct (c_closed h); [apply T_raise; intros s [H _]; auto|].
      apply T_act with (l := Quiet); [exact HL| |].
      + intros s _ [_ Hg]. apply (St_send g w s i (EvSend i m)); [apply nget_some_in; eauto| reflexivity].
      + intros s _ [H _]. auto.
    - apply T_raise. intros s [H _]. auto.
  Qed.

  Lemma send_quiet i m : T LQ top (send w limit i m) topv any.
  Proof. apply (T_send LQ i m top any eq_refl top_stable); done. Qed.

  Lemma alive_quiet i : T LQ top (is_alive w limit i) topv any.
  Proof. eapply T_topv. apply (T_is_alive LQ i top any eq_refl top_stable). done. Qed.

  Lemma tick_quiet : T LQ top (tick w limit) topv any.
  Proof. apply (T_tick LQ top any eq_refl top_stable). done. Qed.

  Lemma ext_quiet : T LQ top (ext w limit) topv any.
  Proof. apply (T_ext LQ top any eq_refl top_stable). done. Qed.

  Definition has (i : nat) (s : mstate) : Prop := In i (dkeys (k_packs (st_core s))).
  Definition buried (i : nat) (s : mstate) : Prop := In i (k_grave (st_core s)).

  Lemma keys_kept l s s' : LE l = true -> step l s s' -> dkeys (k_packs (st_core s')) = dkeys (k_packs (st_core s)).
  Proof.
    intros Hl Hst. destruct Hst; talks; try discriminate Hl; cbn; try reflexivity.
    - apply (er_keys _ _ _ (apply_moves_rel ms (st_core s))).
    - destruct H. congruence.
    - eapply dkeys_nset_old; eassumption.
  Qed.

  Lemma T_has (L : lab -> bool) (P : mstate -> Prop) i {A} (m : M mstate A) Q E :
    (forall l, L l = true -> LE l = true) -> T L P m Q E ->
    T L (fun s => P s /\ has i s) m (fun a s => Q a s /\ has i s) (fun e s => E e s /\ has i s).
  Proof.
    intros HL. apply T_frame. intros l s s' Hl _ Hst H. unfold has in *. rewrite (keys_kept _ _ _ (HL _ Hl) Hst). exact H.
  Qed.

  (** A loop over registered children whose body keeps the dictionary. *)
  Lemma T_for_keys L (ids : list nat) (P : mstate -> Prop) (f : nat -> M mstate unit) :
    (forall l, L l = true -> LE l = true) ->
    (forall i, T L (fun s => P s /\ has i s) (f i) (fun _ => P) any) ->
    T L (fun s => P s /\ forall i, In i ids -> has i s) (for_each ids f) (fun _ => P) any.
  Proof.
    intros HL Hf. induction ids as [|i ids IH]; cbn [for_each]; [apply T_ret; tauto|].
    eapply T_bind.
    - apply T_pre with (P := fun s => (P s /\ has i s) /\ forall j, In j ids -> has j s).
      { intros s _ [H1 H2]. split; [split; [exact H1| apply H2; left; reflexivity]| intros j Hj; apply H2; right; exact Hj]. }
      assert (Hk : forall l s s', L l = true -> Inv s -> step l s s' -> (forall j, In j ids -> has j s) -> forall j, In j ids -> has j s').
      { intros l s s' Hl _ Hst H j Hj. unfold has in *. rewrite (keys_kept _ _ _ (HL _ Hl) Hst). auto. }
      pose proof (T_frame L _ _ _ _ _ Hk (Hf i)) as Hfr. eapply T_conseq; [exact Hfr| auto| auto| | done]. intros a s _ H. exact H.
    - intros []. eapply T_conseq; [exact IH|..]; intros; auto.
  Qed.

  Lemma quiet_sub (L : lab -> bool) : L Quiet = true -> forall l, LQ l = true -> L l = true.
  Proof. intros H [] Hl; try discriminate; exact H. Qed.

  (** *** _check_signals, _inspect_children *)
  Lemma check_signals_open i :
    T LQ (fun s => ~ buried i s) (check_signals w limit i) (fun found s => found = false -> ~ buried i s) any.
  Proof.
    unfold check_signals, in_grave. rd b. destruct b; [apply T_ret; tauto|].
    apply T_pre with (P := fun s => ~ buried i s); [tauto|].
    eapply T_bind; [apply T_tick; [reflexivity| unfold buried; envt| done]|]. intro t. rd h.
    destruct h as [h|]; [|apply T_raise; done].
    destruct (c_sigs h) as [|sg sgs]; [apply T_ret; tauto|].
    eapply T_bind with (R := fun _ s => has i s /\ ~ buried i s).
    { apply T_modc; [reflexivity| |].
      - intros s _ [H1 H2]. eapply St_child; eauto.
      - intros s _ [H1 H2]. split; [|exact H1]. unfold has. cbn. erewrite dkeys_nset_old by eauto. apply nget_some_in. eauto. }
    intros []. eapply T_bind with (R := topv); [|intros []; apply T_ret; discriminate].
    destruct sg as [msg|msg| |]; try (apply T_ret; done).
    - eapply T_bind; [apply T_put_end; [reflexivity| | auto| done]|].
      + intros s HI [H _]. apply (id_packs _ _ _ (m_id _ _ _ HI)). exact H.
      + intros []. apply T_modc; [reflexivity| | done]. intros s _ [H1 H2]. apply St_conv; assumption.
    - eapply T_bind; [apply (T_log LQ (PutMsg i msg)); [reflexivity| | auto| done]|].
      + intros s HI [H _]. apply (id_packs _ _ _ (m_id _ _ _ HI)). exact H.
      + intros []. apply T_modc; [reflexivity| | done]. intros s _ _. apply St_minor. split; auto.
  Qed.

  Lemma check_signals_quiet i : T LQ top (check_signals w limit i) topv any.
  Proof.
    intros s HI _. destruct (nmem i (k_grave (st_core s))) eqn:E.
    - unfold check_signals, in_grave, getc, gets, bind. cbn. rewrite E. cbn. split; [constructor| exact I].
    - apply nmem_false in E. destruct (check_signals_open i s HI E) as [H1 H2]. split; [exact H1|].
      destruct (check_signals w limit i s) as [[]]; exact I.
  Qed.

  Lemma id_of_has s i : Inv s -> has i s -> id_ok (st_core s) i.
  Proof. intros HI H. apply (id_packs _ _ _ (m_id _ _ _ HI)). exact H. Qed.

  Lemma has_stable i : env_stable (has i).
  Proof. unfold has; envt. Qed.

  Lemma T_any L (P : mstate -> Prop) {A} (m : M mstate A) (Q : A -> mstate -> Prop) E : T L P m Q E -> T L P m Q any.
  Proof. intro H. eapply T_conseq; eauto. done. Qed.

  (** A quiet method which keeps the child registered. *)
  Lemma QE l : LQ l = true -> LE l = true.
  Proof. destruct l; auto. Qed.

  Lemma T_has_q i {A} (m : M mstate A) : T LQ top m topv any -> T LQ (has i) m (fun _ => has i) any.
  Proof.
    intro H. eapply T_conseq; [exact (T_has LQ top i m _ _ QE H)| auto|..]; cbn; intros; try tauto. split; [exact I| assumption].
  Qed.

  Ltac logt := first [ reflexivity | (intros ? HI ?; apply id_of_has; assumption) | auto | done ].

  Lemma inspect_dead_quiet i : T LQ (has i) (inspect_dead w limit i) (fun _ => has i) any.
  Proof.
    unfold inspect_dead, in_grave. rd b. destruct b; [apply T_ret; tauto|].
    apply T_pre with (P := fun s => has i s /\ ~ buried i s).
    { intros s _ [H1 H]. split; [exact H1|]. apply nmem_false. congruence. }
    eapply T_bind; [apply T_is_alive; [reflexivity| unfold has, buried; envt| done]|]. intro a.
    destruct a; [apply T_ret; tauto|]. rd code.
    destruct (Z.eqb code 0).
    - apply T_pre with (P := fun s => ~ buried i s /\ has i s); [tauto|].
      eapply T_bind with (R := fun found s => (found = false -> ~ buried i s) /\ has i s).
      { eapply T_any. eapply T_has; [exact QE| apply check_signals_open]. }
      intro found. destruct found; [apply T_ret; tauto|].
      eapply T_bind with (R := fun _ => has i).
      + apply T_modc; [reflexivity| |]; intros s _ [H1 H2]; [|exact H2]. apply (St_conv g w s i H2). auto.
      + intros []. eapply T_bind; [apply (T_log LQ (PutMsg i _)); logt|]. intros []. apply T_put_end; logt.
    - apply T_pre with (P := has i); [tauto|]. eapply T_bind with (R := fun _ => has i).
      + apply T_modc; [reflexivity| |]; intros s _ H1; [|exact H1]. apply St_bury. exact H1.
      + intros []. eapply T_bind; [apply (T_log LQ (PutMsg i _)); logt|]. intros []. apply T_put_end; logt.
  Qed.

  Lemma inspect_hang_quiet i : T LQ (has i) (inspect_hang g w limit i) (fun _ => has i) any.
  Proof.
    unfold inspect_hang. eapply T_bind; [apply T_has_q, alive_quiet|]. intro a.
    eapply T_bind; [apply T_has_q, tick_quiet|]. intro t. rd v. apply T_pre with (P := has i); [tauto|].
    destruct (_ && _); [|apply T_ret; auto].
    eapply T_bind with (R := fun _ => has i).
    - apply T_modc; [reflexivity| |]; intros s _ H1; [|exact H1]. apply St_bury. exact H1.
    - intros []. eapply T_bind; [apply (T_log LQ (PutMsg i _)); logt|]. intros []. apply T_put_end; logt.
  Qed.

  Lemma inspect_zombie_quiet i : T LQ (has i) (inspect_zombie g w limit i) (fun _ => has i) any.
  Proof.
    unfold inspect_zombie. rd v. apply T_pre with (P := has i); [tauto|].
    destruct (v && _); [|apply T_ret; auto]. eapply T_bind; [apply T_has_q, alive_quiet|]. intro a.
    eapply T_bind; [apply T_has_q, tick_quiet|]. intro t. destruct (_ && _); [|apply T_ret; auto].
    eapply T_bind; [apply T_has_q, tick_quiet|]. intro t'.
    eapply T_bind; [apply (T_log LQ (PutMsg i _)); logt|]. intros []. apply T_put_end; logt.
  Qed.

  Lemma inspect_children_quiet : T LQ top (inspect_children g w limit) topv any.
  Proof.
    unfold inspect_children, pack_ids. rd ids. eapply T_topv.
    apply T_pre with (P := fun s => top s /\ forall i, In i ids -> has i s).
    { intros s _ [_ ->]. split; [exact I|]. auto. }
    apply (T_for_keys LQ ids top); [exact QE|]. intro i. apply T_pre with (P := has i); [tauto|].
    unfold inspect_child. eapply T_bind; [apply inspect_dead_quiet|]. intros []. eapply T_bind; [apply inspect_hang_quiet|].
    intros []. eapply T_topv. apply inspect_zombie_quiet.
  Qed.

  (** *** _shutdown_job, _start_hunt *)
  Definition may_kill (hn : option nat) (i : nat) (s : mstate) : Prop :=
    has i s /\ ~ buried i s /\
    forall b, hn = Some b -> settled s /\ has_iter_history i (k_log (st_core s)) = true /\ i <> b /\
              exists ty, r_origin (k_result (st_core s)) = Some (b, ty).

  Lemma shutdown_quiet hn i : T LQ (may_kill hn i) (shutdown_job g w limit i hn) topv any.
  Proof.
    unfold shutdown_job. eapply T_bind with (R := fun _ => has i).
    - apply T_act with (l := Quiet); [reflexivity| |].
      + intros s _ [H1 [H2 H3]]. apply St_kill; assumption.
      + intros s _ [H1 _]. exact H1.
    - intros []. eapply T_bind with (R := fun _ => has i).
      + destruct (_ && _); [apply T_ret; auto|]. apply T_has_q, send_quiet.
      + intros []. eapply T_topv. apply (T_put_end LQ i _ (has i) any); logt.
  Qed.

  Definition hunting (hunter : nat) (ids : list nat) (s : mstate) : Prop :=
    settled s /\ (exists ty, r_origin (k_result (st_core s)) = Some (hunter, ty)) /\ forall v, In v ids -> has v s.

  Lemma hunting_kept hunter ids l s s' : LQ l = true -> step l s s' -> hunting hunter ids s -> hunting hunter ids s'.
  Proof.
    intros Hl Hst [H1 [H2 H3]]. unfold hunting. splits.
    - eapply settled_kept; eauto.
    - destruct (quiet_kept _ _ _ Hl Hst) as [_ [_ [-> _]]]. exact H2.
    - intros v Hv. unfold has. rewrite (keys_kept _ _ _ (QE _ Hl) Hst). apply H3. exact Hv.
  Qed.

  Lemma T_hunting hunter ids (P : mstate -> Prop) {A} (m : M mstate A) Q E :
    T LQ P m Q E -> T LQ (fun s => P s /\ hunting hunter ids s) m (fun a s => Q a s /\ hunting hunter ids s) (fun e s => E e s /\ hunting hunter ids s).
  Proof. apply T_frame. intros. eapply hunting_kept; eauto. Qed.

  Lemma hunt_loop_quiet hunter ids : T LQ (hunting hunter ids) (hunt_loop g w limit hunter ids) topv any.
  Proof.
    induction ids as [|v ids IH]; cbn [hunt_loop]; [apply T_ret; done|].
    assert (Hnext : T LQ (hunting hunter (v :: ids)) (hunt_loop g w limit hunter ids) topv any).
    { eapply T_pre; [|exact IH]. intros s _ [H1 [H2 H3]]. unfold hunting. splits; auto. intros u Hu. apply H3. right. exact Hu. }
    unfold in_grave. rd dead. rd pts.
    destruct (negb dead && pts && negb (v =? hunter)) eqn:Ec; [|eapply T_pre; [|exact Hnext]; tauto].
    apply andb_true_iff in Ec as [Ec Hne]. apply andb_true_iff in Ec as [_ Hpts].
    apply negb_true_iff, Nat.eqb_neq in Hne.
    apply T_pre with (P := fun s => has_iter_history v (k_log (st_core s)) = true /\ hunting hunter (v :: ids) s).
    { intros s _ [[H1 _] H2]. split; [congruence| exact H1]. }
    eapply T_bind.
    { eapply T_any. apply T_hunting. apply T_tick; [reflexivity| |].
      - envt.
      - intros e s _ H. instantiate (1 := any). exact I. }
    intro t. rd c. eapply T_bind; [apply T_lift; done|]. intro k. rd dead2.
    destruct (k && negb dead2) eqn:Ek; [|eapply T_pre; [|exact Hnext]; tauto].
    apply andb_true_iff in Ek as [_ Hd]. apply negb_true_iff in Hd.
    eapply T_bind with (R := fun _ => hunting hunter (v :: ids)).
    - eapply T_conseq; [apply (T_hunting hunter (v :: ids)), (shutdown_quiet (Some hunter) v)|auto|..]; [|intros ? ? _ [_ H]; exact H|done].
      intros s _ [[[[H1 H2] _] _] H3]. pose proof H2 as [S1 [S2 S3]]. split; [|exact H2]. unfold may_kill. splits.
      + apply S3. left. reflexivity.
      + apply nmem_false. congruence.
      + intros b [= <-]. splits; auto.
    - intros []. eapply T_bind; [exact Hnext|]. intro l. apply T_ret. done.
  Qed.

  Lemma start_hunt_quiet hunter :
    T LQ (fun s => settled s /\ (exists ty, r_origin (k_result (st_core s)) = Some (hunter, ty)) /\ 0 < hunter /\ g_killing g = true /\
                   g_hunt_freq g <= k_f (st_core s) - k_last_hunt (st_core s))
      (start_hunt g w limit hunter) topv any.
  Proof.
    unfold start_hunt, pack_ids.
    eapply T_bind with (R := fun _ s => settled s /\ exists ty, r_origin (k_result (st_core s)) = Some (hunter, ty)).
    - apply T_act with (l := Quiet); [reflexivity| |].
      + intros s _ [H1 [[ty H2] [H3 [H4 H5]]]]. eapply St_hunt; eauto.
      + intros s _ [[S1 [S2 S3]] [H2 _]]. split; [|exact H2]. unfold settled; splits; assumption.
    - intros []. rd ids. eapply T_pre; [|apply hunt_loop_quiet]. intros s _ [[H1 H2] ->]. unfold hunting. splits; auto.
  Qed.

  (** *** _process_results *)
  Definition at_f (F : nat) (s : mstate) : Prop := settled s /\ k_f (st_core s) = F.
  (** Whatever is raised: no CheckpointingError out of a half processed evaluation, and at most [B] are counted. *)
  Definition raised (B : nat) (e : exn) (s : mstate) : Prop :=
    (e = CheckpointingError -> settled s) /\ k_f (st_core s) <= B.

  Lemma at_f_kept F l s s' : LQ l = true -> step l s s' -> at_f F s -> at_f F s'.
  Proof.
    intros Hl Hst [H1 H2]. split; [eapply settled_kept; eauto|]. destruct (quiet_kept _ _ _ Hl Hst) as [_ [-> _]]. exact H2.
  Qed.

  (** Quiet methods inside the processing of results. *)
  Lemma T_at F B (P : mstate -> Prop) {A} (m : M mstate A) Q E : F <= B ->
    T LQ P m Q E -> T LE (fun s => P s /\ at_f F s) m (fun a s => Q a s /\ at_f F s) (raised B).
  Proof.
    intros HB H. assert (Hk : forall l s s', LQ l = true -> Inv s -> step l s s' -> at_f F s -> at_f F s') by (intros; eapply at_f_kept; eauto).
    pose proof (T_frame LQ P _ m Q E Hk H) as Hf. eapply T_conseq; [exact Hf| exact QE| auto| auto|].
    intros e s [_ [H1 H2]]. split; [auto| lia].
  Qed.

  Lemma T_at_top F B {A} (m : M mstate A) : F <= B ->
    T LQ top m topv any -> T LE (at_f F) m (fun _ => at_f F) (raised B).
  Proof.
    intros HB H. eapply T_conseq; [apply (T_at F B _ _ _ _ HB H)|auto|..]; cbn; intros; try tauto. split; [exact I| assumption].
  Qed.

  Definition lens (s : mstate) : Prop :=
    length (setups (st_hist s)) = k_o (st_core s) /\ length (starts (st_hist s)) = k_o (st_core s).

  Lemma put_iteration_err r s e s' : put_iteration r s = (Err e, s') -> e = KeyError.
  Proof.
    rewrite put_iteration_eq. destruct (put_best r _) as [[[]|e'] s2] eqn:E.
    - unfold put_row. destruct (nget _ _); congruence.
    - intros [= <- <-]. revert E. unfold put_best. destruct (nget _ _); [|congruence]. destruct (nth_error _ _); [|congruence].
      destruct (nlt _ _); [|congruence]. destruct (nth_error _ _); congruence.
  Qed.

  Lemma accept_step F r :
    T LE (fun s => at_f F s /\ ~ In (ir_opt r) (k_victims (st_core s)) /\ id_ok (st_core s) (ir_opt r)) (accept r)
      (fun _ s => lens s /\ k_f (st_core s) = S F) (raised (S F)).
  Proof.
    intros s HI [[H1 H2] [H3 H4]]. pose proof (St_accept g w s r H1 H3 H4) as Hst. unfold accept, bind, act, modify, logm. cbn [st_core st_hist].
    change (k_log (set_kf (S (k_f (st_core s))) (st_core s))) with (k_log (st_core s)).
    destruct (put_iteration r (k_log (st_core s))) as [[[]|e] lg] eqn:El;
      (assert (Heq : noted (EvAccept r) (fun c => set_klog (snd (put_iteration r (k_log c))) (set_kf (S (k_f c)) c)) s =
               mkMS (set_klog lg (set_kf (S (k_f (st_core s))) (st_core s))) ((st_core s, EvAccept r) :: st_hist s))
        by (unfold noted; rewrite El; reflexivity));
      rewrite Heq in Hst; (split; [eapply star_one; [|exact Hst]; reflexivity|]); cbn.
    - destruct H1 as [L1 [L2 _]]. split; [split; assumption| lia].
    - apply put_iteration_err in El. split; [congruence| cbn; lia].
  Qed.

  Lemma update_best_step F :
    T LE (fun s => lens s /\ k_f (st_core s) = S F) (update_best g w limit) (fun _ => at_f (S F)) (raised (S F)).
  Proof.
    unfold update_best.
    eapply T_bind with (R := fun b s => lens s /\ k_f (st_core s) = S F /\ get_best_iter None (k_log (st_core s)) = Ok b).
    { intros s HI [H1 H2]. split; [constructor|]. destruct (Inv_best _ _ _ (lv_log _ (m_log _ _ _ HI))) as [b [Hb _]]. rewrite Hb. auto. }
    intro b. set (R := fun s => _). rd old.
    assert (HR : env_stable R).
    { intros s ms [H1 [H2 H3]]. unfold R, lens in *. unfold env, upd; cbn.
      destruct (apply_moves_rel ms (st_core s)). rewrite er_f, er_o, er_log. auto. }
    assert (HN : forall i m s, R s -> R (noted (EvSend i m) (fun c => c) s)) by (intros i m s H; exact H).
    assert (HE : forall e s, quits e \/ e = OSError \/ e = KeyError -> R s -> raised (S F) e s).
    { intros e s He [_ [H2 _]]. split; [|lia]. intros ->. destruct He as [[]|[]]; discriminate. }
    eapply T_bind with (R := fun _ => R).
    - apply T_pre with (P := R); [tauto|]. destruct (_ && _); [|apply T_ret; auto].
      unfold share_loop, pack_ids. rd ids. apply T_pre with (P := R); [tauto|].
      apply T_for_each. intros i _. destruct (_ =? _); [apply T_ret; auto|].
      eapply T_bind; [apply T_is_alive; [reflexivity| exact HR| eauto]|]. intro a. apply T_pre with (P := R); [tauto|].
      destruct a; [|apply T_ret; auto]. apply T_send; auto.
    - intros []. eapply (T_step LE Eval); [reflexivity| intro s; reflexivity| |].
      + intros s _ [H1 [H2 H3]]. apply (St_result g w s b); [lia| exact H3].
      + intros s _ [[L1 L2] [H2 H3]]. split; [|exact H2]. unfold settled. splits; [exact L1| exact L2|]. right.
        exists b. cbn. do 3 eexists. splits; [exact H3| lia| reflexivity].
  Qed.

  Definition open_at F (i : nat) (s : mstate) : Prop :=
    (~ In i (k_victims (st_core s)) /\ id_ok (st_core s) i) /\ at_f F s.

  Lemma history_step F r (has0 : bool) :
    T LE (open_at F (ir_opt r))
      (if has0 then ret tt else
         hd <- (match ir_extras r with [] => ret [] | _ => t <- tick w limit ;; lift (w_heads w t r) end) ;;
         logm (add_iter_history (ir_opt r) hd)) (fun _ => open_at F (ir_opt r)) (raised (S F)).
  Proof.
    unfold open_at. destruct has0; [apply T_ret; auto|]. eapply (T_at F (S F)); [lia|].
    eapply T_bind with (R := fun _ s => ~ In (ir_opt r) (k_victims (st_core s)) /\ id_ok (st_core s) (ir_opt r)).
    - destruct (ir_extras r); [apply T_ret; auto|]. eapply T_bind.
      + apply (T_tick LQ (fun s => ~ In (ir_opt r) (k_victims (st_core s)) /\ id_ok (st_core s) (ir_opt r)) any); [reflexivity| unfold id_ok; envt| done].
      + intro t. eapply T_post; [|apply (T_lift LQ _ _ any); done]. intros a s _ [H _]. exact H.
    - intro hd. apply (T_log LQ (AddHist (ir_opt r) hd)); [reflexivity| | auto| done]. intros s _ [_ H]. exact H.
  Qed.

  Lemma process_item_step F q :
    T LE (fun s => at_f F s /\ id_ok (st_core s) (qid q)) (process_item g w limit q)
      (fun x s => at_f (F + fst (fst x)) s /\ fst (fst x) <= 1) (raised (S F)).
  Proof.
    destruct q as [r|i]; cbn [process_item qid].
    - rd dead. destruct dead.
      { apply T_ret. intros s _ [[H _] _]. cbn. rewrite Nat.add_0_r. auto. }
      apply T_pre with (P := open_at F (ir_opt r)).
      { intros s _ [[H1 H2] H3]. unfold open_at. splits; auto. apply nmem_false. congruence. }
      rd has0. eapply T_bind with (R := fun _ => open_at F (ir_opt r)).
      { eapply T_pre; [|apply history_step]. tauto. }
      intros []. eapply T_bind.
      { eapply T_pre; [|apply (accept_step F r)]. unfold open_at. tauto. }
      intros []. eapply T_bind; [apply update_best_step|]. intros []. rd c. cbn zeta.
      destruct (_ && _) eqn:Ec.
      + apply andb_true_iff in Ec as [Ec Hfreq]. apply andb_true_iff in Ec as [Hpos Hkill].
        apply Nat.ltb_lt in Hpos. apply Nat.leb_le in Hfreq.
        destruct (r_origin (k_result c)) as [[b ty]|] eqn:Eo; [|lia].
        eapply T_bind.
        * eapply T_pre; [|eapply (T_at (S F) (S F)); [lia| apply start_hunt_quiet]].
          intros s _ [H1 ->]. split; [|exact H1]. splits; auto; [apply H1|]. exists ty. exact Eo.
        * intro vs. apply T_ret. intros s _ [_ H]. cbn. rewrite Nat.add_1_r. auto.
      + apply T_ret. intros s _ [H _]. cbn. rewrite Nat.add_1_r. auto.
    - rd org. destruct org as [[b ty]|].
      + destruct (b =? i); [apply T_ret; intros s _ [[H _] _]; cbn; rewrite Nat.add_0_r; auto|].
        eapply T_bind.
        * eapply T_pre; [|eapply (T_at F (S F) (fun s => id_ok (st_core s) i) _ _ any); [lia| apply (T_log LQ (ClearCache (Some i)))]].
          all: first [reflexivity | tauto | done | auto].
        * intros []. apply T_ret. intros s _ [_ H]. cbn. rewrite Nat.add_0_r. auto.
      + apply T_ret. intros s _ [[H _] _]. cbn. rewrite Nat.add_0_r. auto.
  Qed.

  Lemma raised_mono B B' e s : B <= B' -> raised B e s -> raised B' e s.
  Proof. intros H [H1 H2]. split; [exact H1| lia]. Qed.

  Lemma process_chunk_step F l : forall acc,
    T LE (fun s => at_f (F + fst (fst acc)) s /\ forall q, In q l -> id_ok (st_core s) (qid q)) (process_chunk g w limit l acc)
      (fun x s => at_f (F + fst (fst x)) s /\ fst (fst x) <= fst (fst acc) + length l) (raised (F + fst (fst acc) + length l)).
  Proof.
    induction l as [|q l IH]; intro acc; cbn [process_chunk].
    - apply T_ret. intros s _ [H _]. split; [exact H| cbn; lia].
    - eapply T_bind.
      + eapply T_conseq.
        * assert (Hk : forall l' s s', LE l' = true -> Inv s -> step l' s s' -> (forall p, In p l -> id_ok (st_core s) (qid p)) ->
                       forall p, In p l -> id_ok (st_core s') (qid p)) by (intros; eapply ids_kept; eauto).
          exact (T_frame LE _ _ _ _ _ Hk (process_item_step (F + fst (fst acc)) q)).
        * auto.
        * intros s _ [H1 H2]. splits; [exact H1| apply H2; left; reflexivity| intros p Hp; apply H2; right; exact Hp].
        * intros a s _ H. exact H.
        * intros e s [H _]. eapply raised_mono; [|exact H]. cbn. lia.
      + intros [[n' cl'] vs']. destruct acc as [[n cl] vs]. cbn [fst] in *.
        apply T_pure with (phi := n' <= 1); [tauto|]. intro Hn. eapply T_conseq; [apply IH|auto|..]; cbn [fst length] in *.
        * intros s _ [[H1 H2] H3]. rewrite Nat.add_assoc. split; assumption.
        * intros a s _ [H1 H2]. split; [exact H1| lia].
        * intros e s H. eapply raised_mono; [|exact H]. lia.
  Qed.

  Lemma queue_get_step F B : F <= B ->
    T LE (at_f F) (queue_get w limit)
      (fun o s => at_f F s /\ forall ch, o = Some ch -> (forall q, In q ch -> id_ok (st_core s) (qid q)) /\
                                        exists t, In (MPush ch) (w_moves w t)) (raised B).
  Proof.
    intro HB. unfold queue_get. eapply T_bind; [apply (T_at_top F B _ HB tick_quiet)|]. intro t. rd q. destruct q as [|ch q'].
    - apply T_ret. intros s _ [H _]. split; [exact H| discriminate].
    - eapply T_bind.
      + apply T_modc with (Q := fun _ s => at_f F s /\ (forall q, In q ch -> id_ok (st_core s) (qid q)) /\
                                          exists t, In (MPush ch) (w_moves w t)); [reflexivity| |].
        * intros s _ [_ H]. apply St_minor. split; auto. cbn. rewrite <- H. right. assumption.
        * intros s HI [H Hq]. assert (Hin : In ch (k_queue (st_core s))) by (rewrite <- Hq; left; reflexivity).
          splits; [exact H| |]. 
          -- intros p Hp. exact (id_queue _ _ _ (m_id _ _ _ HI) ch p Hin Hp).
          -- exact (id_pushed _ _ _ (m_id _ _ _ HI) ch Hin).
      + intros []. apply T_ret. intros s _ [H1 H2]. split; [exact H1|]. intros ch' [= <-]. exact H2.
  Qed.

  (** Chunks have at most [K] elements. *)
  Definition chunks_le (K : nat) : Prop := forall t ch, In (MPush ch) (w_moves w t) -> length ch <= K.

  Lemma process_loop_max F K m fuel : chunks_le K -> forall acc, fst (fst acc) <= m - 1 + K ->
    T LE (at_f (F + fst (fst acc))) (process_loop g w limit fuel (Some m) acc)
      (fun x s => at_f (F + fst (fst x)) s /\ fst (fst x) <= m - 1 + K) (raised (F + (m - 1 + K))).
  Proof.
    intro HK. induction fuel as [|fuel IH]; intros acc Hacc; cbn [process_loop].
    - apply T_raise. intros s [H1 H2]. split; [discriminate| lia].
    - eapply T_bind with (R := fun go s => at_f (F + fst (fst acc)) s /\ go = (fst (fst acc) <? m)); [apply T_ret; auto|].
      intro go. apply T_pure with (phi := go = (fst (fst acc) <? m)); [tauto|]. intros ->.
      apply T_pre with (P := at_f (F + fst (fst acc))); [tauto|].
      destruct (Nat.ltb_spec (fst (fst acc)) m) as [Hlt|_]; [|apply T_ret; auto].
      eapply T_bind; [apply (queue_get_step _ (F + (m - 1 + K))); lia|]. intros [ch|].
      + apply T_pure with (phi := length ch <= K).
        { intros s _ [_ H]. destruct (H ch eq_refl) as [_ [t Ht]]. eapply HK; exact Ht. }
        intro Hch. eapply T_bind.
        * eapply T_conseq; [apply (process_chunk_step F ch acc)|auto|..].
          -- intros s _ [H1 H2]. split; [exact H1| apply H2; reflexivity].
          -- intros a s _ H. exact H.
          -- intros e s H. eapply raised_mono; [|exact H]. lia.
        * intro x. apply T_pure with (phi := fst (fst x) <= m - 1 + K).
          { intros s _ [_ H]. lia. }
          intro Hx. eapply T_pre; [|apply (IH x Hx)]. tauto.
      + apply T_ret. intros s _ [H _]. auto.
  Qed.

  Lemma process_loop_any F fuel max : forall acc,
    T LE (at_f (F + fst (fst acc))) (process_loop g w limit fuel max acc)
      (fun x => settled) (fun e s => e = CheckpointingError -> settled s).
  Proof.
    induction fuel as [|fuel IH]; intros acc; cbn [process_loop].
    - apply T_raise. discriminate.
    - eapply T_bind with (R := fun _ => at_f (F + fst (fst acc))).
      + destruct max as [m|]; [apply T_ret; auto|].
        eapply T_bind with (R := fun _ => at_f (F + fst (fst acc))).
        * eapply T_conseq; [apply (T_at_top _ (F + fst (fst acc)) _ (Nat.le_refl _) tick_quiet)|auto|auto|intros a s _ H; exact H|].
          intros e s [H _]. exact H.
        * intro t. eapply T_post; [|apply T_getc]. intros a s _ [H _]. exact H.
      + intro go. destruct go; [|apply T_ret; intros s _ [H _]; exact H].
        eapply T_bind.
        * eapply T_conseq; [apply (queue_get_step (F + fst (fst acc)) (F + fst (fst acc)) (Nat.le_refl _))|auto|auto|intros a s _ H; exact H|intros e s [H _]; exact H].
        * intros [ch|]; [|apply T_ret; intros s _ [[H _] _]; exact H].
          eapply T_bind.
          -- eapply T_conseq; [apply (process_chunk_step F ch acc)|auto|..].
             ++ intros s _ [H1 H2]. split; [exact H1| apply H2; reflexivity].
             ++ intros a s _ H. exact H.
             ++ intros e s [H _]. exact H.
          -- intro x. eapply T_pre; [|apply (IH x)]. tauto.
  Qed.

  Lemma process_results_step max : T LE settled (process_results g w limit max) (fun _ => settled) (fun e s => e = CheckpointingError -> settled s).
  Proof.
    intros s HI Hs. unfold process_results. revert s HI Hs. 
    intros s HI Hs. refine (T_bind LE (fun s' => at_f (k_f (st_core s)) s') _ _ (fun _ => settled) _ _ _ _ s HI (conj Hs eq_refl)).
    - eapply T_pre; [|apply (process_loop_any (k_f (st_core s)) (S limit) _ (0, [], []))]. cbn. intros s' _ H. rewrite Nat.add_0_r. exact H.
    - intro x. apply T_ret. auto.
  Qed.

  Lemma process_results_bound F K m : chunks_le K ->
    T LE (at_f F) (process_results g w limit (Some (S m))) (fun _ s => settled s /\ k_f (st_core s) <= F + (m + K)) (raised (F + (m + K))).
  Proof.
    intro HK. unfold process_results. eapply T_bind.
    - eapply T_conseq; [apply (process_loop_max F K (S m) (S limit) HK (0, [], [])); cbn; lia|auto|..].
      + cbn. intros s _ H. rewrite Nat.add_0_r. exact H.
      + intros a s _ H. exact H.
      + intros e s H. eapply raised_mono; [|exact H]. lia.
    - intro x. apply T_ret. intros s _ [[H1 H2] H3]. split; [exact H1| lia].
  Qed.

  (** *** _fill_optimizer_slots *)
  Lemma exact_env ms s : exact (st_core s) -> exact (st_core (env ms s)).
  Proof.
    unfold exact, env, upd. cbn. destruct (apply_moves_rel ms (st_core s)). rewrite er_f, er_result, er_log. auto.
  Qed.

  Lemma settled_stable : env_stable settled.
  Proof.
    intros s ms [H1 [H2 H3]]. unfold settled. splits; [| |apply exact_env; exact H3]; unfold env, upd; cbn;
      rewrite (er_o _ _ _ (apply_moves_rel ms (st_core s))); assumption.
  Qed.

  Lemma living_env ms s : living_slots (st_core (env ms s)) <= living_slots (st_core s).
  Proof. exact (er_slots _ _ _ (apply_moves_rel ms (st_core s))). Qed.

  Lemma sum_nat_app a b : sum_nat (a ++ b) = sum_nat a + sum_nat b.
  Proof. induction a; cbn; lia. Qed.

  Lemma living_cover d : forall l, NoDup (dkeys d) ->
    (forall i h, nget i d = Some h -> c_alive h = true -> In i l) ->
    sum_nat (map (fun p => if c_alive (snd p) then c_slots (snd p) else 0) d) <=
    sum_nat (map (fun i => match nget i d with Some h => c_slots h | None => 0 end) l).
  Proof.
    induction d as [|[j x] d IH]; intros l Hnd Hc; [cbn; lia|].
    change (dkeys ((j, x) :: d)) with (j :: dkeys d) in Hnd. inversion Hnd as [|? ? Hj Hnd']; subst.
    assert (Hj0 : nget j d = None) by (apply nget_none; exact Hj).
    assert (Hle : forall l', sum_nat (map (fun i => match nget i d with Some h => c_slots h | None => 0 end) l') <=
                             sum_nat (map (fun i => match nget i ((j, x) :: d) with Some h => c_slots h | None => 0 end) l')).
    { induction l' as [|a l' IHl]; [cbn; lia|]. cbn [map sum_nat nget].
      destruct (Nat.eqb_spec a j) as [->|_]; [rewrite Hj0; cbn in *; lia| cbn in *; lia]. }
    cbn [map sum_nat snd]. destruct (c_alive x) eqn:Ea.
    - assert (Hin : In j l) by (apply (Hc j x); [cbn; rewrite Nat.eqb_refl; reflexivity| exact Ea]).
      apply in_split in Hin as [l1 [l2 ->]]. rewrite map_app, sum_nat_app. cbn [map sum_nat].
      assert (Hx : nget j ((j, x) :: d) = Some x) by (cbn; rewrite Nat.eqb_refl; reflexivity). rewrite Hx.
      assert (H := IH (l1 ++ l2) Hnd'). rewrite map_app, sum_nat_app in H.
      specialize (Hle l1) as H1. specialize (Hle l2) as H2.
      assert (Hc' : forall i h, nget i d = Some h -> c_alive h = true -> In i (l1 ++ l2)).
      { intros i h Hg Ha. assert (i <> j) by congruence. assert (Hi : In i (l1 ++ j :: l2)).
        { apply (Hc i h); [|exact Ha]. cbn. destruct (Nat.eqb_spec i j); [contradiction| exact Hg]. }
        apply in_app_iff in Hi as [Hi|[Hi|Hi]]; apply in_app_iff; auto. congruence. }
      specialize (H Hc'). lia.
    - assert (Hc' : forall i h, nget i d = Some h -> c_alive h = true -> In i l).
      { intros i h Hg Ha. apply (Hc i h); [|exact Ha]. cbn. destruct (Nat.eqb_spec i j) as [->|_]; [congruence| exact Hg]. }
      specialize (IH l Hnd' Hc'). specialize (Hle l). lia.
  Qed.

  Definition room (n : nat) (s : mstate) : Prop := settled s /\ living_slots (st_core s) <= n.

  Lemma room_stable n : env_stable (room n).
  Proof. intros s ms [H1 H2]. split; [apply settled_stable; exact H1|]. pose proof (living_env ms s). lia. Qed.

  (** Id given, not yet registered. *)
  Definition counted (n : nat) (s : mstate) : Prop :=
    S (length (setups (st_hist s))) = k_o (st_core s) /\ S (length (starts (st_hist s))) = k_o (st_core s) /\
    k_spawn (st_core s) = true /\ living_slots (st_core s) <= n /\ exact (st_core s).

  Lemma counted_stable n : env_stable (counted n).
  Proof.
    intros s ms [H1 [H2 [H3 [H4 H5]]]]. pose proof (living_env ms s). unfold counted. splits; [| | |lia|apply exact_env; exact H5];
      unfold env, upd; cbn; destruct (apply_moves_rel ms (st_core s)); congruence.
  Qed.

  Definition ready (i : nat) (cls : string) (slots n avail : nat) (s : mstate) : Prop :=
    i = k_o (st_core s) /\ length (setups (st_hist s)) = i /\ S (length (starts (st_hist s))) = i /\
    k_spawn (st_core s) = true /\ (exists l, setups (st_hist s) = l ++ [(i, cls)]) /\ living_slots (st_core s) <= n /\
    (obeys w -> slots <= avail) /\ exact (st_core s).

  Lemma ready_stable i cls slots n avail : env_stable (ready i cls slots n avail).
  Proof.
    intros s ms [H1 [H2 [H3 [H4 [H5 [H6 [H7 H8]]]]]]]. pose proof (living_env ms s). unfold ready.
    splits; [| | | | |lia| |apply exact_env; exact H8]; unfold env, upd; cbn; auto; destruct (apply_moves_rel ms (st_core s)); congruence.
  Qed.

  Lemma best_add i cls l b : get_best_iter None l = Ok b -> get_best_iter None (snd (add_optimizer i cls "now" l)) = Ok b.
  Proof.
    unfold get_best_iter. cbn. destruct (nth_error (l_heap l) (l_best l)) eqn:E; [|discriminate].
    rewrite nth_error_app1; [rewrite E; auto|]. apply nth_error_Some. congruence.
  Qed.

  Lemma setup_step n avail :
    T LF (fun s => room n s /\ k_spawn (st_core s) = true) (setup_new_optimizer w limit avail)
      (fun o s => match o with None => settled s | Some (i, cls, slots) => ready i cls slots n avail s end) any.
  Proof.
    unfold setup_new_optimizer. eapply T_bind.
    { apply T_tick; [reflexivity| |done]. intros s ms [H1 H2]. split; [apply room_stable; exact H1|].
      unfold env, upd. cbn. rewrite (er_spawn _ _ _ (apply_moves_rel ms (st_core s))). exact H2. }
    intro t. eapply T_bind with (R := fun _ s => room n s /\ k_spawn (st_core s) = true).
    { apply T_act with (l := Quiet); [reflexivity| |].
      - intros s _ [[H _] _]. apply St_note; [left; reflexivity| exact H].
      - intros s _ H. exact H. }
    intros []. rd c. eapply T_bind; [apply T_lift; done|]. intros [| |cf].
    - eapply T_bind with (R := fun _ => settled); [|intros []; apply T_ret; auto].
      apply T_act with (l := Quiet); [reflexivity| |].
      + intros s _ [[[[H _] _] _] _]. apply St_stop. exact H.
      + intros s _ [[[[H _] _] _] _]. exact H.
    - apply T_ret. intros s _ [[[[H _] _] _] _]. exact H.
    - apply T_pure with (phi := obeys w -> cf_workers cf <= avail).
      { intros s _ [_ H] Ho. eapply Ho. exact H. }
      intro Hw. eapply T_bind with (R := fun _ => counted n).
      { eapply (T_step LF Spawn); [reflexivity| intro s; reflexivity| |].
        - intros s _ [[[[H _] _] _] _]. apply (St_count g w s H).
        - intros s _ [[[[[H1 [H2 H3]] H4] H5] _] _]. unfold counted. cbn. splits; auto. }
      intros []. eapply T_bind; [apply T_ext; [reflexivity| apply counted_stable| done]|]. intros []. rd i.
      eapply T_bind with (R := fun _ => ready i (cf_class cf) (cf_workers cf) n avail).
      { eapply (T_step LF Spawn); [reflexivity| intro s; reflexivity| |].
        - intros s _ [[H1 _] H2]. apply (St_setup g w s i (cf_class cf)); [exact H2| congruence].
        - intros s _ [[H1 [H2 [H3 [H4 H5]]]] H6]. unfold ready. cbn. rewrite app_length. cbn. splits; auto; try lia; [eauto|].
          destruct H5 as [H5|(b & a1 & a2 & a3 & Hb & Hp & Hr)]; [left; exact H5| right].
          exists b, a1, a2, a3. splits; [apply best_add; exact Hb| exact Hp| exact Hr]. }
      intros []. apply T_ret. auto.
  Qed.

  Lemma start_step i cls slots n avail : n + avail <= g_max_jobs g ->
    T LF (ready i cls slots n avail) (start_new_job w limit i cls slots) (fun _ => room (n + slots)) any.
  Proof.
    intro Hmax. unfold start_new_job. eapply T_bind; [apply T_ext; [reflexivity| apply ready_stable| done]|]. intros [].
    set (P := fun s => ready i cls slots n avail s /\ nget i (k_packs (st_core s)) = Some (mkCh slots false 0 [] false true)).
    eapply T_bind with (R := fun _ => P).
    { eapply (T_step LF Spawn); [reflexivity| intro s; reflexivity| |].
      - intros s _ [H1 [H2 [H3 _]]]. apply St_register; auto.
      - intros s _ [H1 [H2 [H3 [H4 [H5 [H6 [H7 H8]]]]]]].
        pose proof (living_nset i (mkCh slots false 0 [] false true) (st_core s)) as Hl. cbn in Hl.
        split; [|cbn; apply nget_nset_same]. unfold ready. splits; auto. unfold living_slots in *. cbn in *. lia. }
    intros []. eapply T_bind.
    { apply (T_ext LF P any); [reflexivity| |done]. intros s ms [H1 H2]. split; [apply ready_stable; exact H1|].
      exact (er_dead _ _ _ (apply_moves_rel ms (st_core s)) _ _ H2 eq_refl). }
    intros []. apply T_act with (l := Spawn); [reflexivity| |].
    - intros s _ [[H1 [H2 [H3 [H4 [H5 [H6 [H7 H8]]]]]]] H9]. apply St_start; auto. intro Ho. specialize (H7 Ho). lia.
    - intros s _ [[H1 [H2 [H3 [H4 [H5 [H6 [H7 H8]]]]]]] H9].
      pose proof (living_nset i (mkCh slots true 0 [] false true) (st_core s)) as Hl. cbn in Hl.
      split; [|unfold living_slots in *; cbn in *; lia].
      unfold settled. cbn. rewrite app_length. cbn. splits; [congruence| lia| exact H8].
  Qed.

  Lemma fill_loop_step fuel : forall n started, T LF (room n) (fill_loop g w limit fuel n started) (fun _ => settled) any.
  Proof.
    induction fuel as [|fuel IH]; intros n started; cbn [fill_loop]; [apply T_raise; done|].
    rd sp. destruct (Nat.ltb n (g_max_jobs g) && sp) eqn:E; [|apply T_ret; intros s _ [[H _] _]; exact H].
    apply andb_true_iff in E as [Hn ->]. apply Nat.ltb_lt in Hn. eapply T_bind.
    - eapply T_pre; [|apply (setup_step n)]. intros s _ [H1 H2]. auto.
    - intros [[[i cls] slots]|]; [|apply T_ret; auto].
      eapply T_bind; [apply start_step; lia|]. intros []. apply IH.
  Qed.

  Lemma fill_slots_step : T LF settled (fill_slots g w limit) (fun _ => settled) any.
  Proof.
    unfold fill_slots, pack_ids. rd ids.
    eapply T_bind.
    { apply T_living; [reflexivity| |done]. intros s ms [H1 H2]. split; [apply settled_stable; exact H1|].
      unfold env, upd. cbn. rewrite (er_keys _ _ _ (apply_moves_rel ms (st_core s))). exact H2. }
    intro l. rd count. rd bad. destruct bad; [apply T_raise; done|].
    eapply T_bind.
    { eapply T_pre; [|apply fill_loop_step]. intros s HI [[[[H1 H2] [_ H3]] ->] _]. split; [exact H1|].
      unfold living_slots, slots_of. apply living_cover; [apply (id_nodup _ _ _ (m_id _ _ _ HI))|].
      intros i h Hg Ha. apply (H3 i h); auto. rewrite H2. apply nget_some_in. eauto. }
    intro started. rd ids2. eapply T_bind.
    { apply T_pre with (P := settled); [tauto|]. apply T_living; [reflexivity| apply settled_stable| done]. }
    intro l2. destruct started.
    - apply T_modc; [reflexivity| |].
      + intros s _ [H _]. apply St_minor. destruct (_ =? _); split; auto.
      + intros s _ [[H1 [H2 H3]] _]. unfold settled, upd. cbn. destruct (_ =? _); cbn; splits; auto.
    - destruct (_ =? _); [apply T_raise; done| apply T_ret; intros s _ [H _]; exact H].
  Qed.

  (** *** _is_manual_shutdowns *)
  Lemma manual_shutdown_quiet name : T LQ top (manual_shutdown g w limit name) topv any.
  Proof.
    unfold manual_shutdown.
    destruct (stop_id name) as [z|]; [|apply T_ret; done]. cbn zeta. rd known.
    destruct known; [|apply T_ret; done].
    apply T_pre with (P := fun s => has (Z.to_nat z) s /\ ~ buried (Z.to_nat z) s).
    { intros s _ [_ H]. symmetry in H. apply andb_true_iff in H as [H Hg]. apply andb_true_iff in H as [_ Hd].
      split; [apply nmemd_true in Hd; exact Hd|]. apply nmem_false. apply negb_true_iff in Hg. exact Hg. }
    eapply T_bind with (R := fun _ s => has (Z.to_nat z) s /\ ~ buried (Z.to_nat z) s).
    - apply T_modc; [reflexivity| |auto]. intros s _ _. apply St_minor. split; auto. intros n Hn. apply filter_In in Hn. apply Hn.
    - intros []. eapply T_pre; [|apply shutdown_quiet]. intros s _ [H1 H2]. unfold may_kill. splits; auto. discriminate.
  Qed.

  Lemma manual_shutdowns_quiet : T LQ top (manual_shutdowns g w limit) topv any.
  Proof.
    unfold manual_shutdowns. eapply T_bind; [apply tick_quiet|]. intro t. rd files. eapply T_topv.
    apply T_pre with (P := top); [done|]. apply (T_for_each LQ top files _ any). intros name _. apply manual_shutdown_quiet.
  Qed.

  (** *** checkpoint *)
  Definition chkE (e : exn) (s : mstate) : Prop := e = CheckpointingError -> settled s.

  Lemma T_set {A} (m : M mstate A) : T LQ top m topv any -> T LE settled m (fun _ => settled) chkE.
  Proof.
    intro H. eapply T_conseq; [apply (T_settled _ _ _ _ H)| exact QE|..]; cbn; unfold chkE; try tauto.
    intros s _ Hs. split; [exact I| exact Hs].
  Qed.

  Lemma pause_all_quiet ids : T LQ top (pause_all w limit ids) topv any.
  Proof.
    induction ids as [|i ids IH]; cbn [pause_all]; [apply T_ret; done|].
    eapply T_bind; [apply alive_quiet|]. intro a. eapply T_bind with (R := topv).
    - destruct a; [apply send_quiet| apply T_ret; done].
    - intros []. eapply T_bind; [exact IH|]. intro l. apply T_ret. done.
  Qed.

  Lemma sync_one_quiet i x : ~ no_checkpoints g w -> T LQ top (sync_one w limit i x) topv any.
  Proof.
    intro Hck. unfold sync_one. destruct x as [[no wait] live]. eapply T_bind; [apply alive_quiet|]. intro a.
    destruct a; [|apply T_ret; done]. eapply T_bind; [apply tick_quiet|]. intro t. rd h. destruct h as [h|]; [|apply T_raise; done].
    destruct (c_sigs h) as [|sg sgs]; [destruct (c_closed h); [apply T_raise| apply T_ret]; done|].
    eapply T_bind with (R := fun _ => has i).
    { apply T_modc; [reflexivity| |].
      - intros s _ [H1 H2]. eapply St_child; eauto.
      - intros s _ [H1 H2]. unfold has. cbn. erewrite dkeys_nset_old by eauto. apply nget_some_in. eauto. }
    intros []. destruct sg as [msg|msg| |]; try (apply T_raise; done).
    - eapply T_bind; [apply (T_put_end LQ i _ (has i) any); logt|]. intros [].
      eapply T_bind with (R := topv); [|intros []; apply T_ret; done].
      apply T_modc; [reflexivity| | done]. intros s _ H. apply St_conv_chk; assumption.
    - eapply T_bind with (R := topv); [|intros []; apply T_ret; done].
      apply T_act with (l := Quiet); [reflexivity| |done]. intros s _ H. apply (St_send g w s i (EvPaused i)); [exact H| reflexivity].
  Qed.

  Lemma sync_round_quiet ids : ~ no_checkpoints g w -> forall x, T LQ top (sync_round w limit ids x) topv any.
  Proof.
    intro Hck. induction ids as [|i ids IH]; intro x; cbn [sync_round]; [apply T_ret; done|].
    eapply T_bind; [apply sync_one_quiet; exact Hck|]. intro y. apply IH.
  Qed.

  Lemma sync_loop_step fuel n : ~ no_checkpoints g w -> forall x, T LE settled (sync_loop g w limit fuel n x) (fun _ => settled) chkE.
  Proof.
    intro Hck. induction fuel as [|fuel IH]; intro x; cbn [sync_loop]; [apply T_raise; discriminate|].
    destruct x as [[no wait] live]. destruct wait as [|i wait]; [apply T_ret; auto|].
    eapply T_bind; [apply T_set, tick_quiet|]. intro t.
    eapply T_bind with (R := fun _ => settled).
    - destruct (w_full w t); [|apply T_ret; auto]. eapply T_bind; [apply process_results_step|]. intro p. apply T_ret. auto.
    - intro no2. eapply T_bind; [apply T_set, sync_round_quiet; exact Hck|]. intro y. apply IH.
  Qed.

  Lemma save_one_quiet no i : T LQ top (save_one w limit no i) topv any.
  Proof.
    unfold save_one. eapply T_bind; [apply alive_quiet|]. intro a. destruct a; [|apply T_ret; done].
    destruct (nmem i no); apply send_quiet.
  Qed.

  Lemma hold_round_quiet ids : T LQ top (hold_round w limit ids) topv any.
  Proof.
    induction ids as [|i ids IH]; cbn [hold_round]; [apply T_ret; done|].
    eapply T_bind; [apply tick_quiet|]. intro t. rd r. eapply T_bind; [eapply T_pre; [|exact IH]; done|]. intro l. apply T_ret. done.
  Qed.

  Lemma hold_loop_quiet fuel : forall ids, T LQ top (hold_loop w limit fuel ids) topv any.
  Proof.
    induction fuel as [|fuel IH]; intro ids; cbn [hold_loop]; [apply T_raise; done|].
    destruct ids; [apply T_ret; done|]. eapply T_bind; [apply hold_round_quiet|]. intro l. apply IH.
  Qed.

  Lemma confirm_one_quiet i : T LQ top (confirm_one w limit i) topv any.
  Proof.
    unfold confirm_one. eapply T_bind; [apply tick_quiet|]. intro t. destruct (w_saved w t i); [apply T_ret| apply T_raise]; done.
  Qed.

  Lemma for_each_quiet {A} (l : list A) f : (forall a, T LQ top (f a) topv any) -> T LQ top (for_each l f) topv any.
  Proof. intro H. eapply T_topv. apply (T_for_each LQ top l f any). intros a _. apply H. Qed.

  Lemma checkpoint_optimizers_step : ~ no_checkpoints g w ->
    T LE settled (checkpoint_optimizers g w limit) (fun _ => settled) chkE.
  Proof.
    intro Hck. unfold checkpoint_optimizers, pack_ids. rd ids. apply T_pre with (P := settled); [tauto|].
    eapply T_bind; [apply T_set, pause_all_quiet|]. intro messaged.
    eapply T_bind; [apply sync_loop_step; exact Hck|]. intros [[no wt] live].
    eapply T_bind; [apply process_results_step|]. intro p. cbn zeta.
    eapply T_bind; [apply T_set, tick_quiet|]. intro t. rd empty. apply T_pre with (P := settled); [tauto|].
    eapply T_bind with (R := fun _ => settled).
    { destruct empty; [apply T_ret; auto| apply T_raise; discriminate]. }
    intros []. eapply T_bind; [apply T_set, ext_quiet|]. intros [].
    eapply T_bind; [apply T_set, for_each_quiet; intro; apply save_one_quiet|]. intros [].
    eapply T_bind; [apply T_set, hold_loop_quiet|]. intros [].
    apply T_set, for_each_quiet. intro. apply confirm_one_quiet.
  Qed.

  Lemma toggle_one_quiet i : T LQ top (toggle_one w limit i) topv any.
  Proof.
    unfold toggle_one. eapply T_bind; [apply alive_quiet|]. intro a. destruct a; [|apply T_ret; done].
    intros s HI _. cbn. unfold modc, modify. cbn. split; [|exact I].
    destruct (nget i (k_packs (st_core s))) as [h|] eqn:E.
    - eapply star_one with (l := Quiet); [reflexivity|].
      exact (St_child g w s i h (mkCh (c_slots h) (c_alive h) (c_code h) (c_sigs h) (c_closed h) true) E eq_refl eq_refl).
    - destruct s; constructor.
  Qed.

  Lemma note_step e E : In e [EvSelect; EvSaveLog] ->
    T LE settled (note e) (fun _ => settled) E.
  Proof.
    intro He. apply T_act with (l := Quiet); [reflexivity| |].
    - intros s _ H. apply St_note; assumption.
    - intros s _ [H1 [H2 H3]]. unfold settled. cbn. destruct He as [<-|[<-|[]]]; splits; assumption.
  Qed.

  Lemma written_kept l s s' : LE l = true -> step l s s' -> log_written (st_hist s) -> log_written (st_hist s').
  Proof.
    intros Hl Hst (ha & cl & hb & E & H1 & H2 & H3).
    assert (K : forall c e, (forall h, setups ((c, e) :: h) = setups h) -> (forall h, starts ((c, e) :: h) = starts h) -> e <> EvLoad ->
                log_written ((c, e) :: st_hist s)).
    { intros c e K1 K2 K3. exists ((c, e) :: ha), cl, hb. rewrite E, K1, K2. splits; auto. cbn. intros [H|H]; auto. }
    destruct Hst; talks; try discriminate Hl; cbn [noted upd st_hist]; try (apply K; [reflexivity|reflexivity|discriminate]); try (exists ha, cl, hb; splits; assumption).
    destruct H as [<-|[<-|[]]]; apply K; (reflexivity || discriminate).
  Qed.

  Lemma T_written {A} (P : mstate -> Prop) (m : M mstate A) Q E : T LE P m Q E ->
    T LE (fun s => P s /\ log_written (st_hist s)) m (fun a s => Q a s /\ log_written (st_hist s)) E.
  Proof.
    intro H. assert (Hk : forall l s s', LE l = true -> Inv s -> step l s s' -> log_written (st_hist s) -> log_written (st_hist s')).
    { intros l s s' Hl _ Hst. eapply written_kept; eassumption. }
    eapply T_conseq; [apply (T_frame LE _ _ _ _ _ Hk H)|auto|auto|auto|]. intros e s [He _]. exact He.
  Qed.

  Lemma checkpoint_step : ~ no_checkpoints g w -> T LE settled (checkpoint g w limit) (fun _ => settled) any.
  Proof.
    intro Hck. unfold checkpoint. eapply T_bind; [eapply T_any, T_set, ext_quiet|]. intros [].
    eapply T_bind with (R := fun _ => settled).
    - eapply T_try with (R := chkE); [| |done].
      + eapply T_bind; [apply T_set, ext_quiet|]. intros []. eapply T_bind with (R := fun _ s => settled s /\ log_written (st_hist s)).
        { apply T_act with (l := Quiet); [reflexivity| |].
          - intros s _ H. apply St_note; [right; left; reflexivity| exact H].
          - intros s _ [H1 [H2 H3]]. unfold settled. cbn. splits; try assumption. exists [], (st_core s), (st_hist s). cbn. splits; auto. }
        intros []. eapply T_bind; [apply T_written, checkpoint_optimizers_step; exact Hck|]. intros [].
        eapply T_bind; [apply T_written, T_set, ext_quiet|]. intros [].
        eapply T_bind with (R := fun _ => settled).
        { apply T_act with (l := Quiet); [reflexivity| |].
          - intros s _ [H1 H2]. apply St_saved; assumption.
          - intros s _ [[H1 [H2 H3]] _]. unfold settled. cbn. splits; assumption. }
        intros []. apply T_set, ext_quiet.
      + intros e He. destruct e; try discriminate He. destruct (g_raise_fail g); [apply T_raise; done|].
        apply T_ret. intros s _ H. apply H. reflexivity.
    - intros []. rd conv. apply T_pre with (P := settled); [tauto|]. eapply T_bind with (R := fun _ => settled).
      + destruct conv; [|apply T_ret; auto]. unfold pack_ids. rd ids. apply T_pre with (P := settled); [tauto|].
        eapply T_any, T_set, for_each_quiet. intro i. eapply T_bind; [apply alive_quiet|]. intro a.
        destruct a; [apply send_quiet| apply T_ret; done].
      + intros []. unfold pack_ids. rd ids. apply T_pre with (P := settled); [tauto|].
        eapply T_any, T_set, for_each_quiet. intro i. apply toggle_one_quiet.
  Qed.

  (** *** The management loop *)
  Definition LP (l : lab) : bool := match l with Quiet | Purge => true | _ => false end.

  Lemma judge_kept l s s' : l <> Judge -> step l s s' ->
    k_converged (st_core s') = k_converged (st_core s) /\ last_judge (st_hist s') = last_judge (st_hist s) /\
    last_judgement (st_hist s') = last_judgement (st_hist s).
  Proof.
    intros Hl Hst. destruct Hst; talks; try contradiction; cbn; auto.
    - destruct (apply_moves_rel ms (st_core s)). auto.
    - destruct H. auto.
    - destruct H as [<-|[<-|[]]]; auto.
  Qed.

  Lemma f_kept l s s' : l <> Eval -> step l s s' -> k_f (st_core s') = k_f (st_core s).
  Proof.
    intros Hl Hst. destruct Hst; talks; try contradiction; cbn; auto.
    - destruct (apply_moves_rel ms (st_core s)). auto.
    - destruct H. auto.
  Qed.

  Lemma purge_settled l s s' : LP l = true -> step l s s' -> settled s -> settled s'.
  Proof. intros Hl Hst. destruct l; try discriminate; [apply (settled_kept Quiet); auto|]. inversion Hst; subst. exact (fun H => H). Qed.

  Lemma purge_one_step i : T LP top (purge_one w limit i) topv any.
  Proof.
    unfold purge_one, in_grave. eapply T_bind; [eapply T_sub; [|apply alive_quiet]; intros []; auto|]. intro a. rd b.
    destruct (negb a && b) eqn:E; [|apply T_ret; done]. apply andb_true_iff in E as [_ ->].
    eapply (T_step LP Purge); [reflexivity| intro s; reflexivity| | done].
    intros s _ [_ H]. apply St_purge. apply nmem_in. auto.
  Qed.

  Lemma verdict_of h : last_judgement h = match last_judge h with Some (c, a, d) => Some (verdict c a d) | None => None end.
  Proof. induction h as [|[c e] h IH]; [reflexivity|]. destruct e; cbn; auto. Qed.

  Section Iteration.
    Context (F : nat) (U : nat -> Prop) (HF : U F) (HU : no_checkpoints g w \/ forall n, U n).
    Context (Hproc : T LE (at_f F) (process_results g w limit (Some 10)) (fun _ s => settled s /\ U (k_f (st_core s)))
                       (fun _ s => U (k_f (st_core s)))).

    Definition pending (s : mstate) : Prop := last_judgement (st_hist s) <> Some true.
    Definition before (s : mstate) : Prop := at_f F s /\ pending s.
    Definition within (s : mstate) : Prop := settled s /\ U (k_f (st_core s)) /\ pending s.
    Definition iterE (e : exn) (s : mstate) : Prop := U (k_f (st_core s)) /\ (g_chk g = false -> pending s).

    Lemma pending_kept l s s' : l <> Judge -> step l s s' -> pending s -> pending s'.
    Proof. intros Hl Hst. unfold pending. destruct (judge_kept _ _ _ Hl Hst) as [_ [_ ->]]. auto. Qed.

    Lemma T_before {A} (m : M mstate A) : T LQ top m topv any -> T LA before m (fun _ => before) iterE.
    Proof.
      intro H. assert (Hk : forall l s s', LQ l = true -> Inv s -> step l s s' -> before s -> before s').
      { intros l s s' Hl _ Hst [H1 H2]. split; [eapply at_f_kept; eauto|]. eapply pending_kept; eauto. destruct l; discriminate. }
      eapply T_conseq; [apply (T_frame LQ _ _ _ _ _ Hk H)| reflexivity|..].
      - intros s _ Hs. split; [exact I| exact Hs].
      - intros a s _ [_ Hs]. exact Hs.
      - intros e s [_ [[_ H1] H2]]. unfold iterE. rewrite H1. auto.
    Qed.

    Lemma T_within {A} (L : lab -> bool) (m : M mstate A) : (forall l, L l = true -> LP l = true) ->
      T L top m topv any -> T LA within m (fun _ => within) iterE.
    Proof.
      intros HL H. assert (Hk : forall l s s', L l = true -> Inv s -> step l s s' -> within s -> within s').
      { intros l s s' Hl _ Hst [H1 [H2 H3]]. apply HL in Hl. unfold within. splits.
        - eapply purge_settled; eauto.
        - rewrite (f_kept l s s'); auto. destruct l; discriminate.
        - eapply pending_kept; eauto. destruct l; discriminate. }
      eapply T_conseq; [apply (T_frame L _ _ _ _ _ Hk H)| reflexivity|..].
      - intros s _ Hs. split; [exact I| exact Hs].
      - intros a s _ [_ Hs]. exact Hs.
      - intros e s [_ [H1 [H2 H3]]]. unfold iterE. auto.
    Qed.

    Lemma T_within2 {A} (m : M mstate A) (P : mstate -> Prop) (Q : A -> mstate -> Prop) :
      T LQ P m Q any -> T LA (fun s => within s /\ P s) m (fun a s => within s /\ Q a s) iterE.
    Proof.
      intros H. assert (Hk : forall l s s', LQ l = true -> Inv s -> step l s s' -> within s -> within s').
      { intros l s s' Hl _ Hst [H1 [H2 H3]]. unfold within. splits.
        - eapply settled_kept; eauto.
        - rewrite (f_kept l s s'); auto. destruct l; discriminate.
        - eapply pending_kept; eauto. destruct l; discriminate. }
      eapply T_conseq; [apply (T_frame LQ _ _ _ _ _ Hk H)| reflexivity|..].
      - intros s _ [H1 H2]. auto.
      - intros a s _ [H1 H2]. auto.
      - intros e s [_ [H1 [H2 H3]]]. unfold iterE. auto.
    Qed.

    (** What the manager knows after asking each child whether it is alive. *)
    Definition surveyed (ids l : list nat) (s : mstate) : Prop :=
      dkeys (k_packs (st_core s)) = ids /\ incl l ids /\
      forall i h, nget i (k_packs (st_core s)) = Some h -> c_alive h = true -> In i l.

    Lemma surveyed_stable ids l : env_stable (surveyed ids l).
    Proof.
      intros s ms [H1 [H2 H3]]. unfold surveyed. splits; [|exact H2|].
      - unfold env, upd. cbn. rewrite (er_keys _ _ _ (apply_moves_rel ms (st_core s))). exact H1.
      - intros i h Hg Ha. destruct (er_child _ _ _ (apply_moves_rel ms (st_core s)) i h Hg) as [h0 [Hg0 [_ Hm]]].
        apply (H3 i h0 Hg0). auto.
    Qed.

    Lemma survey ids : T LQ (fun s => dkeys (k_packs (st_core s)) = ids) (living w limit ids) (surveyed ids) any.
    Proof.
      eapply T_post; [|apply T_living; [reflexivity| |done]].
      - intros l s HI [H1 [H2 H3]]. unfold surveyed. splits; auto. intros i h Hg Ha. apply (H3 i h); auto.
        cbn in H1. rewrite <- H1. apply nget_some_in. eauto.
      - intros s ms H. unfold env, upd. cbn. rewrite (er_keys _ _ _ (apply_moves_rel ms (st_core s))). exact H.
    Qed.

    Lemma QP l : LQ l = true -> LP l = true.
    Proof. destruct l; auto. Qed.

    (** A checkpoint: then there is no bound to keep. *)
    Lemma checkpoint_in (P : mstate -> Prop) : ~ no_checkpoints g w ->
      (forall l s s', l <> Judge -> step l s s' -> P s -> P s') ->
      T LA (fun s => settled s /\ P s) (checkpoint g w limit) (fun _ s => settled s /\ U (k_f (st_core s)) /\ P s)
        (fun _ s => U (k_f (st_core s)) /\ P s).
    Proof.
      intros Hck HP. destruct HU as [Hn|Hn]; [contradiction|].
      assert (Hk : forall l s s', LE l = true -> Inv s -> step l s s' -> P s -> P s').
      { intros l s s' Hl _ Hst. eapply HP; [|exact Hst]. destruct l; discriminate. }
      eapply T_conseq; [apply (T_frame LE _ _ _ _ _ Hk (checkpoint_step Hck))| reflexivity| auto|..].
      - intros a s _ [H1 H2]. auto.
      - intros e s [_ H2]. auto.
    Qed.

    Definition judged (chk : bool) (s : mstate) : Prop :=
      (exists c d, last_judge (st_hist s) = Some (c, chk, d)) /\
      (no_checkpoints g w -> exists t c, w_check w t c = Ok chk /\ k_f c = k_f (st_core s)).

    Lemma iteration_step :
      T LA (fun s => at_f F s /\ k_converged (st_core s) = false) (iteration g w limit)
        (fun chk s => settled s /\ U (k_f (st_core s)) /\ judged chk s) iterE.
    Proof.
      unfold iteration. eapply T_bind with (R := fun _ => before).
      { apply T_act with (l := Quiet); [reflexivity| |].
        - intros s _ [[H _] H2]. apply St_iter; assumption.
        - intros s HI [H1 H2]. split; [exact H1|]. intro Hj. pose proof (ax_judge _ _ _ (m_aux _ _ _ HI) _ Hj). congruence. }
      intros []. eapply T_bind with (R := fun _ => before).
      { assert (Hk : forall l s s', LF l = true -> Inv s -> step l s s' -> (k_f (st_core s) = F /\ pending s) -> (k_f (st_core s') = F /\ pending s')).
        { intros l s s' Hl _ Hst [H1 H2]. split; [rewrite (f_kept l s s'); auto; destruct l; discriminate|].
          eapply pending_kept; eauto. destruct l; discriminate. }
        eapply T_conseq; [apply (T_frame LF _ _ _ _ _ Hk fill_slots_step)| reflexivity|..].
        - intros s _ [[H1 H2] H3]. auto.
        - intros a s _ [H1 [H2 H3]]. split; [split; assumption| assumption].
        - intros e s [_ [H1 H2]]. unfold iterE. rewrite H1. auto. }
      intros []. unfold pack_ids. rd ids. apply T_pre with (P := before); [tauto|].
      eapply T_bind.
      { apply T_before, for_each_quiet. intro i. eapply T_bind; [apply check_signals_quiet|]. intro. apply T_ret. done. }
      intros []. eapply T_bind with (R := fun _ => within).
      { assert (Hk : forall l s s', LE l = true -> Inv s -> step l s s' -> pending s -> pending s').
        { intros l s s' Hl _ Hst. apply pending_kept with (l := l); [destruct l; discriminate| exact Hst]. }
        eapply T_conseq; [apply (T_frame LE _ _ _ _ _ Hk Hproc)| reflexivity|..].
        - intros s _ H. exact H.
        - intros a s _ [[H1 H2] H3]. unfold within. auto.
        - intros e s [H1 H2]. split; auto. }
      intro pr. eapply T_bind; [apply (T_within LQ _ QP), manual_shutdowns_quiet|]. intros [].
      eapply T_bind with (R := fun _ => within).
      { unfold manual_checkpoints. eapply T_bind; [apply (T_within LQ _ QP), tick_quiet|]. intro t. rd b. destruct b; [|apply T_ret; tauto].
        apply T_pure with (phi := ~ no_checkpoints g w).
        { intros s HI [_ Hb] Hn. pose proof (id_chk _ _ _ (m_id _ _ _ HI) Hn). congruence. }
        intro Hck. eapply T_bind with (R := fun _ s => settled s /\ pending s).
        - apply T_modc; [reflexivity| |].
          + intros s _ _. apply St_minor. split; auto. cbn. discriminate.
          + intros s _ [[H1 [H2 H3]] _]. split; assumption.
        - intros []. eapply T_conseq; [apply (checkpoint_in pending Hck)|auto|auto|..]; auto.
          + apply pending_kept.
          + intros e s [H1 H2]. split; auto. }
      intros []. eapply T_bind; [apply (T_within LQ _ QP), inspect_children_quiet|]. intros [].
      rd ids2. apply T_pre with (P := within); [tauto|]. eapply T_bind.
      { apply (T_within LP); [auto|]. eapply T_topv. apply (T_for_each LP top ids2 _ any). intros i _. apply purge_one_step. }
      intros []. rd ids3. eapply T_bind with (R := fun l s => within s /\ surveyed ids3 l s).
      { eapply T_pre; [|apply (T_within2 _ _ _ (survey ids3))]. intros s _ [H ->]. auto. }
      intro l. cbn zeta. unfold checker_call.
      eapply T_bind with (R := fun chk s => within s /\ surveyed ids3 l s /\ exists t, w_check w t (st_core s) = Ok chk).
      { eapply T_bind; [apply (T_within2 _ (surveyed ids3 l) (fun _ => surveyed ids3 l)), T_tick; [reflexivity| apply surveyed_stable| done]|].
        intro t. rd c. eapply T_post; [|apply T_lift].
        - intros a s _ [[[H1 H2] ->] H3]. splits; eauto.
        - intros e s _ [[[H1 [H2 H3]] _] _]. split; auto. }
      intro chk. eapply T_bind with (R := fun _ s => settled s /\ U (k_f (st_core s)) /\ judged chk s).
      { apply T_act with (l := Judge); [reflexivity| |].
        - intros s _ [[H [_ Hp]] [[S1 [S2 S3]] Hc]]. apply St_judge; auto.
          destruct (length l =? 0) eqn:El.
          + apply Nat.eqb_eq in El. destruct l; [|discriminate]. intros i h Hg. destruct (c_alive h) eqn:Ea; [|reflexivity].
            destruct (S3 i h Hg Ea).
          + destruct l as [|i l]; [discriminate|]. intro Hk. rewrite Hk in S1. cbn in S1. subst ids3. exact (S2 i (or_introl eq_refl)).
        - intros s _ [[H1 [H2 H3]] [_ [t Hc]]]. unfold judged. splits; [exact H1| exact H2| cbn; eauto| intros _; exists t, (st_core s); auto]. }
      intros []. eapply T_bind with (R := fun _ s => settled s /\ U (k_f (st_core s)) /\ judged chk s).
      2: { intros []. apply T_ret. auto. }
      unfold periodic_checkpoint. destruct (g_chk g) eqn:Eg; [|apply T_ret; auto].
      assert (Hck : ~ no_checkpoints g w) by (intros [H _]; congruence).
      assert (Hsub : T LA (fun s => settled s /\ exists c d, last_judge (st_hist s) = Some (c, chk, d)) (checkpoint g w limit)
                       (fun _ s => settled s /\ U (k_f (st_core s)) /\ judged chk s) iterE).
      { eapply T_conseq; [apply (checkpoint_in (fun s => exists c d, last_judge (st_hist s) = Some (c, chk, d)) Hck)|auto|auto|..]; auto.
        - intros l0 s s' Hl Hst. destruct (judge_kept _ _ _ Hl Hst) as [_ [-> _]]. auto.
        - intros a s _ [H1 [H2 H3]]. unfold judged. splits; auto. contradiction.
        - intros e s [H1 _]. split; [exact H1| congruence]. }
      destruct HU as [Hn|Hn]; [contradiction|].
      eapply T_bind with (R := fun _ s => settled s /\ exists c d, last_judge (st_hist s) = Some (c, chk, d)).
      { assert (Hk : forall l s s', LQ l = true -> Inv s -> step l s s' -> (settled s /\ exists c d, last_judge (st_hist s) = Some (c, chk, d)) ->
                       settled s' /\ exists c d, last_judge (st_hist s') = Some (c, chk, d)).
        { intros l0 s s' Hl _ Hst [H1 H2]. split; [eapply settled_kept; eauto|].
          destruct (judge_kept l0 s s') as [_ [-> _]]; auto. destruct l0; discriminate. }
        eapply T_conseq; [apply (T_frame LQ _ _ _ _ _ Hk tick_quiet)| reflexivity|..].
        - intros s _ [H1 [H2 [H3 _]]]. splits; auto. exact I.
        - intros a s _ [_ H]. exact H.
        - intros e s _. split; [apply Hn| congruence]. }
      intro t. rd c. apply T_pre with (P := fun s => settled s /\ exists c d, last_judge (st_hist s) = Some (c, chk, d)); [tauto|].
      destruct (w_time_chk w t); [exact Hsub|].
      assert (Hret : T LA (fun s => settled s /\ exists c d, last_judge (st_hist s) = Some (c, chk, d)) (ret tt)
                       (fun _ s => settled s /\ U (k_f (st_core s)) /\ judged chk s) iterE).
      { apply T_ret. intros s _ [H1 H2]. unfold judged. splits; auto. contradiction. }
      destruct (g_iter_freq g) as [n|]; [|exact Hret]. destruct (_ <? _); [|exact Hret].
      eapply T_bind with (R := fun _ s => settled s /\ exists c d, last_judge (st_hist s) = Some (c, chk, d)); [|intros []; exact Hsub].
      apply T_modc; [reflexivity| |auto]. intros s _ _. apply St_minor. split; auto.
    Qed.
  End Iteration.

  (** The last judgement said: stop; the reason given is the checker if it was satisfied. *)
  Definition ended (r0 r : reason) (s : mstate) : Prop :=
    exists c chk d, last_judge (st_hist s) = Some (c, chk, d) /\ verdict c chk d = true /\ r = if chk : bool then RChecker else r0.

  Lemma ended_kept r0 r l s s' : l <> Judge -> step l s s' -> ended r0 r s -> ended r0 r s'.
  Proof. intros Hl Hst. unfold ended. destruct (judge_kept _ _ _ Hl Hst) as [_ [-> _]]. auto. Qed.

  Lemma judged_verdict s c chk d : Inv s -> last_judge (st_hist s) = Some (c, chk, d) -> k_converged (st_core s) = verdict c chk d.
  Proof. intros HI H. apply (ax_judge _ _ _ (m_aux _ _ _ HI)). rewrite verdict_of, H. reflexivity. Qed.

  Definition mainP (r0 r : reason) (s : mstate) : Prop :=
    settled s /\ ((k_converged (st_core s) = false /\ r = r0) \/ (k_converged (st_core s) = true /\ ended r0 r s)).
  Definition mainE (e : exn) (s : mstate) : Prop := g_chk g = false -> quits e \/ pending s.

  Lemma main_step r0 fuel : forall r, T LA (mainP r0 r) (main_loop g w limit fuel r) (fun r' s => settled s /\ ended r0 r' s) mainE.
  Proof.
    induction fuel as [|fuel IH]; intro r; cbn [main_loop].
    { apply T_raise. intros s _ _. left. right. reflexivity. }
    rd conv. destruct conv.
    - apply T_ret. intros s _ [[H1 [[H2 _]|[_ H2]]] H3]; [congruence| auto].
    - intros s HI [[H1 H2] H3]. assert (Hr : r = r0) by (destruct H2 as [[_ ->]|[H2 _]]; [reflexivity| congruence]). subst r.
      refine (T_bind LA (fun s' => at_f (k_f (st_core s)) s' /\ k_converged (st_core s') = false) _ _
                (fun chk s' => mainP r0 (if chk : bool then RChecker else r0) s') _ _ _ _ s HI _).
      + eapply T_conseq; [apply (iteration_step (k_f (st_core s)) (fun _ => True)); auto|auto|auto|..].
        * eapply T_conseq; [apply process_results_step|auto|..]; auto. intros s' _ [H _]. exact H.
        * intros chk s' HI' [S1 [_ [[c [d Hj]] _]]]. split; [exact S1|]. pose proof (judged_verdict _ _ _ _ HI' Hj) as Hv.
          destruct (verdict c chk d) eqn:Ev; [right| left]; (split; [exact Hv|]).
          -- exists c, chk, d. auto.
          -- unfold verdict in Ev. destruct chk; [discriminate| reflexivity].
        * intros e s' [_ H] Hn. right. auto.
      + intro chk. apply IH.
      + split; [split; [exact H1| reflexivity]| congruence].
  Qed.

  (** With a checker that says stop after [fm] evaluations at the latest, chunks of at most [K] and no checkpoint. *)
  Lemma main_bound fm K fuel : no_checkpoints g w -> chunks_le K -> (forall t c, exists b, w_check w t c = Ok b /\ (b = false -> k_f c < fm)) -> forall r,
    T LA (fun s => settled s /\ k_f (st_core s) <= fm - 1 + (9 + K) /\ (k_converged (st_core s) = false -> k_f (st_core s) < fm))
      (main_loop g w limit fuel r) (fun _ s => settled s /\ k_f (st_core s) <= fm - 1 + (9 + K))
      (fun _ s => k_f (st_core s) <= fm - 1 + (9 + K)).
  Proof.
    intros Hn HK Hc. induction fuel as [|fuel IH]; intro r; cbn [main_loop].
    { apply T_raise. tauto. }
    rd conv. destruct conv; [apply T_ret; tauto|].
    intros s HI [[H1 [H2 H3]] H4]. symmetry in H4. specialize (H3 H4).
    refine (T_bind LA (fun s' => at_f (k_f (st_core s)) s' /\ k_converged (st_core s') = false) _ _
              (fun chk s' => settled s' /\ k_f (st_core s') <= fm - 1 + (9 + K) /\ (k_converged (st_core s') = false -> k_f (st_core s') < fm)) _ _ _ _ s HI _).
    - eapply T_conseq; [apply (iteration_step (k_f (st_core s)) (fun n => n <= k_f (st_core s) + (9 + K))); auto; [lia|]|auto|auto|..].
      + eapply T_conseq; [apply (process_results_bound (k_f (st_core s)) K 9 HK)|auto|auto|..]; auto. intros e s' [_ H]. exact H.
      + intros chk s' HI' [S1 [S2 [[c [d Hj]] Hck]]]. splits; [exact S1| lia|]. intro Hcv.
        pose proof (judged_verdict _ _ _ _ HI' Hj) as Hv. destruct (Hck Hn) as [t [c' [Hw Hf]]].
        destruct (Hc t c') as (b & Eb & Hb). rewrite Eb in Hw. injection Hw as ->. unfold verdict in Hv. destruct chk; [cbn in Hv; congruence|].
        specialize (Hb eq_refl). lia.
      + intros e s' [H _]. lia.
    - intro chk. apply IH.
    - split; [split; [exact H1| reflexivity]| exact H4].
  Qed.

  (** *** _stop_all_children *)
  Definition trj (s : mstate) : Prop := l_traj (k_log (st_core s)) = true.

  Lemma trj_same l s s' : step l s s' -> l_traj (k_log (st_core s')) = l_traj (k_log (st_core s)).
  Proof.
    intros Hst. destruct Hst; talks; cbn; auto.
    - rewrite (er_log _ _ _ (apply_moves_rel ms (st_core s))). reflexivity.
    - destruct H. congruence.
    - apply lstep_traj.
    - apply (lstep_traj (ClearCache None)).
    - apply put_iteration_traj.
  Qed.

  Definition quitE (e : exn) (s : mstate) : Prop := trj s -> quits e.

  Lemma T_meta i k v (P : mstate -> Prop) :
    (forall s, Inv s -> P s -> has i s) -> (forall s l, P s -> P (upd (set_klog l) s)) ->
    T LQ P (logm (put_metadata i k v)) (fun _ => P) quitE.
  Proof.
    intros Hi HP s HI Hs.
    assert (H1 : T LQ P (logm (lstep (PutMeta i k v))) (fun _ => P) any).
    { apply T_log; [reflexivity| |exact HP| done]. intros s' HI' H'. apply id_of_has; auto. }
    destruct (H1 s HI Hs) as [H2 H3]. clear H3. split; [exact H2|].
    unfold logm. pose proof (kp_store _ (m_keep _ _ _ HI)) as Hst. pose proof (kp_keys _ (m_keep _ _ _ HI) i (Hi s HI Hs)) as Hlen.
    unfold put_metadata. destruct (nget i (l_store (k_log (st_core s)))) eqn:E; [exact (HP s _ Hs)|].
    intro Ht. exfalso. apply nget_none in E. apply E. apply Hst; [|exact Hlen]. exact Ht.
  Qed.

  Lemma stop_one_quiet crash i : T LQ (has i) (stop_one w limit crash i) topv quitE.
  Proof.
    unfold stop_one. rd has0. apply T_pre with (P := has i); [tauto|].
    eapply T_bind with (R := fun _ => has i).
    - destruct has0; [apply T_ret; auto|]. eapply T_bind with (R := fun _ => has i).
      + apply T_modc; [reflexivity| |auto]. intros s _ H. apply St_bury. exact H.
      + intros []. unfold put_end. eapply T_bind; [apply T_meta; auto|]. intros []. apply T_meta; auto.
    - intros []. assert (Hq : forall (e : exn) (s : mstate), quits e -> top s -> quitE e s) by (intros e s H _ _; exact H).
      eapply T_bind; [apply T_pre with (P := top); [done|]; apply T_is_alive; [reflexivity| apply top_stable| exact Hq]|].
      intro a. apply T_pre with (P := top); [done|]. destruct a; [|apply T_ret; done].
      eapply T_bind; [apply T_tick; [reflexivity| apply top_stable| exact Hq]|]. intro t.
      eapply T_bind; [apply T_is_alive; [reflexivity| apply top_stable| exact Hq]|]. intro b. apply T_ret. done.
  Qed.

  Lemma not_exception e : is_exception e = false -> quits e.
  Proof. destruct e; try discriminate; intros _; [left| right]; reflexivity. Qed.

  Lemma stop_all_quiet crash : T LQ top (stop_all_children w limit crash) topv quitE.
  Proof.
    unfold stop_all_children, pack_ids. rd ids.
    set (K := fun s => forall i, In i ids -> has i s).
    assert (HK : forall l s s', LQ l = true -> Inv s -> step l s s' -> K s -> K s').
    { intros l s s' Hl _ Hst H i Hi. unfold has. rewrite (keys_kept _ _ _ (QE _ Hl) Hst). apply H. exact Hi. }
    assert (HT : forall A (m : M mstate A), T LQ top m topv any -> T LQ K m (fun _ => K) (fun _ => K)).
    { intros A m H. eapply T_conseq; [apply (T_frame LQ _ _ _ _ _ HK H)|auto|..].
      - intros s _ Hs. split; [exact I| exact Hs].
      - intros a s _ [_ Hs]. exact Hs.
      - intros a s [_ Hs]. exact Hs. }
    apply T_pre with (P := K).
    { intros s _ [_ ->]. intros i Hi. exact Hi. }
    assert (HQ : forall e s, is_exception e = false -> K s -> quitE e s) by (intros e s He _ _; apply not_exception; exact He).
    eapply T_bind with (R := fun _ => K).
    { eapply T_try with (R := fun _ => K); [|intros; apply T_ret; auto| exact HQ].
      apply HT, for_each_quiet. intro i. eapply T_bind; [apply alive_quiet|]. intro a. destruct a; [apply send_quiet| apply T_ret; done]. }
    intros []. eapply T_bind with (R := fun _ => K).
    { eapply T_try with (R := fun _ => K); [|intros; apply T_ret; auto| exact HQ].
      apply HT. generalize (S limit). intro fuel. induction fuel as [|fuel IH]; cbn [drain_loop]; [apply T_raise; done|].
      eapply T_bind with (R := topv); [|intros [ch|]; [exact IH| apply T_ret; done]].
      unfold queue_get. eapply T_bind; [apply tick_quiet|]. intro t. rd q. destruct q as [|ch q']; [apply T_ret; done|].
      eapply T_bind with (R := topv); [|intros []; apply T_ret; done]. apply T_modc; [reflexivity| |done].
      intros s _ [_ H]. apply St_minor. split; auto. cbn. rewrite <- H. right. assumption. }
    intros [].
    assert (Hloop : forall l, (forall i, In i l -> In i ids) -> T LQ K (for_each l (stop_one w limit crash)) topv quitE).
    { induction l as [|i l IH]; intro Hl; cbn [for_each]; [apply T_ret; done|].
      eapply T_bind with (R := fun _ => K); [|intros []; apply IH; intros j Hj; apply Hl; right; exact Hj].
      eapply T_conseq; [apply (T_frame LQ _ _ _ _ _ HK (stop_one_quiet crash i))|auto|..].
      - intros s _ H. split; [|exact H]. apply H, Hl. left. reflexivity.
      - intros a s _ [_ H]. exact H.
      - intros e s [H _]. exact H. }
    apply Hloop. auto.
  Qed.

  (** *** start_manager *)
  Definition normal (r : reason) : Prop := r = RChecker \/ r = RDead \/ r = RNone.

  (** Slots of all registered children. *)
  Definition pack_slots (c : core) : nat := sum_nat (map (fun p => c_slots (snd p)) (k_packs c)).

  Lemma pack_slots_nset i h h' c : nget i (k_packs c) = Some h -> c_slots h' = c_slots h ->
    pack_slots (set_kpacks (nset i h' (k_packs c)) c) = pack_slots c.
  Proof.
    unfold pack_slots. cbn. intros Hg Hs. induction (k_packs c) as [|[j x] d IH]; cbn in *; [discriminate|].
    destruct (Nat.eqb i j); cbn; [injection Hg as ->; rewrite Hs; reflexivity|]. rewrite IH; auto.
  Qed.

  Lemma pack_slots_moves ms : forall c, pack_slots (apply_moves ms c) = pack_slots c.
  Proof.
    unfold apply_moves. induction ms as [|m ms IH]; intro c; cbn [fold_left]; [reflexivity|]. rewrite IH.
    assert (H : forall i f, (forall h, c_slots (f h) = c_slots h) -> pack_slots (on_child i f c) = pack_slots c).
    { intros i f Hf. unfold on_child. destruct (nget i (k_packs c)) as [h|] eqn:E; [|reflexivity].
      destruct (c_alive h); [|reflexivity]. apply pack_slots_nset with (h := h); auto. }
    destruct m; cbn [apply_move]; try (apply H; intro h; cbn; try destruct (c_closed h); reflexivity); try reflexivity.
    destruct (forallb _ _); reflexivity.
  Qed.

  Lemma living_dead i h c : nget i (k_packs c) = Some h -> c_alive h = false -> living_slots c + c_slots h <= pack_slots c.
  Proof.
    unfold living_slots, pack_slots. intros Hg Ha. induction (k_packs c) as [|[j x] d IH]; cbn in *; [discriminate|].
    assert (Hle : sum_nat (map (fun p => if c_alive (snd p) then c_slots (snd p) else 0) d) <= sum_nat (map (fun p => c_slots (snd p)) d)).
    { clear. induction d as [|[j x] d IH]; cbn; [lia|]. destruct (c_alive x); lia. }
    destruct (Nat.eqb i j); cbn; [injection Hg as ->; rewrite Ha; lia|]. specialize (IH Hg). destruct (c_alive x); lia.
  Qed.

  (** The beginning: the history is [h0], the children are not running and fit. *)
  Section Start.
  Context (h0 : hist).

  Definition bodyE (e : exn) (s : mstate) : Prop := g_chk g = false -> trj s -> quits e \/ pending s.

  Definition resting (l : list nat) (s : mstate) : Prop :=
    settled s /\ (forall i h, In i l -> nget i (k_packs (st_core s)) = Some h -> c_alive h = false) /\
    (obeys w -> pack_slots (st_core s) <= g_max_jobs g) /\ pending s.

  Lemma resting_stable l : env_stable (resting l).
  Proof.
    intros s ms [H1 [H2 [H3 H4]]]. unfold resting. splits; [apply settled_stable; exact H1| | |exact H4].
    - intros i h Hi E. unfold env, upd in E. cbn in E. pose proof (apply_moves_rel ms (st_core s)) as R.
      destruct (er_child _ _ _ R _ _ E) as [h' [E' _]]. pose proof (H2 i h' Hi E') as D. pose proof (er_dead _ _ _ R _ _ E' D). congruence.
    - intro Ho. specialize (H3 Ho). unfold env, upd. cbn [st_core]. change (pack_slots (apply_moves ms (st_core s)) <= g_max_jobs g).
      rewrite pack_slots_moves. exact H3.
  Qed.

  Lemma restart_step i l : ~ In i l ->
    T LA (fun s => resting (i :: l) s /\ k_converged (st_core s) = false) (restart_one w limit i)
      (fun _ s => resting l s /\ k_converged (st_core s) = false) (fun _ => pending).
  Proof.
    intro Hn. unfold restart_one.
    eapply T_bind with (R := fun _ s => resting (i :: l) s /\ k_converged (st_core s) = false).
    { apply T_ext; [reflexivity| |intros e s [H _]; apply H]. intros s ms [H1 H2]. split; [apply resting_stable; exact H1|]. cbn.
      rewrite (er_converged _ _ _ (apply_moves_rel ms (st_core s))). exact H2. }
    intros x s HI [[H1 [H2 [H3 H5]]] H4]. cbn. destruct (nget i (k_packs (st_core s))) as [h|] eqn:E.
    - pose proof (H2 i h (or_introl eq_refl) E) as D. split.
      + eapply star_one with (l := Wake); [reflexivity|]. apply (St_restart g w s i h E).
        intro Ho. specialize (H3 Ho). pose proof (living_dead _ _ _ E D). lia.
      + unfold resting. splits; [exact H1| | | exact H5| exact H4].
        * intros j h' Hj. cbn. rewrite nget_nset. destruct (Nat.eqb j i) eqn:Ej; [apply Nat.eqb_eq in Ej; subst; contradiction|].
          apply H2. right. exact Hj.
        * intro Ho. cbn [st_core]. rewrite (pack_slots_nset i h); auto.
    - split; [destruct s; apply star_refl|]. unfold resting. splits; auto. intros j h' Hj. apply H2. right. exact Hj.
  Qed.

  Lemma restarts_step l : NoDup l ->
    T LA (fun s => resting l s /\ k_converged (st_core s) = false) (for_each l (restart_one w limit))
      (fun _ s => resting [] s /\ k_converged (st_core s) = false) (fun _ => pending).
  Proof.
    induction l as [|i l IH]; intro Hn; cbn [for_each]; [apply T_ret; auto|]. inversion Hn; subst.
    eapply T_bind; [apply restart_step; assumption|]. intros []. apply IH. assumption.
  Qed.

  Lemma run_body_step r0 :
    T LA (fun s => (forall l, resting l s) /\ k_converged (st_core s) = false) (run_body g w limit r0)
      (fun r s => settled s /\ ended r0 r s) bodyE.
  Proof.
    unfold run_body, pack_ids. rd ids. apply T_pure with (phi := NoDup ids).
    { intros s HI [_ ->]. apply (id_nodup _ _ _ (m_id _ _ _ HI)). }
    intros Hnd. eapply T_bind with (R := fun _ => mainP r0 r0).
    { eapply T_conseq; [apply (restarts_step ids Hnd)| auto| ..].
      - intros s _ [[H1 H2] _]. exact (conj (H1 ids) H2).
      - intros a s _ [[H1 _] H2]. split; auto.
      - intros e s H _ _. right. exact H. }
    intros []. eapply T_bind.
    { eapply T_conseq; [apply (main_step r0)|auto|auto|intros a s _ H; exact H|]. intros e s H Hn _. exact (H Hn). }
    intro r. eapply T_bind with (R := fun _ s => settled s /\ ended r0 r s).
    - destruct (g_chk g && g_at_conv g) eqn:E; [|apply T_ret; auto]. apply andb_true_iff in E as [E _].
      assert (Hck : ~ no_checkpoints g w) by (intros [H _]; congruence).
      assert (Hk : forall l s s', LE l = true -> Inv s -> step l s s' -> ended r0 r s -> ended r0 r s').
      { intros l s s' Hl _ Hst. apply ended_kept with (l := l); [destruct l; discriminate| exact Hst]. }
      eapply T_conseq; [apply (T_frame LE _ _ _ _ _ Hk (checkpoint_step Hck))| reflexivity| auto| auto|].
      intros e s _ Hn. congruence.
    - intros []. eapply T_bind with (R := fun _ s => settled s /\ ended r0 r s); [|intros []; apply T_ret; auto].
      assert (Hk : forall l s s', LQ l = true -> Inv s -> step l s s' -> (settled s /\ ended r0 r s) -> settled s' /\ ended r0 r s').
      { intros l s s' Hl _ Hst [H1 H2]. split; [eapply settled_kept; eauto|]. eapply ended_kept; eauto. destruct l; discriminate. }
      eapply T_conseq; [apply (T_frame LQ _ _ _ _ _ Hk (stop_all_quiet None))| reflexivity|..].
      + intros s _ H. split; [exact I| exact H].
      + intros a s _ [_ H]. exact H.
      + intros e s [H _] Hn Ht. left. exact (H Ht).
  Qed.

  Lemma log_close_step (P : mstate -> Prop) E : (forall s l, P s -> P (upd (set_klog l) s)) ->
    T LE P (logm log_close) (fun _ => P) E.
  Proof.
    intros HP s HI Hs. unfold logm. assert (Hok : fst (log_close (k_log (st_core s))) = Ok tt).
    { unfold log_close, clear_cache. destruct (l_traj _); reflexivity. }
    pose proof (St_close g w s) as Hst. unfold upd in Hst.
    destruct (log_close (k_log (st_core s))) as [x l] eqn:E0. cbn in Hok, Hst. subst x. cbn [snd].
    split; [eapply star_one; [|exact Hst]; reflexivity|]. exact (HP s l Hs).
  Qed.

  Lemma finish_step r : T LE top (finish r) (fun x s => x = (Some r, k_result (st_core s))) any.
  Proof.
    unfold finish. eapply T_bind with (R := topv).
    { apply T_act with (l := Eval); [reflexivity| |done]. intros s _ _. apply St_end. }
    intros []. eapply T_bind; [apply (log_close_step top any); done|].
    intros []. rd c. apply T_ret. intros s _ [_ ->]. reflexivity.
  Qed.

  Definition shows_best (s : mstate) : Prop :=
    weak_best (setups (st_hist s)) (accepted (st_hist s)) (k_result (st_core s)).

  Lemma finish_normal r : T LE settled (finish r) (fun x s => x = (Some r, k_result (st_core s)) /\ shows_best s) any.
  Proof.
    unfold finish. eapply T_bind with (R := fun _ => shows_best).
    { apply T_act with (l := Eval); [reflexivity|intros s _ _; apply St_end|].
      intros s HI [_ [_ H]]. pose proof (result_weak _ _ _ (exact_best _ (m_log _ _ _ HI) H)) as Hw. unfold shows_best. cbn.
      destruct (accepted (st_hist s)) as [|a acc]; cbn in *; [rewrite Hw; reflexivity|].
      destruct Hw as (o & x & fx & ty & call & rest & H1 & H2 & H3 & H4 & H5).
      exists o, x, fx, ty, call, rest. splits; auto; try tauto. destruct H4 as [->|[-> ->]]; [destruct x; auto|auto]. }
    intros []. eapply T_bind; [apply (log_close_step shows_best any); auto|].
    intros []. rd c. apply T_ret. intros s _ [H ->]. auto.
  Qed.

  (** What a finished run returns. *)
  Definition outcome (x : option reason * result) (s : mstate) : Prop :=
    snd x = k_result (st_core s) /\
    match fst x with
    | None => st_hist s = h0
    | Some RInterrupt => True
    | Some (RCrash e) => g_chk g = false -> trj s -> pending s
    | Some r => shows_best s /\ exists r0, (r0 = RDead \/ r0 = RNone) /\ ended r0 r s
    end.

  Definition idle (s : mstate) : Prop :=
    (st_hist s = h0 /\ last_judgement h0 = None) /\ (forall l, resting l s).

  Lemma idle_stable : env_stable idle.
  Proof.
    intros s ms [H1 H2]. unfold idle. splits; [apply H1| apply H1| intro l; apply resting_stable, H2].
  Qed.

  Lemma T_out L (P : mstate -> Prop) {A} (m : M mstate A) Q E s : T L P m Q E -> Inv s -> P s ->
    exists r s', m s = (r, s') /\ run_to L s s' /\ Inv s' /\ match r with Ok a => Q a s' | Err e => E e s' end.
  Proof.
    intros H HI Hs. destruct (H s HI Hs) as [H1 H2]. destruct (m s) as [r s'] eqn:E0. exists r, s'. cbn in H1. splits; auto.
    eapply star_MInv; eauto.
  Qed.

  Lemma start_manager_step : T LA idle (start_manager g w limit) outcome any.
  Proof.
    unfold start_manager.
    eapply T_bind with (R := fun pre s => idle s /\ k_converged (st_core s) = match pre with Some b => b | None => false end).
    { assert (Hmod : forall b E, T LA idle (modc (set_kconverged b)) (fun _ s => idle s /\ k_converged (st_core s) = b) E).
      { intros b E. eapply (T_step LA Judge); [reflexivity| intro s; reflexivity| |].
        - intros s _ [[H H'] _]. apply St_pre. rewrite H. exact H'.
        - intros s _ H. split; [exact H| reflexivity]. }
      eapply T_try with (R := fun _ => idle); [| |done].
      - eapply T_bind with (R := fun _ => idle).
        + unfold checker_call. eapply T_bind; [apply T_tick; [reflexivity| apply idle_stable| auto]|]. intro t. rd c.
          eapply T_post; [|apply T_lift]; [intros a s _ [[H _] _]; exact H| tauto].
        + intro chk. rd c. cbn zeta. eapply T_bind with (R := fun _ s => idle s /\ k_converged (st_core s) = chk || ((length (k_packs c) =? 0) && negb (k_spawn c))).
          * apply T_pre with (P := idle); [tauto|]. apply Hmod.
          * intros []. apply T_ret. auto.
      - intros e _. eapply T_bind; [apply Hmod|]. intros []. apply T_ret. auto. }
    intro pre. assert (Hgo : forall r0, (r0 = RDead \/ r0 = RNone) ->
      T LA (fun s => idle s /\ k_converged (st_core s) = false)
        (fun s => match run_body g w limit r0 s with
                  | (Ok r, s1) => finish r s1
                  | (Err OutOfFuel, s1) => (Err OutOfFuel, s1)
                  | (Err e, s1) => match stop_all_children w limit (Some (crash_text e)) s1 with
                                   | (Err OutOfFuel, s2) => (Err OutOfFuel, s2)
                                   | (_, s2) => finish (match e with KeyboardInterrupt => RInterrupt | _ => RCrash e end) s2
                                   end
                  end) outcome any).
    { intros r0 Hr0 s HI [[I1 I2] I4].
      destruct (T_out _ _ _ _ _ s (run_body_step r0) HI) as [b [s1 [E1 [St1 [HI1 Q1]]]]]; [auto|]. rewrite E1.
      destruct b as [r|e].
      - assert (Hk : forall l s s', LE l = true -> Inv s -> step l s s' -> ended r0 r s -> ended r0 r s').
        { intros l t t' Hl _ Hst. apply ended_kept with (l := l); [destruct l; discriminate| exact Hst]. }
        destruct (T_out _ _ _ _ _ s1 (T_frame LE _ _ _ _ _ Hk (finish_normal r)) HI1 Q1) as [x [s2 [E2 [St2 [HI2 Q2]]]]]. rewrite E2.
        split; [eapply star_trans; [exact St1|eapply star_sub; [|exact St2]; reflexivity]|]. destruct x as [x|e]; [|exact I].
        destruct Q2 as [[-> Hb] He]. split; [reflexivity|]. cbn. pose proof He as [c [chk [d [_ [_ Hr]]]]].
        destruct r; try exact I; try (split; [exact Hb| exists r0; auto]).
        destruct chk; [discriminate|]. subst r0. destruct Hr0; discriminate.
      - assert (Hk : forall l s s', LE l = true -> Inv s -> step l s s' -> bodyE e s -> bodyE e s').
        { intros l t t' Hl _ Hst Ht Hn Htr. unfold trj in Htr. rewrite (trj_same _ _ _ Hst) in Htr.
          destruct (Ht Hn Htr) as [H|H]; [left; exact H| right]. eapply pending_kept; [|exact Hst| exact H]. destruct l; discriminate. }
        assert (HkQ : forall l s s', LQ l = true -> Inv s -> step l s s' -> bodyE e s -> bodyE e s').
        { intros l t t' Hl. apply Hk. destruct l; auto; discriminate. }
        assert (Hfin : forall r', run_to LA s (snd (match stop_all_children w limit (Some (crash_text e)) s1 with
                                   | (Err OutOfFuel, s2) => (Err OutOfFuel, s2)
                                   | (_, s2) => finish r' s2 end)) /\
                  match (match stop_all_children w limit (Some (crash_text e)) s1 with
                                   | (Err OutOfFuel, s2) => (Err OutOfFuel, s2)
                                   | (_, s2) => finish r' s2 end) with
                  | (Ok a, s') => a = (Some r', k_result (st_core s')) /\ bodyE e s' | (Err _, _) => True end).
        { intro r'.
          destruct (T_out _ _ _ _ _ s1 (T_frame LQ _ _ _ _ _ HkQ (stop_all_quiet (Some (crash_text e)))) HI1 (conj I Q1)) as [x [s2 [E2 [St2 [HI2 Q2]]]]].
          rewrite E2.
          assert (HB : bodyE e s2) by (destruct x; apply Q2).
          assert (Z2 : run_to LA s s2) by (eapply star_trans; [exact St1| eapply star_sub; [|exact St2]; intros [] H; exact H || reflexivity]).
          destruct (T_out _ _ _ _ _ s2 (T_frame LE _ _ _ _ _ Hk (finish_step r')) HI2 (conj I HB)) as [y [s3 [E3 [St3 [HI3 Q3]]]]].
          assert (Z3 : run_to LA s s3) by (eapply star_trans; [exact Z2| eapply star_sub; [|exact St3]; intros [] H; exact H || reflexivity]).
          destruct x as [x|e2]; [rewrite E3; split; [exact Z3|]; destruct y; [exact Q3|exact I]|].
          destruct e2; try (rewrite E3; split; [exact Z3|]; destruct y; [exact Q3|exact I]).
          split; [exact Z2| exact I]. }
        destruct e; try (split; [exact St1| exact I]);
          (match goal with |- context [finish ?r' _] => destruct (Hfin r') as [HA HB] end; split; [exact HA|];
           match type of HB with (let (_, _) := ?X in _) => destruct X as [[a|] s3] end; [|exact I];
           destruct HB as [-> HB]; (split; [reflexivity|]); cbn;
           first [exact I| intros Hn Ht; destruct (HB Hn Ht) as [[H|H]|H]; [discriminate..|exact H]]). }
    assert (Hext : T LA (fun s => idle s /\ k_converged (st_core s) = false) (ext w limit)
                               (fun _ s => idle s /\ k_converged (st_core s) = false) any).
    { apply T_ext; [reflexivity| |done]. intros s ms [H1 H2]. split; [apply idle_stable; exact H1|]. cbn. rewrite (er_converged _ _ _ (apply_moves_rel ms (st_core s))). exact H2. }
    destruct pre as [[|]|].
    - rd c. apply T_ret. intros s _ [[[[H _] _] _] ->]. split; [reflexivity| exact H].
    - eapply T_bind; [exact Hext|]. intros x. apply Hgo. auto.
    - eapply T_bind; [exact Hext|]. intros x. apply Hgo. auto.
  Qed.

  End Start.

  Lemma fresh_idle traj : idle [] (fresh traj).
  Proof.
    split; [split; reflexivity|]. intro l. split; [|splits; [discriminate| unfold pack_slots; cbn; lia| discriminate]].
    unfold settled. splits; [reflexivity| reflexivity|]. left. split; reflexivity.
  Qed.

  Lemma run_traj traj : l_traj (k_log (st_core (snd (run g w limit traj)))) = traj.
  Proof.
    destruct (start_manager_step [] (fresh traj) (MInv_fresh g w traj) (fresh_idle traj)) as [H _]. unfold run.
    generalize dependent (snd (start_manager g w limit (fresh traj))). intros s H.
    apply (star_ind_inv g w LA (fun s => l_traj (k_log (st_core s)) = traj)) in H; [exact H| |reflexivity].
    intros l s1 s2 _ Hst <-. eapply trj_same. exact Hst.
  Qed.

  (** No step loads anything: the events before [h0] stay, those after it are of this session. *)
  Lemma step_session l s s' : step l s s' -> st_hist s' = st_hist s \/ exists e, e <> EvLoad /\ st_hist s' = (st_core s, e) :: st_hist s.
  Proof.
    intro Hst. destruct Hst; talks; cbn; try (left; reflexivity); right; eexists; (split; [|reflexivity]); try discriminate.
    destruct H as [<-|[<-|[]]]; discriminate.
  Qed.

  Lemma star_session L s s' : run_to L s s' -> exists h1, st_hist s' = h1 ++ st_hist s /\ ~ In EvLoad (map snd h1).
  Proof.
    intro H. apply (star_ind_inv g w L (fun s1 => exists h1, st_hist s1 = h1 ++ st_hist s /\ ~ In EvLoad (map snd h1))) in H; [exact H| |exists []; auto].
    intros l s1 s2 _ Hst [h1 [E Hn]]. destruct (step_session _ _ _ Hst) as [E'|[e [He E']]]; rewrite E', E; [eauto|].
    exists ((st_core s1, e) :: h1). split; [reflexivity|]. cbn. intros [?|?]; auto.
  Qed.

  Lemma run_session traj : ~ In EvLoad (map snd (st_hist (snd (run g w limit traj)))).
  Proof.
    destruct (start_manager_step [] (fresh traj) (MInv_fresh g w traj) (fresh_idle traj)) as [H _]. unfold run.
    apply star_session in H as [h1 [E Hn]]. rewrite E. cbn [fresh st_hist]. rewrite app_nil_r. exact Hn.
  Qed.

  Lemma run_outcome traj :
    Inv (snd (run g w limit traj)) /\
    forall x, fst (run g w limit traj) = Ok x -> outcome [] x (snd (run g w limit traj)).
  Proof.
    destruct (T_out _ _ _ _ _ (fresh traj) (start_manager_step []) (MInv_fresh g w traj) (fresh_idle traj)) as [r [s [E [H1 [H2 H3]]]]].
    unfold run. rewrite E. cbn. split; [exact H2|]. intros x ->. exact H3.
  Qed.

  (** *** With [MaxFuncCalls(fm)] as checker *)
  Section Bound.
    Context (fm K : nat) (Hn : no_checkpoints g w) (HK : chunks_le K) (Hc : forall t c, exists b, w_check w t c = Ok b /\ (b = false -> k_f c < fm)).

    Definition bounded (s : mstate) : Prop := k_f (st_core s) < fm + (9 + K).

    Lemma bounded_kept l s s' : LQ l = true -> Inv s -> step l s s' -> bounded s -> bounded s'.
    Proof. intros Hl _ Hst. unfold bounded. destruct (quiet_kept _ _ _ Hl Hst) as [_ [-> _]]. auto. Qed.

    Lemma stop_all_bounded crash : T LA bounded (stop_all_children w limit crash) (fun _ => bounded) (fun _ => bounded).
    Proof.
      eapply T_conseq; [apply (T_frame LQ _ _ _ _ _ bounded_kept (stop_all_quiet crash))| reflexivity|..].
      - intros s _ H. split; [exact I| exact H].
      - intros a s _ [_ H]. exact H.
      - intros a s [_ H]. exact H.
    Qed.

    Lemma finish_bounded r : T LA bounded (finish r) (fun _ => bounded) (fun _ => bounded).
    Proof.
      unfold finish. eapply T_bind with (R := fun _ => bounded).
      { apply T_act with (l := Eval); [reflexivity| |auto]. intros s _ _. apply St_end. }
      intros []. eapply T_bind; [eapply T_conseq; [apply (log_close_step bounded (fun _ => bounded)); auto| reflexivity| auto| |]|].
      - intros a s _ H. exact H.
      - auto.
      - intros []. rd c. apply T_ret. tauto.
    Qed.

    Lemma run_body_bounded r0 : 0 < fm ->
      T LA (fun s => settled s /\ dkeys (k_packs (st_core s)) = [] /\ bounded s /\ (k_converged (st_core s) = false -> k_f (st_core s) < fm))
        (run_body g w limit r0) (fun _ => bounded) (fun _ => bounded).
    Proof.
      intro Hfm. unfold run_body, pack_ids. rd ids. apply T_pure with (phi := ids = []).
      { intros s _ [[_ [H _]] ->]. exact H. }
      intros ->. cbn [for_each].
      eapply T_bind with (R := fun _ s => settled s /\ dkeys (k_packs (st_core s)) = [] /\ bounded s /\
                                          (k_converged (st_core s) = false -> k_f (st_core s) < fm)).
      { apply T_ret. intros s _ [H _]. exact H. }
      intros []. eapply T_bind with (R := fun _ => bounded).
      { eapply T_conseq; [apply (main_bound fm K (S limit) Hn HK Hc r0)|auto|..].
        - intros s _ [H1 [_ [H2 H3]]]. unfold bounded in H2. splits; [exact H1| lia| exact H3].
        - intros a s _ [_ H]. unfold bounded. lia.
        - intros e s H. cbn beta in H. unfold bounded. lia. }
      intro r. eapply T_bind with (R := fun _ => bounded).
      - destruct Hn as [H _]. rewrite H. apply T_ret. auto.
      - intros []. eapply T_bind; [apply stop_all_bounded|]. intros []. apply T_ret. auto.
    Qed.

    Definition early (s : mstate) : Prop := (idle [] s /\ dkeys (k_packs (st_core s)) = []) /\ k_f (st_core s) = 0.

    Lemma early_stable : env_stable early.
    Proof.
      intros s ms [[H1 H1'] H2]. split; [split; [apply idle_stable; exact H1|]|]; cbn; [rewrite (er_keys _ _ _ (apply_moves_rel ms (st_core s))); exact H1'|]. rewrite (er_f _ _ _ (apply_moves_rel ms (st_core s))). exact H2.
    Qed.

    Lemma run_bounded traj : bounded (snd (run g w limit traj)).
    Proof.
      unfold run.
      assert (H : T LA early (start_manager g w limit) (fun _ => bounded) (fun _ => bounded)).
      2:{ destruct (T_out _ _ _ _ _ (fresh traj) H (MInv_fresh g w traj) (conj (conj (fresh_idle traj) eq_refl) eq_refl)) as [r [s [E [H1 [H2 H3]]]]].
          rewrite E. destruct r; exact H3. }
      assert (Hb : forall s, early s -> bounded s) by (intros s [_ H]; unfold bounded; lia).
      unfold start_manager.
      eapply T_bind with (R := fun pre s => early s /\ exists b, pre = Some b /\ k_converged (st_core s) = b /\ (b = false -> 0 < fm)).
      { eapply T_try with (R := fun e s => early s /\ quits e).
        - unfold checker_call. eapply T_bind with (R := fun chk s => early s /\ (chk = false -> 0 < fm)).
          + eapply T_bind; [apply T_tick; [reflexivity| apply early_stable| auto]|]. intro t. rd c.
            eapply T_post; [|apply T_lift].
            * intros a s _ [[[H1 H2] ->] H3].
              match type of H3 with w_check w ?t0 ?c0 = _ => destruct (Hc t0 c0) as (b & Eb & Hb') end. rewrite Eb in H3. injection H3 as <-.
              split; [split; auto|]. intro H4. specialize (Hb' H4). lia.
            * intros e s H _. match type of H with w_check w ?t0 ?c0 = _ => destruct (Hc t0 c0) as (b & Eb & _) end. congruence.
          + intro chk. rd c. cbn zeta.
            apply T_pre with (P := fun s => early s /\ (chk || ((length (k_packs c) =? 0) && negb (k_spawn c)) = false -> 0 < fm)).
            { intros s _ [[H1 H2] _]. split; [exact H1|]. intro H3. apply orb_false_iff in H3. tauto. }
            set (b := chk || _). eapply T_bind with (R := fun _ s => early s /\ k_converged (st_core s) = b /\ (b = false -> 0 < fm)).
            * eapply (T_step LA Judge); [reflexivity| intro s; reflexivity| |].
              -- intros s _ [[[[[H H'] _] _] _] _]. apply St_pre. rewrite H. exact H'.
              -- intros s _ [H1 H2]. splits; auto.
            * intros []. apply T_ret. intros s _ [H1 [H2 H3]]. split; [exact H1|]. exists b. auto.
        - intros e He. apply T_pure with (phi := False); [|contradiction].
          intros s _ [_ [-> | ->]]; discriminate.
        - intros e s _ [H _]. auto. }
      intro pre. apply T_pure with (phi := exists b, pre = Some b /\ (b = false -> 0 < fm)).
      { intros s _ [_ [b H]]. exists b. tauto. }
      intros [b [-> Hf]]. destruct b.
      - rd c. apply T_ret. intros s _ [[H _] _]. auto.
      - specialize (Hf eq_refl). eapply T_bind with (R := fun _ => early).
        { apply T_pre with (P := early); [tauto|]. apply T_ext; [reflexivity| apply early_stable| auto]. }
        intros x s HI [[[I1 I2] I3] I4]. specialize (I2 []). destruct I2 as [I2 _].
        destruct (T_out _ _ _ _ _ s (run_body_bounded RDead Hf) HI) as [y [s1 [E1 [St1 [HI1 Q1]]]]].
        { splits; auto; [unfold bounded; lia| intros _; lia]. }
        rewrite E1. assert (Q1' : bounded s1) by (destruct y; exact Q1). clear Q1.
        assert (Hfin : forall r s', run_to LA s s' -> Inv s' -> bounded s' ->
                  run_to LA s (snd (finish r s')) /\ match finish r s' with (Ok _, s3) => bounded s3 | (Err _, s3) => bounded s3 end).
        { intros r s' Z HI' HB. destruct (T_out _ _ _ _ _ s' (finish_bounded r) HI' HB) as [z [s3 [E3 [St3 [HI3 Q3]]]]].
          rewrite E3. split; [eapply star_trans; eauto|]. destruct z; exact Q3. }
        destruct y as [r|e]; [apply Hfin; assumption|].
        destruct (T_out _ _ _ _ _ s1 (stop_all_bounded (Some (crash_text e))) HI1 Q1') as [z [s2 [E2 [St2 [HI2 Q2]]]]].
        assert (Q2' : bounded s2) by (destruct z; exact Q2). assert (Z2 : run_to LA s s2) by (eapply star_trans; eauto).
        rewrite E2. destruct e; try (split; assumption); destruct z as [z|e2]; try (apply Hfin; assumption);
          destruct e2; try (apply Hfin; assumption); split; assumption.
    Qed.
  End Bound.
End Trace.
