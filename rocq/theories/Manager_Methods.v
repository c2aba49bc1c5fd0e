(** * Single methods of the manager, from any state *)
From Coq Require Import Ascii Decimal DecimalString DecimalNat DecimalFacts.
From Verif Require Import Prelude Prelude_Proofs Logger_Model Logger_Spec Logger_Proofs Manager_Model Manager_Spec Manager_Proofs Manager_Trace.

Arguments get_best_iter : simpl never.
Arguments lstep : simpl never.

(** After a return (nothing is said when the method raises). *)
Definition HO (P : mstate -> Prop) {A} (m : M mstate A) (Q : A -> mstate -> Prop) : Prop :=
  forall s, P s -> match m s with (Ok a, s') => Q a s' | (Err _, _) => True end.

Lemma HO_ret (P : mstate -> Prop) {A} (a : A) (Q : A -> mstate -> Prop) : (forall s, P s -> Q a s) -> HO P (ret a) Q.
Proof. intros H s Hs. exact (H s Hs). Qed.
Lemma HO_raise P {A} e Q : HO P (@raise mstate A e) Q.
Proof. intros s Hs. exact I. Qed.
Lemma HO_bind P {A B} (m : M mstate A) (f : A -> M mstate B) R Q : HO P m R -> (forall a, HO (R a) (f a) Q) -> HO P (bind m f) Q.
Proof. intros Hm Hf s Hs. unfold bind. specialize (Hm s Hs). destruct (m s) as [[a|e] s']; [apply Hf; exact Hm| exact I]. Qed.
Lemma HO_getc (P : mstate -> Prop) {A B} (f : core -> A) (k : A -> M mstate B) Q :
  (forall a, HO (fun s => P s /\ a = f (st_core s)) (k a) Q) -> HO P (bind (getc f) k) Q.
Proof. intros H s Hs. apply (H (f (st_core s)) s). auto. Qed.
Lemma HO_pre (P P' : mstate -> Prop) {A} (m : M mstate A) Q : (forall s, P' s -> P s) -> HO P m Q -> HO P' m Q.
Proof. intros H1 H2 s Hs. apply H2. auto. Qed.
Lemma HO_post P {A} (m : M mstate A) (Q Q' : A -> mstate -> Prop) : (forall a s, Q a s -> Q' a s) -> HO P m Q -> HO P m Q'.
Proof. intros H1 H2 s Hs. specialize (H2 s Hs). destruct (m s) as [[a|e] s']; auto. Qed.
Lemma HO_modc (P : mstate -> Prop) f (Q : unit -> mstate -> Prop) : (forall s, P s -> Q tt (upd f s)) -> HO P (modc f) Q.
Proof. intros H s Hs. exact (H s Hs). Qed.
Lemma HO_act (P : mstate -> Prop) e f (Q : unit -> mstate -> Prop) : (forall s, P s -> Q tt (noted e f s)) -> HO P (act e f) Q.
Proof. intros H s Hs. exact (H s Hs). Qed.
Lemma HO_for_each P {A} (l : list A) (f : A -> M mstate unit) : (forall a, HO P (f a) (fun _ => P)) -> HO P (for_each l f) (fun _ => P).
Proof. intro H. induction l as [|a l IH]; cbn; [apply HO_ret; auto|]. eapply HO_bind; [apply H|]. intros []. exact IH. Qed.

Lemma files_kept ms : forall c n, In n (k_files c) -> In n (k_files (apply_moves ms c)).
Proof.
  unfold apply_moves. induction ms as [|m ms IH]; intros c n H; [exact H|]. cbn. apply IH.
  destruct m; cbn; unfold on_child; try (destruct (nget _ _) as [h|]; [destruct (c_alive h)|]; exact H); try exact H.
  - destruct (forallb _ _); exact H.
  - apply in_or_app. auto.
Qed.

Ltac gc a := apply HO_getc; intro a.

Section Methods.
  Context (g : config) (w : world) (limit : nat).

  Lemma HO_tick (P : mstate -> Prop) : env_stable P -> HO P (tick w limit) (fun _ => P).
  Proof.
    intros HP s Hs. unfold tick. destruct (Nat.leb _ _); [exact I|]. destruct (w_intr w _); [exact I|]. apply (HP s). exact Hs.
  Qed.
  Lemma HO_alive (P : mstate -> Prop) i : env_stable P ->
    HO P (is_alive w limit i) (fun a s => P s /\ a = match nget i (k_packs (st_core s)) with Some h => c_alive h | None => false end).
  Proof. intros HP. unfold is_alive. eapply HO_bind; [apply HO_tick; exact HP|]. intro t. intros s Hs. split; [exact Hs| reflexivity]. Qed.

  (** *** _inspect_children *)
  Definition ended_in_log (i : nat) (l : logger) : Prop :=
    is_ok (get_metadata i "t_stop" l) = true /\ is_ok (get_metadata i "end_cond" l) = true.

  (** What _check_signals would answer: nothing unread, or the completion signal is next. *)
  Definition accountable (h : child) : Prop :=
    c_code h <> 0%Z \/ c_sigs h = [] \/ exists m l, c_sigs h = SDone m :: l.

  Lemma meta_other i j k v l l' r : put_metadata j k v l = (r, l') -> ended_in_log i l -> ended_in_log i l'.
  Proof.
    unfold put_metadata. destruct (nget j (l_store l)) as [e|] eqn:E; intros [= <- <-]; [|auto].
    unfold ended_in_log, get_metadata. cbn. rewrite nget_nset. destruct (Nat.eqb_spec i j) as [->|Hn]; [|auto].
    rewrite E. cbn. rewrite !sget_sset. intros [H1 H2]. split; (destruct (String.eqb _ _); [reflexivity| assumption]).
  Qed.
  Lemma msg_other i j m l l' r : put_message j m l = (r, l') -> ended_in_log i l -> ended_in_log i l'.
  Proof.
    unfold put_message. destruct (nget j (l_store l)) as [e|] eqn:E; intros [= <- <-]; [|auto].
    unfold ended_in_log, get_metadata. cbn. rewrite nget_nset. destruct (Nat.eqb_spec i j) as [->|Hn]; [|auto].
    rewrite E. auto.
  Qed.
  Lemma put_end_marks j c l r l1 : put_metadata j "t_stop" "now" l = (Ok r, l1) -> forall r2 l2, put_metadata j "end_cond" c l1 = (Ok r2, l2) ->
    ended_in_log j l2.
  Proof.
    unfold put_metadata. destruct (nget j (l_store l)) as [e|] eqn:E; [|discriminate]. intros [= <- <-]. cbn.
    rewrite nget_nset_same. intros r2 l2 [= <- <-]. unfold ended_in_log, get_metadata. cbn. rewrite nget_nset_same. cbn.
    rewrite !sget_sset. split; reflexivity.
  Qed.

  Section Inspect.
    Context (i : nat) (h : child) (b0 : Prop).
    Context (Hdead : c_alive h = false) (Hacc : accountable h).

    (** Before its inspection: the child is as it was, and buried only if it was or with an end in the log. *)
    Definition waiting (s : mstate) : Prop :=
      nget i (k_packs (st_core s)) = Some h /\ (In i (k_grave (st_core s)) -> b0 \/ ended_in_log i (k_log (st_core s))).
    Definition settled_i (s : mstate) : Prop :=
      In i (k_grave (st_core s)) /\ (b0 \/ ended_in_log i (k_log (st_core s))).

    Lemma waiting_env : env_stable waiting.
    Proof.
      intros s ms [H1 H2]. unfold waiting, env, upd. cbn. pose proof (apply_moves_rel ms (st_core s)) as R.
      split; [apply (er_dead _ _ _ R); assumption|]. rewrite (er_grave _ _ _ R), (er_log _ _ _ R). exact H2.
    Qed.
    Lemma settled_env : env_stable settled_i.
    Proof.
      intros s ms H. unfold settled_i, env, upd. cbn. pose proof (apply_moves_rel ms (st_core s)) as R.
      rewrite (er_grave _ _ _ R), (er_log _ _ _ R). exact H.
    Qed.

    (** Facts which the inspection of the children [J] keeps. *)
    Record tame (J : nat -> Prop) (P : mstate -> Prop) : Prop := mkTame {
      tm_env : env_stable P;
      tm_child : forall j s h', J j -> P s -> P (upd (fun c => set_kpacks (nset j h' (k_packs c)) c) s);
      tm_bury : forall j s, J j -> P s -> P (upd (bury j) s);
      tm_conv : forall n s, P s -> P (upd (fun c => set_kconv (n c) c) s);
      tm_crash : forall b s, P s -> P (upd (fun c => set_kcrashed (b c) c) s);
      tm_log : forall s l, (ended_in_log i (k_log (st_core s)) -> ended_in_log i l) -> P s -> P (upd (set_klog l) s) }.

    Lemma waiting_tame : tame (fun j => j <> i) waiting.
    Proof.
      split; unfold waiting; cbn; auto.
      - apply waiting_env.
      - intros j s h' Hj [H1 H2]. rewrite nget_nset_other by congruence. auto.
      - intros j s Hj [H1 H2]. rewrite in_nadd. split; [exact H1|]. intros [H|H]; [congruence| auto].
      - intros s l Hl [H1 H2]. split; [exact H1|]. intro H. destruct (H2 H); auto.
    Qed.
    Lemma settled_tame : tame (fun _ => True) settled_i.
    Proof.
      split; unfold settled_i; cbn; auto.
      - apply settled_env.
      - intros j s Hj [H1 H2]. rewrite in_nadd. auto.
      - intros s l Hl [H1 [H2|H2]]; auto.
    Qed.

    Section Tame.
      Context (J : nat -> Prop) (P : mstate -> Prop) (HP : tame J P).

      Lemma tame_meta j k v : HO P (logm (put_metadata j k v)) (fun _ => P).
      Proof.
        intros s Hs. unfold logm. destruct (put_metadata j k v (k_log (st_core s))) as [[r|e] l] eqn:E; [|exact I].
        apply (tm_log _ _ HP s l); [|exact Hs]. eapply meta_other. exact E.
      Qed.
      Lemma tame_msg j m : HO P (logm (put_message j m)) (fun _ => P).
      Proof.
        intros s Hs. unfold logm. destruct (put_message j m (k_log (st_core s))) as [[r|e] l] eqn:E; [|exact I].
        apply (tm_log _ _ HP s l); [|exact Hs]. eapply msg_other. exact E.
      Qed.
      Lemma tame_end j c : HO P (put_end j c) (fun _ => P).
      Proof. unfold put_end. eapply HO_bind; [apply tame_meta|]. intro. apply tame_meta. Qed.

      Lemma tame_signals j : J j -> HO P (check_signals w limit j) (fun _ => P).
      Proof.
        intro Hj. unfold check_signals, in_grave. gc b. apply HO_pre with (P := P); [tauto|]. destruct b; [apply HO_ret; auto|].
        eapply HO_bind; [apply HO_tick; apply (tm_env _ _ HP)|]. intro t. gc h1. apply HO_pre with (P := P); [tauto|].
        destruct h1 as [h1|]; [|apply HO_raise]. destruct (c_sigs h1) as [|sg sgs]; [apply HO_ret; auto|].
        eapply HO_bind with (R := fun _ => P); [apply HO_modc; intros; apply (tm_child _ _ HP); assumption|]. intros [].
        eapply HO_bind with (R := fun _ => P); [|intros; apply HO_ret; auto].
        destruct sg; try (apply HO_ret; auto; fail).
        - eapply HO_bind; [apply tame_end|]. intro. apply HO_modc. intros s Hs.
          apply (tm_conv _ _ HP (fun c => S (k_conv c)) (upd (bury j) s)). apply (tm_bury _ _ HP); assumption.
        - eapply HO_bind; [apply tame_msg|]. intro. apply HO_modc. intros s Hs.
          apply (tm_crash _ _ HP (fun c => has_traceback msg || k_crashed c)). exact Hs.
      Qed.

      Lemma tame_dead j : J j -> HO P (inspect_dead w limit j) (fun _ => P).
      Proof.
        intro Hj. unfold inspect_dead, in_grave. gc b. apply HO_pre with (P := P); [tauto|]. destruct b; [apply HO_ret; auto|].
        eapply HO_bind; [apply HO_alive; apply (tm_env _ _ HP)|]. intro a. apply HO_pre with (P := P); [tauto|].
        destruct a; [apply HO_ret; auto|]. gc code. apply HO_pre with (P := P); [tauto|]. destruct (Z.eqb code 0).
        - eapply HO_bind; [apply tame_signals; exact Hj|]. intro found. destruct found; [apply HO_ret; auto|].
          eapply HO_bind with (R := fun _ => P).
          + apply HO_modc. intros s Hs. apply (tm_bury _ _ HP j (upd (fun c => set_kconv (S (k_conv c)) c) s) Hj).
            apply (tm_conv _ _ HP (fun c => S (k_conv c))). exact Hs.
          + intros []. eapply HO_bind; [apply tame_msg|]. intro. apply tame_end.
        - eapply HO_bind with (R := fun _ => P); [apply HO_modc; intros; apply (tm_bury _ _ HP); assumption|]. intros [].
          eapply HO_bind; [apply tame_msg|]. intro. apply tame_end.
      Qed.

      Lemma tame_rest j : J j -> HO P (inspect_hang g w limit j ;;; inspect_zombie g w limit j) (fun _ => P).
      Proof.
        intro Hj. eapply HO_bind with (R := fun _ => P).
        - unfold inspect_hang. eapply HO_bind; [apply HO_alive; apply (tm_env _ _ HP)|]. intro a. apply HO_pre with (P := P); [tauto|].
          eapply HO_bind; [apply HO_tick; apply (tm_env _ _ HP)|]. intro t. gc v. apply HO_pre with (P := P); [tauto|].
          destruct (_ && _); [|apply HO_ret; auto].
          eapply HO_bind with (R := fun _ => P); [apply HO_modc; intros; apply (tm_bury _ _ HP); assumption|]. intros [].
          eapply HO_bind; [apply tame_msg|]. intro. apply tame_end.
        - intros []. unfold inspect_zombie. gc v. apply HO_pre with (P := P); [tauto|]. destruct (_ && _); [|apply HO_ret; auto].
          eapply HO_bind; [apply HO_alive; apply (tm_env _ _ HP)|]. intro a. apply HO_pre with (P := P); [tauto|].
          eapply HO_bind; [apply HO_tick; apply (tm_env _ _ HP)|]. intro t. destruct (_ && _); [|apply HO_ret; auto].
          eapply HO_bind; [apply HO_tick; apply (tm_env _ _ HP)|]. intro t2. eapply HO_bind; [apply tame_msg|]. intro. apply tame_end.
      Qed.

      Lemma tame_child_ j : J j -> HO P (inspect_child g w limit j) (fun _ => P).
      Proof. intro Hj. unfold inspect_child. eapply HO_bind; [apply tame_dead; exact Hj|]. intros []. apply tame_rest. exact Hj. Qed.
    End Tame.

    (** Writing the end of the child into the log after burying it. *)
    Lemma end_settles c : HO (fun s => In i (k_grave (st_core s))) (put_end i c) (fun _ => settled_i).
    Proof.
      intros s Hs. unfold put_end, bind, logm. destruct (put_metadata i "t_stop" "now" (k_log (st_core s))) as [[[]|e] l] eqn:E; [|exact I].
      cbn [st_core k_log set_klog]. destruct (put_metadata i "end_cond" c l) as [[[]|e] l2] eqn:E2; [|exact I].
      split; [exact Hs|]. right. cbn. eapply put_end_marks; eauto.
    Qed.

    Lemma bury_end m c : HO (fun s => In i (k_grave (st_core s))) (logm (put_message i m) ;;; put_end i c) (fun _ => settled_i).
    Proof.
      eapply HO_bind with (R := fun _ s => In i (k_grave (st_core s))); [|intro; apply end_settles].
      intros s Hs. unfold logm. destruct (put_message i m _) as [[[]|e] l]; [exact Hs| exact I].
    Qed.

    Lemma signals_settle : c_code h = 0%Z ->
      HO waiting (check_signals w limit i) (fun found s => if found : bool then settled_i s else True).
    Proof.
      intro Hc. unfold check_signals, in_grave. gc b. destruct b; [apply HO_ret; auto|]. apply HO_pre with (P := waiting); [tauto|].
      eapply HO_bind; [apply HO_tick; apply waiting_env|]. intro t. gc h1.
      intros s [[H1 H2] Hh]. rewrite H1 in Hh. subst h1. revert s H1 H2.
      enough (H : HO waiting (match c_sigs h with
        | [] => ret false
        | sg :: sgs =>
            modc (fun c => set_kpacks (nset i (mkCh (c_slots h) (c_alive h) (c_code h) sgs (c_closed h) (c_run h)) (k_packs c)) c) ;;;
            match sg with
            | SDone msg => put_end i msg ;;; modc (fun c => set_kconv (S (k_conv c)) (bury i c))
            | SError msg => logm (put_message i msg) ;;; modc (fun c => set_kcrashed (has_traceback msg || k_crashed c) c)
            | _ => ret tt
            end ;;; ret true
        end) (fun found s => if found : bool then settled_i s else True)).
      { intros s H1 H2. apply (H s). split; assumption. }
      destruct Hacc as [Hx|[Hx|[m [l Hx]]]]; [contradiction| rewrite Hx; apply HO_ret; auto|]. rewrite Hx.
      eapply HO_bind with (R := fun _ _ => True); [apply HO_modc; auto|]. intros [].
      eapply HO_bind with (R := fun _ => settled_i); [|intros; apply HO_ret; auto].
      eapply HO_bind with (R := fun _ s => ended_in_log i (k_log (st_core s))).
      - intros s _. unfold put_end, bind, logm. destruct (put_metadata i "t_stop" "now" (k_log (st_core s))) as [[[]|e] l'] eqn:E; [|exact I].
        cbn [st_core k_log set_klog]. destruct (put_metadata i "end_cond" m l') as [[[]|e] l2] eqn:E2; [|exact I]. cbn. eapply put_end_marks; eauto.
      - intro. apply HO_modc. intros s Hs. split; [cbn; apply in_nadd; auto| right; exact Hs].
    Qed.

    Lemma child_settles : HO waiting (inspect_child g w limit i) (fun _ => settled_i).
    Proof.
      unfold inspect_child. eapply HO_bind with (R := fun _ => settled_i); [|intros []; apply (tame_rest _ _ settled_tame i I)].
      unfold inspect_dead, in_grave. gc b. destruct b.
      { apply HO_ret. intros s [[H1 H2] Hb]. symmetry in Hb. apply nmem_in in Hb. split; [exact Hb| auto]. }
      apply HO_pre with (P := waiting); [tauto|].
      eapply HO_bind; [apply HO_alive; apply waiting_env|]. intro a. destruct a.
      { intros s [[H1 _] Ha]. rewrite H1 in Ha. congruence. }
      gc code. intros s [[[H1 H2] _] Hcode]. rewrite H1 in Hcode. revert s H1 H2. 
      enough (H : HO waiting (if Z.eqb code 0 then
          found <- check_signals w limit i ;;
          if found : bool then ret tt else
          modc (fun c => bury i (set_kconv (S (k_conv c)) c)) ;;;
          logm (put_message i "Terminated normally without sending a minimization complete signal to the manager.") ;;;
          put_end i "Normal termination (Reason unknown)"
        else modc (bury i) ;;; logm (put_message i "Terminated in error") ;;; put_end i "Error termination") (fun _ => settled_i)).
      { intros s H1 H2. apply (H s). split; assumption. }
      destruct (Z.eqb_spec code 0) as [->|Hn].
      - eapply HO_bind; [apply signals_settle; auto|]. intro found. destruct found; [apply HO_ret; auto|].
        eapply HO_bind with (R := fun _ s => In i (k_grave (st_core s))); [apply HO_modc; intros s _; cbn; apply in_nadd; auto|].
        intros []. apply bury_end.
      - eapply HO_bind with (R := fun _ s => In i (k_grave (st_core s))); [apply HO_modc; intros s _; cbn; apply in_nadd; auto|].
        intros []. apply bury_end.
    Qed.

    Lemma inspect_settles ids : In i ids -> HO waiting (for_each ids (inspect_child g w limit)) (fun _ => settled_i).
    Proof.
      induction ids as [|j ids IH]; intro Hi; [destruct Hi|]. cbn [for_each].
      destruct (Nat.eq_dec j i) as [->|Hn].
      - eapply HO_bind; [apply child_settles|]. intros []. apply HO_for_each. intro j. apply (tame_child_ _ _ settled_tame). exact I.
      - destruct Hi as [Hi|Hi]; [congruence|]. eapply HO_bind; [apply (tame_child_ _ _ waiting_tame); exact Hn|]. intros []. apply IH, Hi.
    Qed.
  End Inspect.

  Lemma inspected s s' i h : inspect_children g w limit s = (Ok tt, s') ->
    nget i (k_packs (st_core s)) = Some h -> c_alive h = false -> accountable h ->
    In i (k_grave (st_core s')) /\ (~ In i (k_grave (st_core s)) -> ended_in_log i (k_log (st_core s'))).
  Proof.
    intros Hr Hg Ha Hac. unfold inspect_children, pack_ids in Hr.
    pose proof (inspect_settles i h (In i (k_grave (st_core s))) Ha Hac (dkeys (k_packs (st_core s)))) as H.
    assert (Hin : In i (dkeys (k_packs (st_core s)))) by (apply nget_some_in; eauto).
    specialize (H Hin s). unfold waiting in H.
    change ((for_each (dkeys (k_packs (st_core s))) (inspect_child g w limit)) s = (Ok tt, s')) in Hr. rewrite Hr in H.
    destruct H as [H1 H2]; [auto|]. split; [exact H1|]. tauto.
  Qed.

  (** *** Which events a method records, however it ends *)
  Definition EX (Pe : core * event -> Prop) {A} (m : M mstate A) : Prop :=
    forall s, exists new, st_hist (snd (m s)) = new ++ st_hist s /\ Forall Pe new.
  Lemma EX_ret Pe {A} (a : A) : EX Pe (ret a).
  Proof. intro s. exists []. auto. Qed.
  Lemma EX_raise Pe {A} e : EX Pe (@raise mstate A e).
  Proof. intro s. exists []. auto. Qed.
  Lemma EX_bind Pe {A B} (m : M mstate A) (f : A -> M mstate B) : EX Pe m -> (forall a, EX Pe (f a)) -> EX Pe (bind m f).
  Proof.
    intros Hm Hf s. unfold bind. destruct (Hm s) as [n1 [H1 H2]]. destruct (m s) as [[a|e] s']; cbn in *; [|eauto].
    destruct (Hf a s') as [n2 [H3 H4]]. exists (n2 ++ n1). rewrite H3, H1, app_assoc. split; [reflexivity| apply Forall_app; auto].
  Qed.
  Lemma EX_modc Pe f : EX Pe (modc f).
  Proof. intro s. exists []. auto. Qed.
  Lemma EX_logm Pe {A} (m : M logger A) : EX Pe (logm m).
  Proof. intro s. unfold logm. destruct (m _). exists []. auto. Qed.
  Lemma EX_tick Pe : EX Pe (tick w limit).
  Proof. intro s. exists []. unfold tick. destruct (Nat.leb _ _); [auto|]. destruct (w_intr w _); auto. Qed.
  Lemma EX_getc Pe {A B} (f : core -> A) (k : A -> M mstate B) :
    (forall s, exists new, st_hist (snd (k (f (st_core s)) s)) = new ++ st_hist s /\ Forall Pe new) -> EX Pe (bind (getc f) k).
  Proof. intros H s. apply (H s). Qed.
  Lemma EX_for_each Pe {A} (l : list A) (f : A -> M mstate unit) : (forall a, In a l -> EX Pe (f a)) -> EX Pe (for_each l f).
  Proof.
    induction l as [|a l IH]; intro H; cbn; [apply EX_ret|]. apply EX_bind; [apply H; left; reflexivity|].
    intros []. apply IH. intros b Hb. apply H. right. exact Hb.
  Qed.
  Lemma EX_put_end Pe i c : EX Pe (put_end i c).
  Proof. unfold put_end. apply EX_bind; [apply EX_logm|]. intro. apply EX_logm. Qed.
  Lemma EX_alive Pe i : EX Pe (is_alive w limit i).
  Proof. unfold is_alive. apply EX_bind; [apply EX_tick|]. intro t. intro s. exists []. auto. Qed.
  Lemma EX_send (Pe : core * event -> Prop) i m :
    (forall c h, nget i (k_packs c) = Some h -> c_closed h = false -> Pe (c, EvSend i m)) -> EX Pe (send w limit i m).
  Proof.
    intro H. unfold send. apply EX_bind; [apply EX_tick|]. intro t. apply EX_getc. intro s.
    destruct (nget i (k_packs (st_core s))) as [h|] eqn:E; [|exists []; auto]. destruct (c_closed h) eqn:Ec; [exists []; auto|].
    exists [(st_core s, EvSend i m)]. split; [reflexivity|]. constructor; [|constructor]. eapply H; eauto.
  Qed.

  (** *** _is_manual_shutdowns *)
  Definition stop_event (files : list string) (ce : core * event) : Prop :=
    exists n i, In n files /\ stop_id n = Some (Z.of_nat i) /\
      match snd ce with
      | EvKill None j => j = i /\ nmemd i (k_packs (fst ce)) = true /\ ~ In i (k_grave (fst ce))
      | EvSend j OStop => j = i
      | _ => False
      end.

  Lemma stop_safe files : EX (stop_event files) (for_each files (manual_shutdown g w limit)).
  Proof.
    apply EX_for_each. intros n Hn. unfold manual_shutdown. destruct (stop_id n) as [z|] eqn:Ez; [|apply EX_ret].
    apply EX_getc. intro s. destruct (_ && _) eqn:Ek; [|exists []; auto].
    apply andb_true_iff in Ek as [Ek Eg]. apply andb_true_iff in Ek as [Ez0 Ep]. apply Z.leb_le in Ez0.
    apply negb_true_iff in Eg.
    assert (Hz : stop_id n = Some (Z.of_nat (Z.to_nat z))) by (rewrite Z2Nat.id; assumption).
    set (i := Z.to_nat z) in *.
    assert (Hs : EX (stop_event files) ((if g_aggressive g && g_proc g then ret tt else send w limit i OStop) ;;; put_end i "GloMPO Termination")).
    { apply EX_bind; [|intro; apply EX_put_end]. destruct (_ && _); [apply EX_ret|]. apply EX_send. intros c h _ _. exists n, i. cbn. splits; auto. }
    match goal with |- exists new, st_hist (snd (?m s)) = _ /\ _ => 
      set (s2 := mkMS (bury i (set_kvictims (nadd i (k_victims (st_core s))) (remove_file n (st_core s)))) ((remove_file n (st_core s), EvKill None i) :: st_hist s)) end.
    destruct (Hs s2) as [new [H1 H2]]. exists (new ++ [(remove_file n (st_core s), EvKill None i)]).
    split.
    - change (st_hist (snd (((if g_aggressive g && g_proc g then ret tt else send w limit i OStop) ;;; put_end i "GloMPO Termination") s2))
                = (new ++ [(remove_file n (st_core s), EvKill None i)]) ++ st_hist s).
      rewrite H1. rewrite <- app_assoc. reflexivity.
    - apply Forall_app. split; [exact H2|]. constructor; [|constructor]. exists n, i. cbn. splits; auto.
      intro H. apply nmem_in in H. congruence.
  Qed.

  Section Stop.
    Context (i : nat) (H0 : list (core * event)) (n0 : string) (Hn0 : forall t, ~ In (MFile n0) (w_moves w t)).
    Definition killed_since (s : mstate) : Prop :=
      exists new, st_hist s = new ++ H0 /\ exists c, In (c, EvKill None i) new.
    Definition stopped (s : mstate) : Prop := killed_since s /\ In i (k_grave (st_core s)) /\ In i (k_victims (st_core s)).
    Definition stoppable (s : mstate) : Prop :=
      (exists new, st_hist s = new ++ H0) /\ nmemd i (k_packs (st_core s)) = true /\ ~ In i (k_grave (st_core s)).
    Definition gone (s : mstate) : Prop := stopped s /\ ~ In n0 (k_files (st_core s)).

    (** Facts which stopping the optimizers [J] keeps. *)
    Record calm (J : nat -> Prop) (P : mstate -> Prop) : Prop := mkCalm {
      ca_tick : forall s, P s -> P (upd (fun c => set_ktick (S (k_tick c)) (apply_moves (w_moves w (k_tick c)) c)) s);
      ca_kill : forall j s, J j -> P s ->
        P (noted (EvKill None j) (fun c => bury j (set_kvictims (nadd j (k_victims c)) c)) s);
      ca_send : forall j m s, P s -> P (noted (EvSend j m) (fun c => c) s);
      ca_log : forall l s, P s -> P (upd (set_klog l) s);
      ca_file : forall n s, P s -> P (upd (remove_file n) s) }.

    Section Calm.
      Context (J : nat -> Prop) (P : mstate -> Prop) (HP : calm J P).
      Lemma calm_tick : HO P (tick w limit) (fun _ => P).
      Proof. intros s Hs. unfold tick. destruct (Nat.leb _ _); [exact I|]. destruct (w_intr w _); [exact I|]. apply (ca_tick _ _ HP s Hs). Qed.
      Lemma calm_logm {A} (m : M logger A) : HO P (logm m) (fun _ => P).
      Proof. intros s Hs. unfold logm. destruct (m _) as [[a|e] l]; [|exact I]. apply (ca_log _ _ HP l s Hs). Qed.
      Lemma calm_send j m : HO P (send w limit j m) (fun _ => P).
      Proof.
        unfold send. eapply HO_bind; [apply calm_tick|]. intro t. gc h. apply HO_pre with (P := P); [tauto|].
        destruct h as [h|]; [|apply HO_raise]. destruct (c_closed h); [apply HO_raise|]. apply HO_act. intros s Hs. apply (ca_send _ _ HP), Hs.
      Qed.
      Lemma calm_rest j : HO P ((if g_aggressive g && g_proc g then ret tt else send w limit j OStop) ;;; put_end j "GloMPO Termination") (fun _ => P).
      Proof.
        eapply HO_bind with (R := fun _ => P).
        - destruct (_ && _); [apply HO_ret; auto| apply calm_send].
        - intros []. unfold put_end. eapply HO_bind; [apply calm_logm|]. intros []. apply calm_logm.
      Qed.
      Lemma calm_shutdown n : (forall j, stop_id n = Some (Z.of_nat j) -> J j) -> HO P (manual_shutdown g w limit n) (fun _ => P).
      Proof.
        intro Hj. unfold manual_shutdown. destruct (stop_id n) as [z|]; [|apply HO_ret; auto]. gc b.
        destruct b; [|apply HO_ret; tauto]. apply HO_pre with (P := fun s => P s /\ J (Z.to_nat z)).
        { intros s [H1 H2]. split; [exact H1|]. apply Hj. symmetry in H2. apply andb_true_iff in H2 as [H2 _].
          apply andb_true_iff in H2 as [H2 _]. apply Z.leb_le in H2. rewrite Z2Nat.id; auto. }
        eapply HO_bind with (R := fun _ s => P s /\ J (Z.to_nat z)).
        - apply HO_modc. intros s [H1 H2]. split; [apply (ca_file _ _ HP), H1| exact H2].
        - intros []. unfold shutdown_job. eapply HO_bind with (R := fun _ => P); [|intros []; apply calm_rest].
          apply HO_act. intros s [H1 H2]. apply (ca_kill _ _ HP); assumption.
      Qed.
    End Calm.

    Lemma files_tick n s : In n (k_files (apply_moves (w_moves w (k_tick (st_core s))) (st_core s))) ->
      In n (k_files (st_core s)) \/ In (MFile n) (w_moves w (k_tick (st_core s))).
    Proof. apply (er_files _ _ _ (apply_moves_rel _ _)). Qed.

    Lemma stopped_calm : calm (fun _ => True) stopped.
    Proof.
      split; unfold stopped, killed_since; cbn; auto.
      - intros s H. pose proof (apply_moves_rel (w_moves w (k_tick (st_core s))) (st_core s)) as R.
        rewrite (er_grave _ _ _ R), (er_victims _ _ _ R). exact H.
      - intros j s _ [[new [H1 [c H2]]] [H3 H4]]. rewrite !in_nadd. splits; auto.
        rewrite H1. eexists (_ :: new). split; [reflexivity|]. exists c. right. exact H2.
      - intros j m s [[new [H1 [c H2]]] [H3 H4]]. splits; auto.
        rewrite H1. eexists (_ :: new). split; [reflexivity|]. exists c. right. exact H2.
    Qed.
    Lemma gone_calm : calm (fun _ => True) gone.
    Proof.
      destruct stopped_calm as [A1 A2 A3 A4 A5]. split; unfold gone.
      - intros s [H1 H2]. split; [apply A1, H1|]. intro H. apply (files_tick n0 s) in H. destruct H as [H|H]; [auto| apply (Hn0 _ H)].
      - intros j s Hj [H1 H2]. split; [apply A2; auto| exact H2].
      - intros j m s [H1 H2]. split; [apply A3; auto| exact H2].
      - intros l s [H1 H2]. split; [apply A4; auto| exact H2].
      - intros n s [H1 H2]. split; [apply A5; auto|]. cbn. intro H. apply filter_In in H. tauto.
    Qed.
    Lemma stoppable_calm : calm (fun j => j <> i) stoppable.
    Proof.
      split; unfold stoppable.
      - intros s [H1 [H2 H3]]. splits; [exact H1| |].
        + cbn. apply nmemd_true. rewrite (er_keys _ _ _ (apply_moves_rel _ _)). apply nmemd_true. exact H2.
        + cbn. rewrite (er_grave _ _ _ (apply_moves_rel _ _)). exact H3.
      - intros j s Hj [[new H1] [H2 H3]]. splits; [cbn; rewrite H1; eexists (_ :: new); reflexivity| exact H2|].
        cbn. rewrite in_nadd. intros [H|H]; [congruence| auto].
      - intros j m s [[new H1] [H2 H3]]. splits; [cbn; rewrite H1; eexists (_ :: new); reflexivity| exact H2| exact H3].
      - intros l s [H1 [H2 H3]]. splits; auto.
      - intros n s [H1 [H2 H3]]. splits; auto.
    Qed.

    Lemma shutdown_stops n : stop_id n = Some (Z.of_nat i) ->
      HO stoppable (manual_shutdown g w limit n) (fun _ s => stopped s /\ (n = n0 -> gone s)).
    Proof.
      intro Hn. unfold manual_shutdown. rewrite Hn, Nat2Z.id. gc b. destruct b.
      - set (R := fun s => stopped s /\ (n = n0 -> gone s)). unfold shutdown_job.
        eapply HO_bind with (R := fun _ s => (exists new, st_hist s = new ++ H0) /\ ~ In n (k_files (st_core s))).
        + apply HO_modc. intros s [[H1 _] _]. split; [exact H1|]. cbn. intro H. apply filter_In in H as [_ H].
          rewrite String.eqb_refl in H. discriminate.
        + intros []. eapply HO_bind with (R := fun _ => R).
          * apply HO_act. intros s [[new H] Hf].
            assert (Hs : stopped (noted (EvKill None i) (fun c => bury i (set_kvictims (nadd i (k_victims c)) c)) s)).
            { unfold stopped, killed_since. cbn. rewrite !in_nadd. splits; auto.
              rewrite H. exists ((st_core s, EvKill None i) :: new). split; [reflexivity|]. exists (st_core s). left. reflexivity. }
            split; [exact Hs|]. intros ->. split; [exact Hs| exact Hf].
          * intros []. destruct (string_dec n n0) as [->|Hne].
            -- eapply HO_post; [|eapply HO_pre; [|apply (calm_rest _ _ gone_calm)]].
               ++ cbn beta. intros _ s Hs. split; [apply Hs| auto].
               ++ cbn beta. intros s [_ Hs]. auto.
            -- eapply HO_post; [|eapply HO_pre; [|apply (calm_rest _ _ stopped_calm)]].
               ++ cbn beta. intros _ s Hs. split; [apply Hs| contradiction].
               ++ cbn beta. intros s [Hs _]. auto.
      - intros s [[H1 [H2 H3]] Hb]. exfalso. rewrite H2 in Hb. symmetry in Hb.
        destruct (Z.leb_spec 0 (Z.of_nat i)); [|lia]. cbn in Hb. apply negb_false_iff in Hb. apply nmem_in in Hb. contradiction.
    Qed.

    Lemma shutdown_stops0 n : stop_id n = Some (Z.of_nat i) -> HO stoppable (manual_shutdown g w limit n) (fun _ => stopped).
    Proof.
      intro Hn. unfold manual_shutdown. rewrite Hn, Nat2Z.id. gc b. destruct b.
      - eapply HO_bind with (R := fun _ s => exists new, st_hist s = new ++ H0).
        + apply HO_modc. intros s [[H1 _] _]. exact H1.
        + intros []. unfold shutdown_job. eapply HO_bind with (R := fun _ => stopped); [|intros []; apply (calm_rest _ _ stopped_calm)].
          apply HO_act. intros s [new H]. unfold stopped, killed_since. cbn. rewrite !in_nadd. splits; auto.
          rewrite H. exists ((st_core s, EvKill None i) :: new). split; [reflexivity|]. exists (st_core s). left. reflexivity.
      - intros s [[H1 [H2 H3]] Hb]. exfalso. rewrite H2 in Hb. symmetry in Hb.
        destruct (Z.leb_spec 0 (Z.of_nat i)); [|lia]. cbn in Hb. apply negb_false_iff in Hb. apply nmem_in in Hb. contradiction.
    Qed.

    Lemma shutdowns_stop n l : In n l -> stop_id n = Some (Z.of_nat i) ->
      HO stoppable (for_each l (manual_shutdown g w limit))
         (fun _ s => stopped s /\ ((forall m, In m l -> stop_id m = Some (Z.of_nat i) -> m = n0) -> gone s)).
    Proof.
      intros Hin Hn. induction l as [|m l IH]; [destruct Hin|]. cbn [for_each].
      assert (Hd : stop_id m = Some (Z.of_nat i) \/ stop_id m <> Some (Z.of_nat i)).
      { destruct (stop_id m) as [z|]; [|right; discriminate]. destruct (Z.eq_dec z (Z.of_nat i)) as [->|Hz]; [auto| right; congruence]. }
      destruct Hd as [Hm|Hm].
      - eapply HO_bind; [apply shutdown_stops; exact Hm|]. intros []. cbn beta.
        destruct (string_dec m n0) as [Hx|Hne].
        + eapply HO_post; [|eapply HO_pre; [|apply HO_for_each; intro x; apply (calm_shutdown _ _ gone_calm); auto]].
          * cbn beta. intros _ s Hs. split; [apply Hs| auto].
          * cbn beta. intros s [_ Hs]. auto.
        + eapply HO_post; [|eapply HO_pre; [|apply HO_for_each; intro x; apply (calm_shutdown _ _ stopped_calm); auto]].
          * cbn beta. intros _ s Hs. split; [apply Hs|]. intro H. exfalso. apply Hne, H; [left; reflexivity| exact Hm].
          * cbn beta. intros s [Hs _]. auto.
      - destruct Hin as [->|Hin]; [contradiction|]. eapply HO_bind with (R := fun _ => stoppable); [|intros []; eapply HO_post; [|apply IH, Hin]].
        + apply (calm_shutdown _ _ stoppable_calm). intros j Hj ->. contradiction.
        + cbn beta. intros _ s [H1 H2]. split; [exact H1|]. intro H. apply H2. intros x Hx. apply H. right. exact Hx.
    Qed.
  End Stop.

  (** Files which name nobody stay. *)
  Section Stay.
    Context (n : string).
    Definition idle (s : mstate) : Prop :=
      In n (k_files (st_core s)) /\
      forall i, stop_id n = Some (Z.of_nat i) -> nmemd i (k_packs (st_core s)) = false \/ In i (k_grave (st_core s)).
    Lemma idle_tick s : idle s -> idle (upd (fun c => set_ktick (S (k_tick c)) (apply_moves (w_moves w (k_tick c)) c)) s).
    Proof.
      unfold idle. cbn. intros [H1 H2]. pose proof (apply_moves_rel (w_moves w (k_tick (st_core s))) (st_core s)) as R. split.
      - apply files_kept. exact H1.
      - intros i Hi. rewrite (er_grave _ _ _ R). destruct (H2 i Hi) as [H|H]; [left|auto].
        apply nmemd_false. rewrite (er_keys _ _ _ R). apply nmemd_false. exact H.
    Qed.
    Lemma idle_HO_tick : HO idle (tick w limit) (fun _ => idle).
    Proof. intros s Hs. unfold tick. destruct (Nat.leb _ _); [exact I|]. destruct (w_intr w _); [exact I|]. apply (idle_tick s Hs). Qed.
    Lemma idle_logm {A} (m : M logger A) : HO idle (logm m) (fun _ => idle).
    Proof. intros s Hs. unfold logm. destruct (m _) as [[a|e] l]; [exact Hs| exact I]. Qed.
    Lemma idle_shutdown m : HO idle (manual_shutdown g w limit m) (fun _ => idle).
    Proof.
      unfold manual_shutdown. destruct (stop_id m) as [z|] eqn:Ez; [|apply HO_ret; auto]. gc b.
      destruct b; [|apply HO_ret; tauto]. unfold shutdown_job.
      eapply HO_bind with (R := fun _ => idle).
      - apply HO_modc. intros s [[H1 H2] Hb]. split; [|exact H2]. cbn. apply filter_In. split; [exact H1|].
        apply negb_true_iff. apply String.eqb_neq. intros ->. symmetry in Hb. apply andb_true_iff in Hb as [Hb Hg].
        apply andb_true_iff in Hb as [Hz Hp]. apply Z.leb_le in Hz. apply negb_true_iff in Hg.
        destruct (H2 (Z.to_nat z)) as [H|H]; [rewrite Z2Nat.id; assumption| congruence|]. apply nmem_in in H. congruence.
      - intros []. eapply HO_bind with (R := fun _ => idle).
        + apply HO_act. intros s [H1 H2]. split; [exact H1|]. cbn. intros j Hj. rewrite in_nadd. destruct (H2 j Hj); auto.
        + intros []. eapply HO_bind with (R := fun _ => idle).
          * destruct (_ && _); [apply HO_ret; auto|]. unfold send. eapply HO_bind; [apply idle_HO_tick|]. intro t. gc h.
            apply HO_pre with (P := idle); [tauto|]. destruct h as [h|]; [|apply HO_raise]. destruct (c_closed h); [apply HO_raise|].
            apply HO_act. intros s Hs. exact Hs.
          * intros []. unfold put_end. eapply HO_bind; [apply idle_logm|]. intros []. apply idle_logm.
    Qed.
  End Stay.

  (** The directory when _is_manual_shutdowns lists it. *)
  Definition listed (s : mstate) : list string := k_files (apply_moves (w_moves w (k_tick (st_core s))) (st_core s)).

  Lemma manual_shutdowns_split s : manual_shutdowns g w limit s =
    match tick w limit s with
    | (Ok _, s1) => for_each (listed s) (manual_shutdown g w limit) s1
    | (Err e, s1) => (Err e, s1)
    end.
  Proof.
    unfold manual_shutdowns, bind, tick, listed. destruct (Nat.leb _ _); [reflexivity|].
    destruct (w_intr w _); [reflexivity|]. reflexivity.
  Qed.
  Lemma tick_ok s t s1 : tick w limit s = (Ok t, s1) ->
    s1 = upd (fun c => set_ktick (S (k_tick c)) (apply_moves (w_moves w (k_tick c)) c)) s /\ t = k_tick (st_core s).
  Proof.
    unfold tick. destruct (Nat.leb _ _); [discriminate|]. destruct (w_intr w _); [discriminate|]. intros [= <- <-]. auto.
  Qed.

  Lemma stops_named s : exists new, st_hist (snd (manual_shutdowns g w limit s)) = new ++ st_hist s /\ Forall (stop_event (listed s)) new.
  Proof.
    rewrite manual_shutdowns_split. destruct (tick w limit s) as [[t|e] s1] eqn:E.
    - apply tick_ok in E as [-> _]. pose proof (stop_safe (listed s) (upd (fun c => set_ktick (S (k_tick c)) (apply_moves (w_moves w (k_tick c)) c)) s)) as H. exact H.
    - exists []. split; [|constructor]. revert E. unfold tick. destruct (Nat.leb _ _); [intros [= _ <-]; reflexivity|].
      destruct (w_intr w _); [intros [= _ <-]; reflexivity| discriminate].
  Qed.

  Lemma stops_all s s' n i : manual_shutdowns g w limit s = (Ok tt, s') -> In n (listed s) -> stop_id n = Some (Z.of_nat i) ->
    nmemd i (k_packs (st_core s)) = true -> ~ In i (k_grave (st_core s)) ->
    stopped i (st_hist s) s' /\
    ((forall t, ~ In (MFile n) (w_moves w t)) -> (forall m, In m (listed s) -> stop_id m = Some (Z.of_nat i) -> m = n) ->
     ~ In n (k_files (st_core s'))).
  Proof.
    rewrite manual_shutdowns_split. destruct (tick w limit s) as [[t|e] s1] eqn:E; [|discriminate].
    apply tick_ok in E as [-> _]. intros Hr Hin Hn Hp Hg.
    assert (Hst : stoppable i (st_hist s) (upd (fun c => set_ktick (S (k_tick c)) (apply_moves (w_moves w (k_tick c)) c)) s)).
    { unfold stoppable. cbn. splits; [exists []; reflexivity| |].
      - apply nmemd_true. rewrite (er_keys _ _ _ (apply_moves_rel _ _)). apply nmemd_true. exact Hp.
      - rewrite (er_grave _ _ _ (apply_moves_rel _ _)). exact Hg. }
    split.
    - assert (H : HO (stoppable i (st_hist s)) (for_each (listed s) (manual_shutdown g w limit)) (fun _ => stopped i (st_hist s))).
      { clear - Hin Hn. revert Hin. generalize (listed s) as l. induction l as [|m l IH]; intro Hin; [destruct Hin|]. cbn [for_each].
        assert (Hd : stop_id m = Some (Z.of_nat i) \/ stop_id m <> Some (Z.of_nat i)).
        { destruct (stop_id m) as [z|]; [|right; discriminate]. destruct (Z.eq_dec z (Z.of_nat i)) as [->|Hz]; [auto| right; congruence]. }
        destruct Hd as [Hm|Hm].
        - eapply HO_bind; [apply shutdown_stops0; exact Hm|]. intros []. apply HO_for_each.
          intro x. apply (calm_shutdown _ _ (stopped_calm _ _)). auto.
        - destruct Hin as [->|Hin]; [contradiction|]. eapply HO_bind with (R := fun _ => stoppable i (st_hist s)); [|intros []; apply IH, Hin].
          apply (calm_shutdown _ _ (stoppable_calm _ _)). intros j Hj ->. contradiction. }
      specialize (H _ Hst). rewrite Hr in H. exact H.
    - intros Hm Hu. pose proof (shutdowns_stop i (st_hist s) n Hm n (listed s) Hin Hn _ Hst) as H. rewrite Hr in H.
      destruct H as [_ H]. apply (H Hu).
  Qed.

  Lemma stops_leave s s' n : manual_shutdowns g w limit s = (Ok tt, s') -> In n (listed s) ->
    (forall i, stop_id n = Some (Z.of_nat i) -> nmemd i (k_packs (st_core s)) = false \/ In i (k_grave (st_core s))) ->
    In n (k_files (st_core s')).
  Proof.
    rewrite manual_shutdowns_split. destruct (tick w limit s) as [[t|e] s1] eqn:E; [|discriminate].
    apply tick_ok in E as [-> _]. intros Hr Hin Hi.
    assert (Hst : idle n (upd (fun c => set_ktick (S (k_tick c)) (apply_moves (w_moves w (k_tick c)) c)) s)).
    { split; [exact Hin|]. intros i Hn. cbn. rewrite (er_grave _ _ _ (apply_moves_rel _ _)). destruct (Hi i Hn) as [H|H]; [left|auto].
      apply nmemd_false. rewrite (er_keys _ _ _ (apply_moves_rel _ _)). apply nmemd_false. exact H. }
    pose proof (HO_for_each (idle n) (listed s) (manual_shutdown g w limit) (idle_shutdown n) _ Hst) as H. rewrite Hr in H. apply H.
  Qed.

  (** *** _update_best_result *)
  Definition share_one (b : brec) (i : nat) : M mstate unit :=
    if Nat.eqb i (b_opt b) then ret tt
    else a <- is_alive w limit i ;; if a : bool then send w limit i (OBest (b_x b) (b_fx b)) else ret tt.

  (** The events are sends to members of [l], each at most once, in this order. *)
  Lemma share_events b : forall ids s, exists l, 
    map snd (st_hist (snd (for_each ids (share_one b) s))) = map (fun i => EvSend i (OBest (b_x b) (b_fx b))) (rev l) ++ map snd (st_hist s) /\
    (forall i, In i l -> In i ids /\ i <> b_opt b) /\ (NoDup ids -> NoDup l).
  Proof.
    induction ids as [|i ids IH]; intro s; [exists []; splits; [reflexivity| intros i []| auto]|].
    cbn [for_each]. unfold bind at 1.
    assert (H1 : map snd (st_hist (snd (share_one b i s))) = map snd (st_hist s) \/
                 (i <> b_opt b /\ map snd (st_hist (snd (share_one b i s))) = EvSend i (OBest (b_x b) (b_fx b)) :: map snd (st_hist s))).
    { unfold share_one. destruct (Nat.eqb_spec i (b_opt b)) as [->|Hn]; [auto|].
      assert (Ht : forall s, st_hist (snd (tick w limit s)) = st_hist s).
      { intro s0. unfold tick. destruct (Nat.leb _ _); [reflexivity|]. destruct (w_intr w _); reflexivity. }
      unfold is_alive, bind. pose proof (Ht s) as H. destruct (tick w limit s) as [[t|e] s1]; cbn in *; [|left; congruence].
      destruct (match nget i (k_packs (st_core s1)) with Some h => c_alive h | None => false end); cbn; [|left; congruence].
      unfold send, bind. pose proof (Ht s1) as H'. destruct (tick w limit s1) as [[t'|e] s2]; cbn in *; [|left; congruence].
      destruct (nget i (k_packs (st_core s2))) as [h|]; cbn; [|left; congruence]. destruct (c_closed h); cbn; [left; congruence|].
      right. split; [exact Hn|]. congruence. }
    destruct (share_one b i s) as [[[]|e] s1] eqn:E; cbn [snd] in H1.
    - destruct (IH s1) as [l [H2 [H3 H4]]]. destruct H1 as [H1|[Hn H1]].
      + exists l. splits; [rewrite H2, H1; reflexivity| intros j Hj; destruct (H3 j Hj); split; [right|]; assumption|].
        intro Hnd. inversion Hnd. auto.
      + exists (i :: l). splits.
        * rewrite H2, H1. cbn [rev]. rewrite map_app, <- app_assoc. reflexivity.
        * intros j [<-|Hj]; [split; [left; reflexivity| exact Hn]|]. destruct (H3 j Hj); split; [right|]; assumption.
        * intro Hnd. inversion Hnd as [|? ? Ha Hb]; subst. constructor; [|auto]. intro Hi. apply Ha. apply H3, Hi.
    - cbn [snd]. destruct H1 as [H1|[Hn H1]].
      + exists []. splits; [exact H1| intros j []| intro; constructor].
      + exists [i]. splits; [exact H1| intros j [<-|[]]; split; [left; reflexivity| exact Hn]|]. intro. repeat constructor. intros [].
  Qed.

  Section Share.
    Context (i : nat) (b : brec) (H0 : list (core * event)).
    Definition told (s : mstate) : Prop :=
      (forall h, nget i (k_packs (st_core s)) = Some h -> c_alive h = false) \/
      exists new, st_hist s = new ++ H0 /\ exists c, In (c, EvSend i (OBest (b_x b) (b_fx b))) new.
    Definition since (s : mstate) : Prop := exists new, st_hist s = new ++ H0.
    Lemma told_env : env_stable (fun s => told s /\ since s).
    Proof.
      intros s ms [[H|H] Hs]; (split; [|exact Hs]); [|right; exact H]. left. intros h Hh.
      pose proof (apply_moves_rel ms (st_core s)) as R. cbn in Hh.
      destruct (nget i (k_packs (st_core s))) as [h0|] eqn:E.
      - specialize (H h0 eq_refl). rewrite (er_dead _ _ _ R i h0 E H) in Hh. congruence.
      - destruct (er_child _ _ _ R i h Hh) as [h0 [Hx _]]. congruence.
    Qed.
    Lemma since_env : env_stable since.
    Proof. intros s ms H. exact H. Qed.
    Lemma told_note j m s : told s /\ since s -> told (noted (EvSend j m) (fun c => c) s) /\ since (noted (EvSend j m) (fun c => c) s).
    Proof.
      intros [[H|[new [H1 [c H2]]]] [n2 H3]]; (split; [|exists ((st_core s, EvSend j m) :: n2); cbn; rewrite H3; reflexivity]).
      - left. exact H.
      - right. exists ((st_core s, EvSend j m) :: new). cbn. rewrite H1. split; [reflexivity|]. exists c. right. exact H2.
    Qed.
    Lemma told_keep j : HO (fun s => told s /\ since s) (share_one b j) (fun _ s => told s /\ since s).
    Proof.
      unfold share_one. destruct (Nat.eqb j (b_opt b)); [apply HO_ret; auto|].
      eapply HO_bind; [apply HO_alive; apply told_env|]. intro a. apply HO_pre with (P := fun s => told s /\ since s); [tauto|].
      destruct a; [|apply HO_ret; auto]. unfold send. eapply HO_bind; [apply HO_tick; apply told_env|]. intro t. gc h.
      apply HO_pre with (P := fun s => told s /\ since s); [tauto|]. destruct h as [h|]; [|apply HO_raise].
      destruct (c_closed h); [apply HO_raise|]. apply HO_act. apply told_note.
    Qed.
    Lemma since_keep j : HO since (share_one b j) (fun _ => since).
    Proof.
      unfold share_one. destruct (Nat.eqb j (b_opt b)); [apply HO_ret; auto|].
      eapply HO_bind; [apply HO_alive; apply since_env|]. intro a. apply HO_pre with (P := since); [tauto|].
      destruct a; [|apply HO_ret; auto]. unfold send. eapply HO_bind; [apply HO_tick; apply since_env|]. intro t. gc h.
      apply HO_pre with (P := since); [tauto|]. destruct h as [h|]; [|apply HO_raise].
      destruct (c_closed h); [apply HO_raise|]. apply HO_act. intros s [n Hn]. exists ((st_core s, EvSend j (OBest (b_x b) (b_fx b))) :: n).
      cbn. rewrite Hn. reflexivity.
    Qed.
    Lemma told_one : i <> b_opt b -> HO since (share_one b i) (fun _ s => told s /\ since s).
    Proof.
      intro Hn. unfold share_one. destruct (Nat.eqb_spec i (b_opt b)); [contradiction|].
      eapply HO_bind; [apply HO_alive; apply since_env|]. intro a. destruct a.
      - apply HO_pre with (P := since); [tauto|].
        unfold send. eapply HO_bind; [apply HO_tick; apply since_env|]. intro t. gc h.
        apply HO_pre with (P := since); [tauto|]. destruct h as [h|]; [|apply HO_raise].
        destruct (c_closed h); [apply HO_raise|]. apply HO_act. intros s [n2 H2].
        assert (Hx : st_hist (noted (EvSend i (OBest (b_x b) (b_fx b))) (fun c => c) s)
                   = ((st_core s, EvSend i (OBest (b_x b) (b_fx b))) :: n2) ++ H0) by (cbn; rewrite H2; reflexivity).
        split; [right|]; (eexists; split || idtac); [exact Hx| exists (st_core s); left; reflexivity| exact Hx].
      - apply HO_ret. intros s [H1 H2]. split; [|exact H1]. left. intros h Hh. rewrite Hh in H2. auto.
    Qed.
    Lemma told_all ids : i <> b_opt b -> In i ids -> HO since (for_each ids (share_one b)) (fun _ s => told s /\ since s).
    Proof.
      intro Hn. induction ids as [|j ids IH]; intro Hi; [destruct Hi|]. cbn [for_each]. destruct (Nat.eq_dec j i) as [->|Hj].
      - eapply HO_bind; [apply told_one; exact Hn|]. intros []. apply HO_for_each. apply told_keep.
      - destruct Hi as [Hi|Hi]; [congruence|]. eapply HO_bind; [apply since_keep|]. intros []. apply IH, Hi.
    Qed.
  End Share.

  Definition shares (s : mstate) (b : brec) : bool :=
    g_sharing g && (falsy_fx (r_fx (k_result (st_core s))) ||
                    match r_fx (k_result (st_core s)) with Some v => nlt (b_fx b) v | None => false end).

  Lemma update_best_split s b : get_best_iter None (k_log (st_core s)) = Ok b ->
    exists f, (forall c, k_packs (f c) = k_packs c) /\ update_best g w limit s =
      if shares s b then match for_each (dkeys (k_packs (st_core s))) (share_one b) s with
                         | (Ok _, s1) => (Ok tt, upd f s1) | (Err e, s1) => (Err e, s1) end
      else (Ok tt, upd f s).
  Proof.
    intro Hb. exists (fun c => set_kresult (mkR (Some (b_x b)) (Some (b_fx b)) (Some (k_f c, k_o c, length (k_victims c), k_conv c)) (Some (b_opt b, b_type b))) c).
    split; [reflexivity|]. unfold update_best, bind. rewrite Hb. cbn beta iota. unfold getc at 1, gets at 1. fold (shares s b). destruct (shares s b); [|reflexivity].
    change (share_loop w limit b s) with (for_each (dkeys (k_packs (st_core s))) (share_one b) s).
    destruct (for_each _ _ s) as [[[]|e] s1]; reflexivity.
  Qed.

  (** *** checkpoint: pausing, saving, resuming *)
  Lemma EX_act (Pe : core * event -> Prop) e f : (forall c, Pe (c, e)) -> EX Pe (act e f).
  Proof. intros H s. exists [(st_core s, e)]. split; [reflexivity|]. constructor; [apply H| constructor]. Qed.
  Lemma EX_getc_any Pe {A} (f : core -> A) : EX Pe (getc f).
  Proof. intro s. exists []. auto. Qed.
  Lemma EX_lift Pe {A} (r : res A) : EX Pe (lift r).
  Proof. intro s. exists []. auto. Qed.
  Lemma EX_sub (Pe Pe' : core * event -> Prop) {A} (m : M mstate A) : (forall x, Pe x -> Pe' x) -> EX Pe m -> EX Pe' m.
  Proof. intros H Hm s. destruct (Hm s) as [new [H1 H2]]. exists new. split; [exact H1|]. eapply Forall_impl; eauto. Qed.

  Definition no_save (ce : core * event) : Prop := match snd ce with EvSend _ OSave => False | _ => True end.

  Definition plain (ce : core * event) : Prop := match snd ce with EvSend _ OSave | EvKill _ _ => False | _ => True end.
  Lemma plain_no_save x : plain x -> no_save x.
  Proof. destruct x as [c []]; cbn; auto. Qed.

  Ltac ex := repeat (cbv beta; lazymatch goal with
    | |- EX _ (bind _ _) => apply EX_bind; [|intro]
    | |- EX _ (ret _) => apply EX_ret
    | |- EX _ (raise _) => apply EX_raise
    | |- EX _ (modc _) => apply EX_modc
    | |- EX _ (logm _) => apply EX_logm
    | |- EX _ (tick _ _) => apply EX_tick
    | |- EX _ (lift _) => apply EX_lift
    | |- EX _ (getc _) => apply EX_getc_any
    | |- EX _ (is_alive _ _ _) => apply EX_alive
    | |- EX _ (put_end _ _) => apply EX_put_end
    | |- EX _ (send _ _ _ _) => apply EX_send; intros; try exact I
    | |- EX _ (act _ _) => apply EX_act; intro; try exact I
    | |- EX _ (note _) => apply EX_act; intro; try exact I
    | |- EX _ (for_each _ _) => apply EX_for_each; intros
    | |- EX _ (if ?b then _ else _) => destruct b
    | |- EX _ (match ?x with _ => _ end) => destruct x
    end).

  Lemma EX_signals_in_checkpoint i x : EX no_save (sync_one w limit i x).
  Proof. unfold sync_one. destruct x as [[no wait] live]. ex. Qed.
  Lemma EX_sync_round ids : forall x, EX no_save (sync_round w limit ids x).
  Proof. induction ids as [|i ids IH]; intro x; cbn [sync_round]; ex; [apply EX_signals_in_checkpoint| apply IH]. Qed.
  Lemma EX_shutdown_job i hn : EX no_save (shutdown_job g w limit i hn).
  Proof. unfold shutdown_job. ex. Qed.
  Lemma EX_hunt_loop b ids : EX no_save (hunt_loop g w limit b ids).
  Proof.
    induction ids as [|i ids IH]; cbn [hunt_loop]; unfold in_grave; ex; [apply EX_shutdown_job| exact IH..].
  Qed.
  Lemma EX_update_best : EX plain (update_best g w limit).
  Proof. unfold update_best. apply EX_bind; [intro s; exists []; auto|]. intro b. unfold share_loop, pack_ids. ex. Qed.
  Lemma EX_process_item q : EX no_save (process_item g w limit q).
  Proof.
    unfold process_item, accept, start_hunt, pack_ids. ex; try (apply (EX_sub plain); [exact plain_no_save| exact EX_update_best]); try apply EX_hunt_loop.
  Qed.
  Lemma EX_process_chunk l : forall acc, EX no_save (process_chunk g w limit l acc).
  Proof. induction l as [|q l IH]; intros [[n cl] vs]; cbn [process_chunk]; ex; [apply EX_process_item| apply IH]. Qed.
  Lemma EX_process_loop fuel : forall max acc, EX no_save (process_loop g w limit fuel max acc).
  Proof.
    induction fuel as [|fuel IH]; intros max acc; cbn [process_loop]; unfold queue_get; ex; [apply EX_process_chunk| apply IH].
  Qed.
  Lemma EX_process_results max : EX no_save (process_results g w limit max).
  Proof. unfold process_results. ex. apply EX_process_loop. Qed.
  Lemma EX_sync_loop fuel : forall n x, EX no_save (sync_loop g w limit fuel n x).
  Proof.
    induction fuel as [|fuel IH]; intros n x; cbn [sync_loop]; [apply EX_raise|]. destruct x as [[no wait] live].
    ex; [apply EX_process_results| apply EX_sync_round| apply IH].
  Qed.
  Lemma EX_pause_all ids : EX plain (pause_all w limit ids).
  Proof. induction ids as [|i ids IH]; cbn [pause_all]; ex. exact IH. Qed.

  (** Facts about the events since [H0]. *)
  Definition since_has (H0 : list (core * event)) (Q : list event -> Prop) (s : mstate) : Prop :=
    exists new, st_hist s = new ++ H0 /\ Q (map snd new).
  Definition growing (Q : list event -> Prop) : Prop :=
    forall e l, match e with EvKill _ _ => False | _ => True end -> Q l -> Q (e :: l).
  Lemma grow_app Q n l2 : growing Q -> Forall plain n -> Q l2 -> Q (map snd n ++ l2).
  Proof.
    intros HQ Hn H. induction n as [|[c e] n IH]; cbn; auto. inversion Hn as [|? ? Hp Hr]. subst. apply HQ; [destruct e; auto| apply IH, Hr].
  Qed.
  Lemma EX_since H0 Q {A} (m : M mstate A) : growing Q -> EX plain m -> HO (since_has H0 Q) m (fun _ => since_has H0 Q).
  Proof.
    intros HQ Hm s [new [H1 H2]]. destruct (Hm s) as [n2 [H3 H4]]. destruct (m s) as [[a|e] s']; [|exact I]. cbn in H3.
    exists (n2 ++ new). rewrite H3, H1, app_assoc. split; [reflexivity|]. rewrite map_app. apply grow_app; assumption.
  Qed.

  Lemma pause_all_told H0 ids : forall l0, HO (since_has H0 (fun l => forall i, In i l0 -> In (EvSend i OPause) l)) (pause_all w limit ids)
    (fun l1 => since_has H0 (fun l => forall i, In i (l0 ++ l1) -> In (EvSend i OPause) l)).
  Proof.
    induction ids as [|i ids IH]; intro l0; cbn [pause_all].
    - apply HO_ret. intros s H. rewrite app_nil_r. exact H.
    - set (Q := fun l => forall i, In i l0 -> In (EvSend i OPause) l).
      assert (HQ : growing Q) by (intros e l _ H j Hj; right; apply H, Hj).
      eapply HO_bind; [apply (EX_since H0 Q); [exact HQ| apply EX_alive]|]. intro a.
      eapply HO_bind with (R := fun _ => since_has H0 (fun l => forall j, In j (l0 ++ if a : bool then [i] else []) -> In (EvSend j OPause) l)).
      + destruct a; [|apply HO_ret; intros s H; rewrite app_nil_r; exact H].
        unfold send. eapply HO_bind; [apply (EX_since H0 Q); [exact HQ| apply EX_tick]|]. intro t. gc h.
        apply HO_pre with (P := since_has H0 Q); [tauto|]. destruct h as [h|]; [|apply HO_raise]. destruct (c_closed h); [apply HO_raise|].
        apply HO_act. intros s [new [H1 H2]]. exists ((st_core s, EvSend i OPause) :: new). cbn. rewrite H1. split; [reflexivity|].
        intros j Hj. apply in_app_or in Hj as [Hj|[<-|[]]]; [right; apply H2, Hj| left; reflexivity].
      + intros []. eapply HO_bind; [apply IH|]. intro l. apply HO_ret. intros s H. rewrite <- app_assoc in H. destruct a; exact H.
  Qed.

  Lemma in_add_all l : forall s i, In i (add_all l s) <-> In i l \/ In i s.
  Proof.
    unfold add_all. induction l as [|x l IH]; intros s i; cbn; [tauto|]. rewrite IH, in_nadd. intuition congruence.
  Qed.

  (** Every messaged optimizer is waited for, excluded, or its report was read; whatever was killed is excluded. *)
  Definition kills_in (no : list nat) (l : list event) : Prop := forall hn i, In (EvKill hn i) l -> In i no.
  Definition synced (mess : list nat) (x : list nat * list nat * list nat) (l : list event) : Prop :=
    let '(no, wait, live) := x in (forall i, In i mess -> In i wait \/ In i no \/ In (EvPaused i) l) /\ kills_in no l.
  Lemma kills_growing no : growing (kills_in no).
  Proof. intros e l He H hn i [Hi|Hi]; [subst; contradiction| eauto]. Qed.
  Lemma synced_growing mess x : growing (synced mess x).
  Proof.
    intros e l He H. destruct x as [[no wait] live]. destruct H as [H Hk]. split; [|apply kills_growing; assumption].
    intros i Hi. destruct (H i Hi) as [?|[?|?]]; auto. right. right. right. assumption.
  Qed.

  (** Hunts report their victims. *)
  Section Kills.
    Context (Q : list event -> Prop) (HQ : growing Q) (HQk : forall hn i l, Q l -> Q (EvKill hn i :: l)) (H0 : list (core * event)).
    Definition QK (L : list nat) : mstate -> Prop := since_has H0 (fun l => Q l /\ kills_in L l).
    Lemma QK_growing L : growing (fun l => Q l /\ kills_in L l).
    Proof. intros e l He [H1 H2]. split; [apply HQ; assumption| apply kills_growing; assumption]. Qed.
    Lemma QK_plain L {A} (m : M mstate A) : EX plain m -> HO (QK L) m (fun _ => QK L).
    Proof. intro Hm. apply EX_since; [apply QK_growing| exact Hm]. Qed.
    Lemma QK_sub L L' s : (forall i, In i L -> In i L') -> QK L s -> QK L' s.
    Proof. intros HL [new [H1 [H2 H3]]]. exists new. splits; auto. intros hn i Hi. eauto. Qed.
    Lemma hunt_kills b ids : forall L, HO (QK L) (hunt_loop g w limit b ids) (fun vs => QK (L ++ vs)).
    Proof.
      induction ids as [|v ids IH]; intro L; cbn [hunt_loop].
      - apply HO_ret. intros s H. rewrite app_nil_r. exact H.
      - unfold in_grave. gc d. apply HO_pre with (P := QK L); [tauto|]. gc p. apply HO_pre with (P := QK L); [tauto|].
        destruct (_ && _); [|apply IH]. eapply HO_bind; [apply QK_plain, EX_tick|]. intro t. gc c. apply HO_pre with (P := QK L); [tauto|].
        eapply HO_bind; [apply QK_plain, EX_lift|]. intro k. gc d'. apply HO_pre with (P := QK L); [tauto|]. destruct (_ && _); [|apply IH].
        eapply HO_bind with (R := fun _ => QK (L ++ [v])).
        + unfold shutdown_job. eapply HO_bind with (R := fun _ => QK (L ++ [v])).
          * apply HO_act. intros s [new [H1 [H2 H3]]]. exists ((st_core s, EvKill (Some b) v) :: new). cbn. rewrite H1. splits; auto.
            intros hn i [Hi|Hi]; apply in_or_app; [right; injection Hi as _ <-; left; reflexivity| left; eauto].
          * intros []. apply QK_plain. apply EX_bind; [destruct (_ && _); [apply EX_ret| apply EX_send; intros; exact I]| intro; apply EX_put_end].
        + intros []. eapply HO_bind; [apply IH|]. intro l. apply HO_ret. intros s H. rewrite <- app_assoc in H. exact H.
    Qed.
    Lemma item_kills q L : HO (QK L) (process_item g w limit q) (fun x => QK (L ++ snd x)).
    Proof.
      destruct q as [r|i]; cbn [process_item].
      - gc dead. apply HO_pre with (P := QK L); [tauto|]. destruct dead; [apply HO_ret; intros s H; rewrite app_nil_r; exact H|].
        gc hs. apply HO_pre with (P := QK L); [tauto|]. eapply HO_bind with (R := fun _ => QK L).
        { apply QK_plain. destruct hs; [apply EX_ret|]. ex. }
        intros []. eapply HO_bind with (R := fun _ => QK L); [apply QK_plain; unfold accept; ex|]. intros [].
        eapply HO_bind; [apply QK_plain, EX_update_best|]. intros []. gc c. apply HO_pre with (P := QK L); [tauto|]. cbv zeta.
        destruct (_ && _ && _); [|apply HO_ret; intros s H; rewrite app_nil_r; exact H].
        eapply HO_bind with (R := fun vs => QK (L ++ vs)); [|intro vs; apply HO_ret; auto].
        unfold start_hunt. eapply HO_bind with (R := fun _ => QK L); [apply QK_plain; ex|]. intros [].
        unfold pack_ids. gc ids. apply HO_pre with (P := QK L); [tauto|]. apply hunt_kills.
      - gc org. apply HO_pre with (P := QK L); [tauto|]. destruct org as [[b ty]|]; [|apply HO_ret; intros s H; rewrite app_nil_r; exact H].
        destruct (Nat.eqb b i); [apply HO_ret; intros s H; rewrite app_nil_r; exact H|].
        eapply HO_bind with (R := fun _ => QK L); [apply QK_plain; ex|]. intros []. apply HO_ret; intros s H; rewrite app_nil_r; exact H.
    Qed.
    Lemma chunk_kills l : forall acc, HO (QK (snd acc)) (process_chunk g w limit l acc) (fun x => QK (snd x)).
    Proof.
      induction l as [|q l IH]; intros [[n cl] vs]; cbn [process_chunk]; [apply HO_ret; auto|].
      eapply HO_bind; [apply item_kills|]. intros [[n' cl'] vs']. apply (IH (n + n', cl ++ cl', vs ++ vs')).
    Qed.
    Lemma loop_kills fuel : forall max acc, HO (QK (snd acc)) (process_loop g w limit fuel max acc) (fun x => QK (snd x)).
    Proof.
      induction fuel as [|fuel IH]; intros max acc; cbn [process_loop]; [apply HO_raise|].
      eapply HO_bind with (R := fun _ => QK (snd acc)); [apply QK_plain; ex|]. intro go. destruct go; [|apply HO_ret; auto].
      eapply HO_bind with (R := fun _ => QK (snd acc)); [apply QK_plain; unfold queue_get; ex|]. intros [ch|]; [|apply HO_ret; auto].
      eapply HO_bind; [apply chunk_kills|]. intro x. apply IH.
    Qed.
    Lemma results_kills max : HO (QK []) (process_results g w limit max) (fun p => QK (snd p)).
    Proof. unfold process_results. eapply HO_bind; [apply (loop_kills _ _ (0, [], []))|]. intro x. apply HO_ret. auto. Qed.
  End Kills.

  (** The same on top of what was killed before. *)
  Lemma results_kills_more Q H0 no max : growing Q -> (forall hn i l, Q l -> Q (EvKill hn i :: l)) ->
    HO (since_has H0 (fun l => Q l /\ kills_in no l)) (process_results g w limit max)
       (fun p => since_has H0 (fun l => Q l /\ kills_in (add_all (snd p) (add_all (fst p) no)) l)).
  Proof.
    intros HQ HQk s [new [E [H1 H2]]].
    pose (Q' := fun l => Q (l ++ map snd new)).
    assert (HQ' : growing Q') by (intros e l He H; apply HQ; assumption).
    assert (HQk' : forall hn i l, Q' l -> Q' (EvKill hn i :: l)) by (intros; apply HQk; assumption).
    pose proof (results_kills Q' HQ' HQk' (st_hist s) max s) as H.
    destruct (process_results g w limit max s) as [[p|e] s']; [|exact I].
    destruct H as [n2 [E2 [H3 H4]]]; [exists []; splits; [reflexivity| exact H1| intros hn i []]|].
    exists (n2 ++ new). rewrite E2, E, app_assoc, map_app. splits; [reflexivity| exact H3|].
    intros hn i Hi. rewrite !in_add_all. apply in_app_or in Hi as [Hi|Hi]; [left; eapply H4, Hi| right; right; eapply H2, Hi].
  Qed.

  Lemma sync_one_synced H0 mess i x : HO (since_has H0 (synced mess x)) (sync_one w limit i x) (fun y => since_has H0 (synced mess y)).
  Proof.
    unfold sync_one. destruct x as [[no wait] live].
    eapply HO_bind; [apply EX_since; [apply synced_growing| apply EX_alive]|]. intro a. destruct a.
    - eapply HO_bind; [apply EX_since; [apply synced_growing| apply EX_tick]|]. intro t. gc h.
      apply HO_pre with (P := since_has H0 (synced mess (no, wait, live))); [tauto|]. destruct h as [h|]; [|apply HO_raise].
      destruct (c_sigs h) as [|sg sgs]; [destruct (c_closed h); [apply HO_raise| apply HO_ret; auto]|].
      eapply HO_bind with (R := fun _ => since_has H0 (synced mess (no, wait, live))); [apply HO_modc; intros s H; exact H|]. intros [].
      destruct sg as [msg|msg| |]; try apply HO_raise.
      + eapply HO_bind; [apply EX_since; [apply synced_growing| apply EX_put_end]|]. intro.
        eapply HO_bind with (R := fun _ => since_has H0 (synced mess (no, wait, live))); [apply HO_modc; intros s H; exact H|]. intros [].
        apply HO_ret. intros s [new [H1 [H2 H3]]]. exists new. split; [exact H1|]. split; [|intros hn j Hj; apply in_nadd; right; eapply H3, Hj].
        intros j Hj. rewrite in_nadd. destruct (H2 j Hj) as [Hw|[Hw|Hw]]; auto.
      + eapply HO_bind with (R := fun _ => since_has H0 (synced mess (no, remove_id i wait, live))); [|intros []; apply HO_ret; auto].
        apply HO_act. intros s [new [H1 [H2 H3]]]. exists ((st_core s, EvPaused i) :: new). cbn. rewrite H1. split; [reflexivity|].
        split; [|intros hn j [Hj|Hj]; [discriminate| eapply H3, Hj]].
        intros j Hj. destruct (Nat.eq_dec j i) as [->|Hji]; [right; right; left; reflexivity|].
        destruct (H2 j Hj) as [Hw|[Hw|Hw]]; [|auto|right; right; right; exact Hw].
        left. apply filter_In. split; [exact Hw|]. apply negb_true_iff, Nat.eqb_neq, Hji.
    - apply HO_ret. intros s [new [H1 [H2 H3]]]. exists new. split; [exact H1|]. split; [|intros hn j Hj; apply in_nadd; right; eapply H3, Hj].
      intros j Hj. destruct (Nat.eq_dec j i) as [->|Hji]; [right; left; apply in_nadd; auto|].
      destruct (H2 j Hj) as [Hw|[Hw|Hw]]; [|right; left; apply in_nadd; auto|auto]. left. apply filter_In. split; [exact Hw|].
      apply negb_true_iff, Nat.eqb_neq, Hji.
  Qed.
  Lemma sync_round_synced H0 mess ids : forall x, HO (since_has H0 (synced mess x)) (sync_round w limit ids x) (fun y => since_has H0 (synced mess y)).
  Proof.
    induction ids as [|i ids IH]; intro x; cbn [sync_round]; [apply HO_ret; auto|].
    eapply HO_bind; [apply sync_one_synced|]. intro y. apply IH.
  Qed.
  Lemma sync_loop_synced H0 mess fuel : forall n x, HO (since_has H0 (synced mess x)) (sync_loop g w limit fuel n x)
    (fun y => since_has H0 (fun l => let '(no, _, _) := y in (forall i, In i mess -> In i no \/ In (EvPaused i) l) /\ kills_in no l)).
  Proof.
    induction fuel as [|fuel IH]; intros n x; cbn [sync_loop]; [apply HO_raise|]. destruct x as [[no wait] live].
    destruct wait as [|i0 wait].
    - apply HO_ret. intros s [new [H1 [H2 H3]]]. exists new. split; [exact H1|]. split; [|exact H3]. intros i Hi. destruct (H2 i Hi) as [[]|H]. exact H.
    - set (wt := i0 :: wait).
      eapply HO_bind; [apply EX_since; [apply synced_growing| apply EX_tick]|]. intro t.
      eapply HO_bind with (R := fun no' => since_has H0 (synced mess (no', wt, live))).
      + destruct (w_full w t); [|apply HO_ret; auto].
        pose (Q := fun l => forall i, In i mess -> In i wt \/ In i no \/ In (EvPaused i) l).
        eapply HO_bind; [apply (results_kills_more Q)|].
        * intros e l _ H i Hi. destruct (H i Hi) as [?|[?|?]]; auto. right. right. right. assumption.
        * intros hn j l H i Hi. destruct (H i Hi) as [?|[?|?]]; auto. right. right. right. assumption.
        * intro p. apply HO_ret. intros s [new [H1 [H2 H3]]]. exists new. split; [exact H1|]. split; [|exact H3].
          intros i Hi. rewrite !in_add_all. destruct (H2 i Hi) as [Hw|[Hw|Hw]]; auto.
      + intro no'. eapply HO_bind; [apply sync_round_synced|]. intro y. apply IH.
  Qed.

  (** A living child is alive at a send that succeeds. *)
  Lemma live_or_closed ms : forall c i h, nget i (k_packs c) = Some h -> c_alive h || c_closed h = true ->
    exists h', nget i (k_packs (apply_moves ms c)) = Some h' /\ c_alive h' || c_closed h' = true.
  Proof.
    unfold apply_moves. induction ms as [|m ms IH]; intros c i h Hg Ha; [eauto|]. cbn [fold_left].
    assert (Hs : exists h', nget i (k_packs (apply_move m c)) = Some h' /\ c_alive h' || c_closed h' = true).
    { assert (Hc : forall j f, (forall h0, c_alive h0 = true -> c_alive (f h0) || c_closed (f h0) = true) ->
                exists h', nget i (k_packs (on_child j f c)) = Some h' /\ c_alive h' || c_closed h' = true).
      { intros j f Hf. unfold on_child. destruct (nget j (k_packs c)) as [h0|] eqn:E; [|eauto]. destruct (c_alive h0) eqn:Ea; [|eauto].
        cbn. rewrite nget_nset. destruct (Nat.eqb_spec i j) as [->|Hn]; [|eauto]. eauto. }
      destruct m; cbn [apply_move]; try (apply Hc; intros h0 Ha0; cbn; rewrite ?Ha0; auto using orb_true_r; fail); cbn; eauto.
      - apply Hc. intros h0 Ha0. destruct (c_closed h0); cbn; rewrite Ha0; reflexivity.
      - destruct (forallb _ _); eauto. }
    destruct Hs as [h' [H1 H2]]. apply (IH _ i h' H1 H2).
  Qed.

  Definition save_event (mess no : list nat) (ce : core * event) : Prop :=
    match snd ce with
    | EvSend i OSave => In i mess /\ ~ In i no /\ exists h, nget i (k_packs (fst ce)) = Some h /\ c_alive h = true
    | EvKill _ _ => False
    | _ => True
    end.
  Lemma EX_save_one mess no i : In i mess -> EX (save_event mess no) (save_one w limit no i).
  Proof.
    intros Hi s. unfold save_one, is_alive, bind at 1 2. unfold tick at 1. destruct (Nat.leb _ _); [exists []; auto|].
    destruct (w_intr w _); [exists []; auto|]. unfold getc at 1, gets at 1. cbn [st_core].
    match goal with |- exists new, st_hist (snd ((if ?b then _ else _) ?x)) = _ /\ _ => set (s1 := x); destruct b eqn:Ea end; [|exists []; auto].
    destruct (nmem i no) eqn:En.
    { destruct (EX_send (save_event mess no) i OPass (fun c h _ _ => I) s1) as [new [H1 H2]]. exists new. auto. }
    unfold send, bind at 1, tick. destruct (Nat.leb _ _); [exists []; auto|]. destruct (w_intr w _); [exists []; auto|].
    unfold getc, gets, bind. cbn [st_core k_packs set_ktick].
    destruct (nget i (k_packs (st_core s1))) as [h|] eqn:Eh.
    2:{ change (k_packs (st_core s1)) with (k_packs (apply_moves (w_moves w (k_tick (st_core s))) (st_core s))) in Eh.
        cbn in Ea. rewrite Eh in Ea. discriminate. }
    assert (Hal : c_alive h = true) by (cbn in Ea; change (k_packs (st_core s1)) with (k_packs (apply_moves (w_moves w (k_tick (st_core s))) (st_core s))) in Eh; rewrite Eh in Ea; exact Ea).
    destruct (live_or_closed (w_moves w (k_tick (st_core s1))) (st_core s1) i h Eh) as [h' [H1 H2]]; [rewrite Hal; reflexivity|].
    rewrite H1. destruct (c_closed h') eqn:Ec; [exists []; auto|]. rewrite orb_false_r in H2.
    eexists [_]. split; [reflexivity|]. constructor; [|constructor]. cbn. splits; [exact Hi| |eauto].
    intro Hno. apply nmem_in in Hno. congruence.
  Qed.

  (** Newest first: each save is preceded by the report of that optimizer, and that by the request to pause. *)
  Definition saves_follow_pauses (new : list (core * event)) : Prop :=
    forall a c i b, new = a ++ (c, EvSend i OSave) :: b ->
      (exists h, nget i (k_packs c) = Some h /\ c_alive h = true) /\
      (forall hn, ~ In (EvKill hn i) (map snd b)) /\
      exists b1 b2, b = b1 ++ b2 /\ In (EvPaused i) (map snd b1) /\ In (EvSend i OPause) (map snd b2).

  Lemma cut_app {A} (a : list A) x b l1 l2 : l1 ++ l2 = a ++ x :: b ->
    (exists b', l1 = a ++ x :: b' /\ b = b' ++ l2) \/ In x l2.
  Proof.
    revert a. induction l1 as [|y l1 IH]; intros a H; cbn in H.
    - right. rewrite H. apply in_elt.
    - destruct a as [|z a]; cbn in H; injection H as -> H.
      + left. exists l1. auto.
      + destruct (IH a H) as [[b' [-> ->]]|Hx]; [left; exists b'; auto| right; exact Hx].
  Qed.

  Lemma no_save_follow new : Forall no_save new -> saves_follow_pauses new.
  Proof.
    intros H a c i b ->. exfalso. apply Forall_app in H as [_ H]. inversion H as [|? ? Hx]. exact Hx.
  Qed.

  Lemma save_follow mess no n3 n2 n1 : Forall (save_event mess no) n3 -> Forall no_save n2 -> Forall plain n1 ->
    (forall i, In i mess -> In i no \/ In (EvPaused i) (map snd n2)) -> kills_in no (map snd n2) -> (forall i, In i mess -> In (EvSend i OPause) (map snd n1)) ->
    saves_follow_pauses (n3 ++ n2 ++ n1).
  Proof.
    intros H3 H2 H1 Hp Hk Hq a c i b Heq. apply cut_app in Heq as [[b' [-> ->]]|Hx].
    - apply Forall_app in H3 as [_ H3]. inversion H3 as [|? ? Hx Hb0]; subst. unfold save_event in Hx. cbn in Hx. destruct Hx as [Hm [Hn Hh]]. split; [exact Hh|]. split.
      { intros hn Hi. rewrite !map_app, !in_app_iff in Hi. destruct Hi as [Hi|[Hi|Hi]].
        - match goal with H : Forall (save_event mess no) b' |- _ => rename H into Hb end. apply in_map_iff in Hi as [[c' e'] [He Hi]]. cbn in He. subst e'.
          apply (proj1 (Forall_forall _ _) Hb) in Hi. exact Hi.
        - apply Hn. eapply Hk, Hi.
        - apply in_map_iff in Hi as [[c' e'] [He Hi]]. cbn in He. subst e'. apply (proj1 (Forall_forall _ _) H1) in Hi. exact Hi. }
      exists (b' ++ n2), n1. rewrite <- app_assoc. splits; [reflexivity| |apply Hq, Hm].
      destruct (Hp i Hm) as [Hx|Hx]; [contradiction|]. rewrite map_app. apply in_or_app. right. exact Hx.
    - exfalso. apply in_app_or in Hx as [Hx|Hx]; [pose proof (proj1 (Forall_forall _ _) H2 _ Hx) as HH|
                                                   pose proof (plain_no_save _ (proj1 (Forall_forall _ _) H1 _ Hx)) as HH]; exact HH.
  Qed.

  (** One method after another. *)
  Lemma run_bind (Pe : core * event -> Prop) {A B} (m : M mstate A) (f : A -> M mstate B) (G : list (core * event) -> Prop) (R : A -> mstate -> Prop) s n0 H0 :
    st_hist s = n0 ++ H0 -> Forall Pe n0 -> (forall new, Forall Pe new -> G new) -> EX Pe m ->
    HO (fun s0 => s0 = s) m R ->
    (forall a s' n1, st_hist s' = (n1 ++ n0) ++ H0 -> Forall Pe (n1 ++ n0) -> R a s' ->
       exists new, st_hist (snd (f a s')) = new ++ H0 /\ G new) ->
    exists new, st_hist (snd (bind m f s)) = new ++ H0 /\ G new.
  Proof.
    intros Hs Hn HG Hm HR Hf. specialize (HR s eq_refl). unfold bind. destruct (Hm s) as [n1 [H1 H2]]. destruct (m s) as [[a|e] s']; cbn in *.
    - apply (Hf a s' n1); [rewrite H1, Hs, app_assoc; reflexivity| apply Forall_app; auto| exact HR].
    - exists (n1 ++ n0). split; [rewrite H1, Hs, app_assoc; reflexivity|]. apply HG, Forall_app. auto.
  Qed.

  Lemma saved_after_paused s :
    exists new, st_hist (snd (checkpoint_optimizers g w limit s)) = new ++ st_hist s /\ saves_follow_pauses new.
  Proof.
    assert (Hpl : forall new, Forall plain new -> saves_follow_pauses new).
    { intros new H. apply no_save_follow. eapply Forall_impl; [exact plain_no_save| exact H]. }
    unfold checkpoint_optimizers, pack_ids.
    eapply (run_bind plain _ _ saves_follow_pauses (fun _ _ => True) s []); [reflexivity| constructor| exact Hpl| apply EX_getc_any| intros ? _; cbn; exact I|].
    intros ids s0 n0 E0 N0 _. rewrite app_nil_r in *.
    eapply (run_bind plain _ _ saves_follow_pauses (fun mess s1 => since_has (st_hist s) (fun l => forall i, In i mess -> In (EvSend i OPause) l) s1) s0 n0);
      [exact E0| exact N0| exact Hpl| apply EX_pause_all| |].
    { eapply HO_pre; [|apply (pause_all_told (st_hist s) ids [])]. intros ? ->. exists n0. split; [exact E0|]. intros i []. }
    intros mess s1 n1 E1 P1 R1. assert (N1 : Forall no_save (n1 ++ n0)) by (eapply Forall_impl; [exact plain_no_save| exact P1]).
    assert (Q1 : forall i, In i mess -> In (EvSend i OPause) (map snd (n1 ++ n0))).
    { destruct R1 as [new [Hx Hy]]. rewrite E1 in Hx. apply app_inv_tail in Hx. rewrite Hx. exact Hy. }
    set (na := n1 ++ n0) in *. clearbody na. clear n1 n0 E0 N0 s0 R1.
    eapply (run_bind no_save _ _ saves_follow_pauses (fun x s2 => since_has (st_hist s1) (fun l => let '(no, _, _) := x in (forall i, In i mess -> In i no \/ In (EvPaused i) l) /\ kills_in no l) s2) s1 na);
      [exact E1| exact N1| apply no_save_follow| apply EX_sync_loop| |].
    { eapply HO_pre; [|apply sync_loop_synced]. intros ? ->. exists []. split; [reflexivity|]. split; [intros i Hi; left; exact Hi| intros hn i []]. }
    intros [[no wt] live] s2 n2 E2 N2 R2.
    assert (Q2 : (forall i, In i mess -> In i no \/ In (EvPaused i) (map snd n2)) /\ kills_in no (map snd n2)).
    { destruct R2 as [new [Hx Hy]]. rewrite E2, E1, <- app_assoc in Hx. apply app_inv_tail in Hx. rewrite Hx. exact Hy. }
    destruct Q2 as [Q2 K2]. apply Forall_app in N2 as [N2 _]. clear R2.
    assert (Hcut : forall n3, Forall no_save n3 -> saves_follow_pauses (n3 ++ na)).
    { intros n3 H3. apply no_save_follow, Forall_app. auto. }
    rewrite <- app_assoc in E2.
    enough (Hrest : exists new, st_hist (snd ((p <- process_results g w limit None ;;
      let no := add_all (snd p) (add_all (fst p) no) in
      tick w limit ;;;
      empty <- getc (fun c => match k_queue c with [] => true | _ => false end) ;;
      (if empty : bool then ret tt else raise AssertionError) ;;;
      ext w limit ;;;
      for_each mess (save_one w limit no) ;;;
      hold_loop w limit (S limit) live ;;;
      for_each (filter (fun i => negb (nmem i no)) mess) (confirm_one w limit)) s2)) = new ++ (na ++ st_hist s) /\ saves_follow_pauses (new ++ na)).
    { destruct Hrest as [new [Hx Hy]]. exists (new ++ na). split; [|exact Hy]. rewrite <- app_assoc. exact Hx. }
    eapply (run_bind no_save _ _ (fun new => saves_follow_pauses (new ++ na))
      (fun p s3 => since_has (na ++ st_hist s) (fun l => True /\ kills_in (add_all (snd p) (add_all (fst p) no)) l) s3) s2 n2); [exact E2| exact N2| exact Hcut| apply EX_process_results| |].
    { eapply HO_pre; [|apply (results_kills_more (fun _ => True)); [intros ? ? ? ?; exact I| intros; exact I]]. intros ? ->. exists n2. splits; auto. }
    intros p s3 n3 E3 N3 R3. cbv zeta. set (no' := add_all (snd p) (add_all (fst p) no)).
    assert (Q3 : forall i, In i mess -> In i no' \/ In (EvPaused i) (map snd (n3 ++ n2))).
    { intros i Hi. unfold no'. rewrite !in_add_all, map_app, in_app_iff. destruct (Q2 i Hi); auto. }
    assert (K3 : kills_in no' (map snd (n3 ++ n2))).
    { destruct R3 as [new [Hx [_ Hy]]]. rewrite E3 in Hx. apply app_inv_tail in Hx. rewrite Hx. exact Hy. }
    set (nb := n3 ++ n2) in *. clearbody nb no'. clear n3 n2 E2 N2 Q2 K2 R3 p.
    assert (Hone : forall (A B : Type) (m : M mstate A) (f : A -> M mstate B) s3 nb, EX plain m ->
              st_hist s3 = nb ++ na ++ st_hist s -> Forall no_save nb -> (forall i, In i mess -> In i no' \/ In (EvPaused i) (map snd nb)) -> kills_in no' (map snd nb) ->
              (forall a s4 nb', st_hist s4 = nb' ++ na ++ st_hist s -> Forall no_save nb' -> (forall i, In i mess -> In i no' \/ In (EvPaused i) (map snd nb')) -> kills_in no' (map snd nb') ->
                 exists new, st_hist (snd (f a s4)) = new ++ na ++ st_hist s /\ saves_follow_pauses (new ++ na)) ->
              exists new, st_hist (snd (bind m f s3)) = new ++ na ++ st_hist s /\ saves_follow_pauses (new ++ na)).
    { intros A B m f s4 nc Hm Hs Hn Hq Hk Hf.
      eapply (run_bind no_save m f (fun new => saves_follow_pauses (new ++ na))
        (fun _ s5 => since_has (na ++ st_hist s) (fun l => (forall i, In i mess -> In i no' \/ In (EvPaused i) l) /\ kills_in no' l) s5) s4 nc);
        [exact Hs| exact Hn| exact Hcut| apply (EX_sub plain); [exact plain_no_save| exact Hm]| |].
      - eapply HO_pre; [|apply EX_since; [|exact Hm]]; [intros ? ->; exists nc; splits; auto|].
        intros e l He [Ha Hb]. split; [|apply kills_growing; assumption]. intros i Hi. destruct (Ha i Hi); [auto| right; right; assumption].
      - intros a s5 n5 E5 N5 [new [Hx [Hy Hz]]]. rewrite E5 in Hx. apply app_inv_tail in Hx. subst new. apply (Hf a s5 (n5 ++ nc)); assumption. }
    apply (Hone _ _ _ _ _ _ (EX_tick _) E3 N3 Q3 K3). clear s3 nb E3 N3 Q3 K3. intros t s3 nb E3 N3 Q3 K3.
    apply (Hone _ _ _ _ _ _ (EX_getc_any _ _) E3 N3 Q3 K3). clear s3 nb E3 N3 Q3 K3. intros em s3 nb E3 N3 Q3 K3.
    assert (Hem : EX plain (if em : bool then ret tt else raise AssertionError)) by (destruct em; [apply EX_ret| apply EX_raise]).
    apply (Hone _ _ _ _ _ _ Hem E3 N3 Q3 K3). clear s3 nb E3 N3 Q3 K3. intros u s3 nb E3 N3 Q3 K3.
    assert (Hex : EX plain (ext w limit)) by (unfold ext; ex).
    apply (Hone _ _ _ _ _ _ Hex E3 N3 Q3 K3). clear s3 nb E3 N3 Q3 K3. intros u' s3 nb E3 N3 Q3 K3.
    assert (Hlast : EX (save_event mess no') (for_each mess (save_one w limit no') ;;; hold_loop w limit (S limit) live ;;;
      for_each (filter (fun i => negb (nmem i no')) mess) (confirm_one w limit))).
    { apply EX_bind; [apply EX_for_each; intros i Hi; apply EX_save_one, Hi|]. intros []. apply EX_bind.
      - generalize (S limit) live. clear. induction n as [|n IH]; intro ids; cbn [hold_loop]; [apply EX_raise|]. destruct ids as [|i ids]; [apply EX_ret|].
        apply EX_bind; [|intro; apply IH]. generalize (i :: ids). intro l. induction l as [|j l IHl]; cbn [hold_round]; ex. exact IHl.
      - intros []. unfold confirm_one. ex. }
    destruct (Hlast s3) as [n4 [E4 N4]]. exists (n4 ++ nb). split; [rewrite E4, E3, <- app_assoc; reflexivity|].
    rewrite <- app_assoc. eapply save_follow; eassumption.
  Qed.

  (** *** Resuming *)
  Definition runs_or_held (i t0 : nat) (s : mstate) : Prop :=
    t0 <= k_tick (st_core s) /\
    forall h, nget i (k_packs (st_core s)) = Some h -> c_alive h = true ->
      c_run h = true \/ exists t, t0 <= t < k_tick (st_core s) /\ In (MHold i) (w_moves w t).

  Lemma run_kept ms : forall c i h', nget i (k_packs (apply_moves ms c)) = Some h' -> c_alive h' = true ->
    exists h, nget i (k_packs c) = Some h /\ c_alive h = true /\ (c_run h' = c_run h \/ In (MHold i) ms).
  Proof.
    unfold apply_moves. induction ms as [|m ms IH]; intros c i h' Hg Ha; [eauto|]. cbn [fold_left] in Hg.
    destruct (IH _ i h' Hg Ha) as [h [H1 [H2 H3]]].
    assert (Hs : exists h0, nget i (k_packs c) = Some h0 /\ c_alive h0 = true /\ (c_run h = c_run h0 \/ m = MHold i)).
    { assert (Hc : forall j f, apply_move m c = on_child j f c -> (forall h0, c_alive (f h0) = true -> c_alive h0 = true /\ (c_run (f h0) = c_run h0 \/ m = MHold j)) ->
                exists h0, nget i (k_packs c) = Some h0 /\ c_alive h0 = true /\ (c_run h = c_run h0 \/ m = MHold i)).
      { intros j f Hm Hf. rewrite Hm in H1. unfold on_child in H1. destruct (nget j (k_packs c)) as [h0|] eqn:E; [|eauto].
        destruct (c_alive h0) eqn:Ea; [|eauto]. cbn in H1. rewrite nget_nset in H1. destruct (Nat.eqb_spec i j) as [->|Hn]; [|eauto].
        injection H1 as <-. destruct (Hf h0 H2) as [_ Hr]. exists h0. auto. }
      destruct m; try (eapply Hc; [reflexivity|]; intros h0 Hx; cbn in Hx |- *; auto; try discriminate; fail).
      - eapply Hc; [reflexivity|]. intros h0 Hx. cbn beta in Hx |- *. destruct (c_closed h0); cbn in *; auto.
      - exists h. cbn in H1. destruct (forallb _ _); auto.
      - exists h. auto.
      - exists h. auto. }
    destruct Hs as [h0 [G1 [G2 G3]]]. exists h0. splits; auto. destruct H3 as [H3|H3]; [|right; right; exact H3].
    destruct G3 as [G3| ->]; [left; congruence| right; left; reflexivity].
  Qed.

  Lemma held_tick i t0 : HO (runs_or_held i t0) (tick w limit) (fun _ => runs_or_held i t0).
  Proof.
    intros s [Ht Hr]. unfold tick. destruct (Nat.leb _ _); [exact I|]. destruct (w_intr w _); [exact I|].
    split; cbn; [lia|]. intros h Hg Ha. apply run_kept in Hg as [h0 [H1 [H2 [H3|H3]]]]; [| |exact Ha].
    - destruct (Hr h0 H1 H2) as [H|[t [H4 H5]]]; [left; congruence|]. right. exists t. split; [lia| exact H5].
    - right. exists (k_tick (st_core s)). split; [lia| exact H3].
  Qed.
  Lemma late_tick t0 : HO (fun s => t0 <= k_tick (st_core s)) (tick w limit) (fun _ s => t0 <= k_tick (st_core s)).
  Proof.
    intros s Ht. unfold tick. destruct (Nat.leb _ _); [exact I|]. destruct (w_intr w _); [exact I|]. cbn. lia.
  Qed.
  Definition set_running (i : nat) (c : core) : core :=
    match nget i (k_packs c) with
    | Some h => set_kpacks (nset i (mkCh (c_slots h) (c_alive h) (c_code h) (c_sigs h) (c_closed h) true) (k_packs c)) c
    | None => c
    end.
  Lemma toggle_keep i j t0 : HO (runs_or_held i t0) (toggle_one w limit j) (fun _ => runs_or_held i t0).
  Proof.
    unfold toggle_one, is_alive. eapply HO_bind with (R := fun _ => runs_or_held i t0).
    { eapply HO_bind; [apply held_tick|]. intro t. intros s Hs. exact Hs. }
    intro a. destruct a; [|apply HO_ret; auto]. change (HO (runs_or_held i t0) (modc (set_running j)) (fun _ => runs_or_held i t0)).
    apply HO_modc. intros s [Ht Hr]. unfold runs_or_held, set_running. cbn. destruct (nget j (k_packs (st_core s))) as [h0|] eqn:E; [|split; assumption].
    cbn. split; [exact Ht|]. intros h Hg Ha. rewrite nget_nset in Hg. destruct (Nat.eqb_spec i j) as [->|Hn]; [|auto].
    injection Hg as <-. left. reflexivity.
  Qed.
  Lemma late_keep j t0 : HO (fun s => t0 <= k_tick (st_core s)) (toggle_one w limit j) (fun _ s => t0 <= k_tick (st_core s)).
  Proof.
    unfold toggle_one, is_alive. eapply HO_bind with (R := fun _ s => t0 <= k_tick (st_core s)).
    { eapply HO_bind; [apply late_tick|]. intro t. intros s Hs. exact Hs. }
    intro a. destruct a; [|apply HO_ret; auto]. apply HO_modc. intros s Hs. cbn. destruct (nget j _); exact Hs.
  Qed.
  Lemma toggle_sets i t0 : HO (fun s => t0 <= k_tick (st_core s)) (toggle_one w limit i) (fun _ => runs_or_held i t0).
  Proof.
    unfold toggle_one, is_alive.
    eapply HO_bind with (R := fun a s => t0 <= k_tick (st_core s) /\ a = match nget i (k_packs (st_core s)) with Some h => c_alive h | None => false end).
    { eapply HO_bind; [apply late_tick|]. intro t. intros s Hs. split; [exact Hs| reflexivity]. }
    intro a. destruct a.
    - change (HO (fun s => t0 <= k_tick (st_core s) /\ true = match nget i (k_packs (st_core s)) with Some h => c_alive h | None => false end) (modc (set_running i)) (fun _ => runs_or_held i t0)).
      apply HO_modc. intros s [Ht Hr]. unfold runs_or_held, set_running. cbn. destruct (nget i (k_packs (st_core s))) as [h0|] eqn:E; [|discriminate].
      cbn. split; [exact Ht|]. intros h Hg Ha. rewrite nget_nset_same in Hg. injection Hg as <-. left. reflexivity.
    - apply HO_ret. intros s [Ht Hr]. split; [exact Ht|]. intros h Hg Ha. rewrite Hg in Hr. congruence.
  Qed.
  Lemma toggles_set i t0 ids : In i ids -> HO (fun s => t0 <= k_tick (st_core s)) (for_each ids (toggle_one w limit)) (fun _ => runs_or_held i t0).
  Proof.
    induction ids as [|j ids IH]; intro Hi; [destruct Hi|]. cbn [for_each]. destruct (Nat.eq_dec j i) as [->|Hj].
    - eapply HO_bind; [apply toggle_sets|]. intros []. apply HO_for_each. intro j. apply toggle_keep.
    - destruct Hi as [Hi|Hi]; [congruence|]. eapply HO_bind; [apply late_keep|]. intros []. apply IH, Hi.
  Qed.

  Lemma toggle_hist ids : forall s, st_hist (snd (for_each ids (toggle_one w limit) s)) = st_hist s.
  Proof.
    intro s. assert (H : EX (fun _ => False) (for_each ids (toggle_one w limit))) by (apply EX_for_each; intros; unfold toggle_one; ex).
    destruct (H s) as [new [H1 H2]]. rewrite H1. destruct new; [reflexivity|]. inversion H2. contradiction.
  Qed.

  Lemma toggles_all s1 s' : for_each (dkeys (k_packs (st_core s1))) (toggle_one w limit) s1 = (Ok tt, s') ->
    st_hist s' = st_hist s1 /\ forall i, runs_or_held i (k_tick (st_core s1)) s'.
  Proof.
    intro Hr. split; [rewrite <- (toggle_hist (dkeys (k_packs (st_core s1))) s1), Hr; reflexivity|]. intro i.
    destruct (in_dec Nat.eq_dec i (dkeys (k_packs (st_core s1)))) as [Hi|Hi].
    - pose proof (toggles_set i (k_tick (st_core s1)) _ Hi s1 (Nat.le_refl _)) as H. rewrite Hr in H. exact H.
    - assert (Hn : forall j, HO (fun s => k_tick (st_core s1) <= k_tick (st_core s) /\ nget i (k_packs (st_core s)) = None) (toggle_one w limit j)
                   (fun _ s => k_tick (st_core s1) <= k_tick (st_core s) /\ nget i (k_packs (st_core s)) = None)).
      { intro j. unfold toggle_one, is_alive.
        eapply HO_bind with (R := fun _ s => k_tick (st_core s1) <= k_tick (st_core s) /\ nget i (k_packs (st_core s)) = None).
        - eapply HO_bind with (R := fun _ s => k_tick (st_core s1) <= k_tick (st_core s) /\ nget i (k_packs (st_core s)) = None).
          + intros s [H1 H2]. unfold tick. destruct (Nat.leb _ _); [exact I|]. destruct (w_intr w _); [exact I|]. cbn. split; [lia|].
            apply nget_none. rewrite (er_keys _ _ _ (apply_moves_rel _ _)). apply nget_none. exact H2.
          + intro t. intros s Hs. exact Hs.
        - intro a. destruct a; [|apply HO_ret; auto]. apply HO_modc. intros s [H1 H2]. cbn.
          destruct (nget j (k_packs (st_core s))) as [h|] eqn:E; [|auto]. cbn. split; [exact H1|].
          rewrite nget_nset_other; [exact H2| congruence]. }
      pose proof (HO_for_each _ (dkeys (k_packs (st_core s1))) _ Hn s1) as H. rewrite Hr in H. destruct H as [H1 H2].
      { split; [lia| apply nget_none, Hi]. }
      split; [exact H1|]. intros h Hh. congruence.
  Qed.

  Lemma checkpoint_resumes s s' : checkpoint g w limit s = (Ok tt, s') ->
    exists s1, for_each (dkeys (k_packs (st_core s1))) (toggle_one w limit) s1 = (Ok tt, s') /\ k_tick (st_core s1) <= k_tick (st_core s').
  Proof.
    unfold checkpoint. unfold bind at 1. destruct (ext w limit s) as [[[]|e] sa]; [|discriminate].
    unfold bind at 1. destruct (try_except _ _ _ sa) as [[[]|e] sb]; [|discriminate].
    unfold bind at 1. destruct (getc _ sb) as [[conv|e] sc]; [|discriminate].
    unfold bind at 1. match goal with |- context [match ?m sc with _ => _ end] => destruct (m sc) as [[[]|e] sd]; [|discriminate] end.
    unfold bind, pack_ids, getc, gets. intro Hr. exists sd. split; [exact Hr|].
    pose proof (HO_for_each (fun s => k_tick (st_core sd) <= k_tick (st_core s)) (dkeys (k_packs (st_core sd))) (toggle_one w limit) (fun j => late_keep j _) sd (Nat.le_refl _)) as H.
    rewrite Hr in H. exact H.
  Qed.

  (** *** A dead optimizer never reports that it is waiting *)
  Section Hang.
    Context (i : nat) (h : child) (Hd : c_alive h = false) (Hrun : c_run h = true).
    Definition corpse (s : mstate) : Prop := nget i (k_packs (st_core s)) = Some h.
    Lemma corpse_env : env_stable corpse.
    Proof. intros s ms H. apply (er_dead _ _ _ (apply_moves_rel ms (st_core s))); assumption. Qed.
    Lemma hold_round_keeps ids : HO corpse (hold_round w limit ids) (fun l s => corpse s /\ (In i ids -> In i l)).
    Proof.
      induction ids as [|j ids IH]; cbn [hold_round]; [apply HO_ret; intros s H; split; [exact H| intros []]|].
      eapply HO_bind; [apply HO_tick, corpse_env|]. intro t. gc r.
      destruct (Nat.eq_dec j i) as [->|Hj].
      - intros s [Hs Hr]. unfold corpse in Hs. rewrite Hs in Hr. rewrite Hrun in Hr. subst r. revert s Hs.
        enough (H : HO corpse (l <- hold_round w limit ids ;; ret (i :: l)) (fun l s => corpse s /\ (In i (i :: ids) -> In i l))) by exact H.
        eapply HO_bind; [apply IH|]. intro l. apply HO_ret. intros s [H1 H2]. split; [exact H1|]. intro. left. reflexivity.
      - apply HO_pre with (P := corpse); [tauto|]. eapply HO_bind; [apply IH|]. intro l. apply HO_ret. intros s [H1 H2].
        split; [exact H1|]. intros [Hi|Hi]; [congruence|]. destruct r; [right|]; apply H2, Hi.
    Qed.
    Lemma hold_loop_hangs fuel : forall ids, In i ids -> HO corpse (hold_loop w limit fuel ids) (fun _ _ => False).
    Proof.
      induction fuel as [|fuel IH]; intros ids Hi; cbn [hold_loop]; [apply HO_raise|]. destruct ids as [|j ids]; [destruct Hi|].
      eapply HO_bind; [apply hold_round_keeps|]. intro l. intros s [H1 H2]. apply (IH l (H2 Hi) s H1).
    Qed.
  End Hang.
  Lemma hold_loop_errors fuel : forall ids s e, fst (hold_loop w limit fuel ids s) = Err e -> e = OutOfFuel \/ e = KeyboardInterrupt.
  Proof.
    assert (Ht : forall s e, fst (tick w limit s) = Err e -> e = OutOfFuel \/ e = KeyboardInterrupt).
    { intros s e. unfold tick. destruct (Nat.leb _ _); [intros [= <-]; auto|]. destruct (w_intr w _); [intros [= <-]; auto| discriminate]. }
    assert (Hh : forall ids s e, fst (hold_round w limit ids s) = Err e -> e = OutOfFuel \/ e = KeyboardInterrupt).
    { induction ids as [|j ids IH]; intros s e; cbn [hold_round]; [discriminate|]. unfold bind at 1. specialize (Ht s).
      destruct (tick w limit s) as [[t|x] s1]; [|intros [= <-]; auto]. unfold bind, getc, gets. specialize (IH s1).
      destruct (hold_round w limit ids s1) as [[l|x] s2]; [discriminate| intros [= <-]; apply IH; reflexivity]. }
    induction fuel as [|fuel IH]; intros ids s e; cbn [hold_loop]; [intros [= <-]; auto|]. destruct ids as [|j ids]; [discriminate|].
    unfold bind. specialize (Hh (j :: ids) s). destruct (hold_round w limit (j :: ids) s) as [[l|x] s1]; [apply IH| intros [= <-]; apply Hh; reflexivity].
  Qed.

  (** *** Whole runs: every state saved was asked for after the optimizer reported it was paused *)
  Definition protocol (h : list (core * event)) : Prop :=
    forall a c i b, h = a ++ (c, EvSend i OSave) :: b ->
      (exists hc, nget i (k_packs c) = Some hc /\ c_alive hc = true) /\
      exists b1 b2 b3, b = b1 ++ b2 ++ b3 /\ In (EvPaused i) (map snd b1) /\ In (EvSend i OPause) (map snd b2) /\
                       forall hn, ~ In (EvKill hn i) (map snd (b1 ++ b2)).
  Lemma cut_app2 {A} (a : list A) x b l1 l2 : l1 ++ l2 = a ++ x :: b ->
    (exists b', l1 = a ++ x :: b' /\ b = b' ++ l2) \/ exists a', l2 = a' ++ x :: b.
  Proof.
    revert a. induction l1 as [|y l1 IH]; intros a H; cbn in H; [right; eauto|].
    destruct a as [|z a]; cbn in H; injection H as -> H.
    - left. exists l1. auto.
    - destruct (IH a H) as [[b' [-> ->]]|Hx]; [left; exists b'; auto| right; exact Hx].
  Qed.
  Lemma protocol_app new h : saves_follow_pauses new -> protocol h -> protocol (new ++ h).
  Proof.
    intros Hn Hh a c i b Heq. apply cut_app2 in Heq as [[b' [E1 E2]]|[a' E]]; [|eapply Hh, E].
    destruct (Hn a c i b' E1) as [Ha [Hk [b1 [b2 [E3 [H1 H2]]]]]]. split; [exact Ha|]. exists b1, b2, h. subst. rewrite <- app_assoc. splits; auto.
  Qed.

  Definition KP {A} (m : M mstate A) : Prop := forall s, protocol (st_hist s) -> protocol (st_hist (snd (m s))).
  Lemma KP_EX {A} (m : M mstate A) : EX no_save m -> KP m.
  Proof. intros H s Hs. destruct (H s) as [new [E N]]. rewrite E. apply protocol_app; [apply no_save_follow, N| exact Hs]. Qed.
  Lemma KP_bind {A B} (m : M mstate A) (f : A -> M mstate B) : KP m -> (forall a, KP (f a)) -> KP (bind m f).
  Proof. intros Hm Hf s Hs. specialize (Hm s Hs). unfold bind. destruct (m s) as [[a|e] s']; [apply Hf, Hm| exact Hm]. Qed.
  Lemma KP_for_each {A} (l : list A) f : (forall a, KP (f a)) -> KP (for_each l f).
  Proof. intro H. induction l; cbn [for_each]; [apply KP_EX, EX_ret| apply KP_bind; auto]. Qed.
  Lemma KP_try {A} (m : M mstate A) c h : KP m -> (forall e, KP (h e)) -> KP (try_except m c h).
  Proof.
    intros Hm Hh s Hs. specialize (Hm s Hs). unfold try_except. destruct (m s) as [[a|e] s']; [exact Hm|]. destruct (c e); [apply Hh, Hm| exact Hm].
  Qed.
  Ltac kp := repeat (cbv beta; lazymatch goal with
    | |- KP (bind _ _) => apply KP_bind; [|intro]
    | |- KP (for_each _ _) => apply KP_for_each; intro
    | |- KP (try_except _ _ _) => apply KP_try; [|intro]
    | |- KP (if ?b then _ else _) => destruct b
    | |- KP (match ?x with _ => _ end) => destruct x
    | |- KP (process_results _ _ _ _) => apply KP_EX, EX_process_results
    | |- KP _ => apply KP_EX; ex; fail
    end).
  Lemma KP_checkpoint_optimizers : KP (checkpoint_optimizers g w limit).
  Proof. intros s Hs. destruct (saved_after_paused s) as [new [E N]]. rewrite E. apply protocol_app; assumption. Qed.
  Lemma KP_checkpoint : KP (checkpoint g w limit).
  Proof. unfold checkpoint, ext, pack_ids, toggle_one. kp. apply KP_checkpoint_optimizers. Qed.
  Lemma EX_living ids : EX no_save (living w limit ids).
  Proof. induction ids as [|i ids IH]; cbn [living]; ex. exact IH. Qed.
  Lemma EX_fill_loop fuel : forall count started, EX no_save (fill_loop g w limit fuel count started).
  Proof.
    induction fuel as [|fuel IH]; intros count started; cbn [fill_loop]; [apply EX_raise|].
    unfold setup_new_optimizer, add_to_log, start_new_job, ext. ex; apply IH.
  Qed.
  Lemma EX_fill_slots : EX no_save (fill_slots g w limit).
  Proof. unfold fill_slots, pack_ids. ex; try apply EX_living; apply EX_fill_loop. Qed.
  Lemma EX_check_signals i : EX no_save (check_signals w limit i).
  Proof. unfold check_signals, in_grave. ex. Qed.
  Lemma EX_inspect i : EX no_save (inspect_child g w limit i).
  Proof. unfold inspect_child, inspect_dead, inspect_hang, inspect_zombie, in_grave. ex. apply EX_check_signals. Qed.
  Lemma EX_manual_shutdowns : EX no_save (manual_shutdowns g w limit).
  Proof. unfold manual_shutdowns, manual_shutdown. ex. apply EX_shutdown_job. Qed.
  Lemma KP_iteration : KP (iteration g w limit).
  Proof.
    unfold iteration, pack_ids, checker_call, periodic_checkpoint, manual_checkpoints, inspect_children, purge_one, in_grave, pack_ids. kp;
      try apply KP_checkpoint; apply KP_EX.
    - apply EX_fill_slots.
    - apply EX_check_signals.
    - apply EX_manual_shutdowns.
    - apply EX_inspect.
    - apply EX_living.
  Qed.
  Lemma KP_main_loop fuel : forall r, KP (main_loop g w limit fuel r).
  Proof. induction fuel as [|fuel IH]; intro r; cbn [main_loop]; kp; [apply KP_iteration| apply IH]. Qed.
  Lemma EX_drain fuel : EX no_save (drain_loop w limit fuel).
  Proof. induction fuel as [|fuel IH]; cbn [drain_loop]; unfold queue_get; ex. exact IH. Qed.
  Lemma KP_stop_all crash : KP (stop_all_children w limit crash).
  Proof. unfold stop_all_children, pack_ids, stop_one. kp; apply KP_EX; [destruct crash; ex| apply EX_drain]. Qed.
  Lemma KP_run_body r : KP (run_body g w limit r).
  Proof. unfold run_body, pack_ids, restart_one, ext. kp; [apply KP_main_loop| apply KP_checkpoint| apply KP_stop_all]. Qed.
  Lemma KP_finish r : KP (finish r).
  Proof. unfold finish. kp. Qed.
  Lemma KP_start : KP (start_manager g w limit).
  Proof.
    unfold start_manager, checker_call, ext. apply KP_bind; [kp|]. intro pre.
    assert (Hb : forall r, KP (fun s => match run_body g w limit r s with
                 | (Ok r, s1) => finish r s1
                 | (Err OutOfFuel, s1) => (Err OutOfFuel, s1)
                 | (Err e, s1) =>
                     match stop_all_children w limit (Some (crash_text e)) s1 with
                     | (Err OutOfFuel, s2) => (Err OutOfFuel, s2)
                     | (_, s2) => finish (match e with KeyboardInterrupt => RInterrupt | _ => RCrash e end) s2
                     end
                 end)).
    { intros r s Hs. pose proof (KP_run_body r s Hs) as H1. destruct (run_body g w limit r s) as [[a|e] s1]; [apply KP_finish, H1|].
      pose proof (KP_stop_all (Some (crash_text e)) s1 H1) as H2. destruct (stop_all_children w limit (Some (crash_text e)) s1) as [[u|e2] s2].
      - destruct e; try exact H1; apply KP_finish, H2.
      - destruct e; try exact H1; destruct e2; try exact H2; apply KP_finish, H2. }
    destruct pre as [[]|]; [kp| |]; (apply KP_bind; [kp| intro; apply Hb]).
  Qed.
  Lemma protocol_run traj : protocol (st_hist (snd (run g w limit traj))).
  Proof. apply KP_start. intros a c i b H. cbn in H. destruct a; discriminate. Qed.
End Methods.

(** *** Names of STOP files *)
Definition decimal (n : nat) : string := NilEmpty.string_of_uint (Nat.to_uint n).

Lemma digits_cons a k x acc : nat_of_ascii a = 48 + k -> k <= 9 -> digits (String a x) (Z.of_nat acc) = digits x (Z.of_nat (k + 10 * acc)).
Proof.
  intros Ha Hk. cbn [digits]. rewrite Ha. destruct (Nat.leb_spec 48 (48 + k)); [|lia]. destruct (Nat.leb_spec (48 + k) 57); [|lia].
  cbn [andb]. f_equal. lia.
Qed.
Lemma digits_uint d : forall acc, digits (NilEmpty.string_of_uint d) (Z.of_nat acc) = Some (Z.of_nat (Nat.of_uint_acc d acc)).
Proof.
  induction d as [|d IH|d IH|d IH|d IH|d IH|d IH|d IH|d IH|d IH|d IH]; intro acc; [reflexivity|..];
    cbn [NilEmpty.string_of_uint Nat.of_uint_acc]; rewrite <- IH; rewrite Nat.tail_mul_spec.
  - apply (digits_cons _ 0); [reflexivity| lia].
  - apply (digits_cons _ 1); [reflexivity| lia].
  - apply (digits_cons _ 2); [reflexivity| lia].
  - apply (digits_cons _ 3); [reflexivity| lia].
  - apply (digits_cons _ 4); [reflexivity| lia].
  - apply (digits_cons _ 5); [reflexivity| lia].
  - apply (digits_cons _ 6); [reflexivity| lia].
  - apply (digits_cons _ 7); [reflexivity| lia].
  - apply (digits_cons _ 8); [reflexivity| lia].
  - apply (digits_cons _ 9); [reflexivity| lia].
Qed.
Lemma digits_decimal n : digits (decimal n) 0 = Some (Z.of_nat n).
Proof.
  unfold decimal. change 0%Z with (Z.of_nat 0). rewrite digits_uint. f_equal. f_equal.
  exact (DecimalNat.Unsigned.of_to n).
Qed.
Lemma split_uint d : split_us (NilEmpty.string_of_uint d) = [NilEmpty.string_of_uint d].
Proof.
  induction d as [|d IH|d IH|d IH|d IH|d IH|d IH|d IH|d IH|d IH|d IH]; [reflexivity|..];
    cbn [NilEmpty.string_of_uint split_us]; cbn -[NilEmpty.string_of_uint split_us]; rewrite IH; reflexivity.
Qed.
Lemma stop_id_decimal n : stop_id ("STOP_" ++ decimal n) = Some (Z.of_nat n).
Proof.
  pose proof (digits_decimal n) as Hd. unfold decimal in *. unfold stop_id.
  assert (Hs : forall x, split_us ("STOP_" ++ x) = match split_us x with p :: ps => "STOP" :: p :: ps | [] => ["STOP"; ""] end).
  { intro x. cbn. destruct (split_us x) eqn:E; [|reflexivity]. destruct x; cbn in E; [discriminate|].
    destruct (Ascii.eqb _ _); [discriminate|]. destruct (split_us x); discriminate. }
  rewrite Hs, split_uint. unfold py_int. destruct (Nat.to_uint n) as [|d|d|d|d|d|d|d|d|d|d] eqn:E; try exact Hd.
  exfalso. pose proof (DecimalNat.Unsigned.of_to n) as Ho. rewrite E in Ho. cbn in Ho. subst n. discriminate.
Qed.
