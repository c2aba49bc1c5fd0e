(** * Which exceptions can leave the management loop *)
From Verif Require Import Prelude Prelude_Proofs Logger_Model Logger_Spec Logger_Proofs Manager_Model Manager_Spec Crash_Spec Manager_Proofs Manager_Trace.

Arguments get_best_iter : simpl never.
Arguments lstep : simpl never.

(** The exceptions expected, besides the two by which a run is interrupted or cut off. *)
Definition safe (ok : exn -> Prop) (e : exn) : Prop := quits e \/ e = RuntimeError \/ ok e.

(** Whatever the state, only [safe] exceptions. *)
Definition S0 (ok : exn -> Prop) {A} (m : M mstate A) : Prop := forall s e, fst (m s) = Err e -> safe ok e.

Lemma S0_ret ok {A} (a : A) : S0 ok (ret a).
Proof. intros s e H. discriminate. Qed.
Lemma S0_raise ok {A} e : safe ok e -> S0 ok (@raise mstate A e).
Proof. intros H s e' [= <-]. exact H. Qed.
Lemma S0_bind ok {A B} (m : M mstate A) (f : A -> M mstate B) : S0 ok m -> (forall a, S0 ok (f a)) -> S0 ok (bind m f).
Proof.
  intros Hm Hf s e. unfold bind. specialize (Hm s). destruct (m s) as [[a|e'] s']; cbn in *; [apply Hf|].
  intros [= <-]. auto.
Qed.
Lemma S0_getc ok {A} (f : core -> A) : S0 ok (getc f).
Proof. intros s e H. discriminate. Qed.
Lemma S0_modc ok f : S0 ok (modc f).
Proof. intros s e H. discriminate. Qed.
Lemma S0_act ok v f : S0 ok (act v f).
Proof. intros s e H. discriminate. Qed.
Lemma S0_lift ok {A} (r : res A) : (forall e, r <> Err e) -> S0 ok (lift r).
Proof. intros H s e Hr. cbn in Hr. destruct (H e Hr). Qed.
Lemma S0_for_each ok {A} (l : list A) f : (forall a, S0 ok (f a)) -> S0 ok (for_each l f).
Proof. intro H. induction l as [|a l IH]; cbn; [apply S0_ret|]. apply S0_bind; auto. Qed.

Ltac s0 := repeat lazymatch goal with
  | |- S0 _ (bind _ _) => apply S0_bind; [|intros]
  | |- S0 _ (ret _) => apply S0_ret
  | |- S0 _ (getc _) => apply S0_getc
  | |- S0 _ (modc _) => apply S0_modc
  | |- S0 _ (act _ _) => apply S0_act
  | |- S0 _ (note _) => apply S0_act
  | |- S0 _ (raise _) => apply S0_raise; unfold safe, quits; auto; fail
  end.

(** Everything in the log can be read. *)
Definition shaped (e : entry) : Prop :=
  (exists ty, sget "opt_type" (e_meta e) = Some ty) /\
  (e_cols e = [] \/ exists rs ids rest,
     e_cols e = (("call_id", ids) :: ("x", map (fun r => CX (ir_x r)) rs) :: ("fx", map (fun r => CF (ir_fx r)) rs) :: rest)%string).
Definition tidy (l : logger) : Prop := forall i e, nget i (l_store l) = Some e -> shaped e.

Lemma tidy_nset i e l : tidy l -> shaped e -> tidy (set_store (nset i e (l_store l)) l).
Proof.
  intros H He j x. cbn. destruct (Nat.eq_dec j i) as [->|Hn]; [rewrite nget_nset_same; intros [= <-]; exact He|].
  rewrite nget_nset_other by exact Hn. apply H.
Qed.
Lemma sset_there {A} k (v : A) d k0 : (exists x, sget k0 d = Some x) -> exists x, sget k0 (sset k v d) = Some x.
Proof. intros [x Hx]. rewrite sget_sset. destruct (String.eqb k0 k); eauto. Qed.
Lemma reset_three hd ids xs fs rest : exists a b c rest',
  reset_cols hd (("call_id", ids) :: ("x", xs) :: ("fx", fs) :: rest)%string = (("call_id", a) :: ("x", b) :: ("fx", c) :: rest')%string /\
  (a = ids \/ a = []) /\ (b = xs \/ b = []) /\ (c = fs \/ c = []).
Proof.
  unfold reset_cols. revert ids xs fs rest. induction hd as [|k hd IH]; intros ids xs fs rest; cbn [fold_left]; [exists ids, xs, fs, rest; auto 7|].
  assert (Hs : exists a b c rest', sset k [] (("call_id", ids) :: ("x", xs) :: ("fx", fs) :: rest)%string = (("call_id", a) :: ("x", b) :: ("fx", c) :: rest')%string /\
    (a = ids \/ a = []) /\ (b = xs \/ b = []) /\ (c = fs \/ c = [])).
  { cbn. destruct (String.eqb k "call_id"); [exists [], xs, fs, rest; auto 7|]. destruct (String.eqb k "x"); [exists ids, [], fs, rest; auto 7|].
    destruct (String.eqb k "fx"); [exists ids, xs, [], rest; auto 7|]. exists ids, xs, fs, (sset k [] rest). auto 7. }
  destruct Hs as (a & b & c & rest' & -> & Ha & Hb & Hc). destruct (IH a b c rest') as (a' & b' & c' & r & E & Ha' & Hb' & Hc').
  exists a', b', c', r. split; [exact E|]. destruct Ha, Hb, Hc, Ha', Hb', Hc'; subst; auto 7.
Qed.
Lemma reset_all hd c : (c = [] \/ exists ids xs fs rest, c = (("call_id", ids) :: ("x", xs) :: ("fx", fs) :: rest)%string) -> exists rest,
  reset_cols (["call_id"; "x"; "fx"]%string ++ hd) c = (("call_id", []) :: ("x", []) :: ("fx", []) :: rest)%string.
Proof.
  intro H. unfold reset_cols. rewrite fold_left_app.
  assert (E : exists rest, fold_left (fun c k => sset k [] c) ["call_id"; "x"; "fx"]%string c = (("call_id", []) :: ("x", []) :: ("fx", []) :: rest)%string).
  { destruct H as [-> | (ids & xs & fs & rest & ->)]; cbn; eauto. }
  destruct E as [rest ->]. destruct (reset_three hd [] [] [] rest) as (a & b & d & r & E & Ha & Hb & Hd).
  unfold reset_cols in E. rewrite E. exists r. destruct Ha, Hb, Hd; subst; reflexivity.
Qed.
Lemma tidy_store l l' : l_store l' = l_store l -> tidy l -> tidy l'.
Proof. intros E H i e. rewrite E. apply H. Qed.
Lemma store_best r l : l_store (snd (put_best r l)) = l_store l.
Proof.
  unfold put_best. destruct (nget _ _) as [a|]; [|reflexivity]. destruct (nth_error _ a); [|reflexivity]. destruct (nlt _ _); [|reflexivity].
  cbv zeta. destruct (nth_error _ _); [|reflexivity]. cbn. destruct (nlt _ _); reflexivity.
Qed.
Lemma tidy_row r l : tidy l -> tidy (snd (put_row r l)).
Proof.
  intro H. unfold put_row. destruct (nget _ _) as [e|] eqn:E; [|exact H]. cbn [snd]. apply tidy_nset; [exact H|].
  destruct (H _ _ E) as [H1 [H2|(rs & ids & rest & H2)]]; (split; [exact H1|]); cbn [e_cols]; rewrite H2; [left; reflexivity|].
  right. exists (rs ++ [r]), (ids ++ [CId (l_count l)]), (zip_append rest (map CF (ir_extras r))). rewrite !map_app. reflexivity.
Qed.
Lemma tidy_put r l : tidy l -> tidy (snd (put_iteration r l)).
Proof.
  intro H. unfold put_iteration, bind at 1, modify. cbn. unfold bind at 1.
  pose proof (store_best r (set_count (Datatypes.S (l_count l)) l)) as E. destruct (put_best r _) as [[[]|e] l1]; cbn in *; [|apply (tidy_store l); auto].
  unfold bind, put_max, modify. apply tidy_row. apply (tidy_store l); [|exact H]. cbn. destruct (_ && _); exact E.
Qed.
Lemma tidy_step o l : l_traj l = true -> tidy l -> tidy (snd (lstep o l)).
Proof.
  intros Ht H. destruct o as [j ty t|j hd|r|o|j k v|j m]; unfold lstep.
  - intros i e. unfold add_optimizer, modify. cbv beta iota zeta delta [snd set_store l_store set_bests set_heap]. destruct (Nat.eq_dec i j) as [->|Hn]; [rewrite nget_nset_same; intros [= <-]|].
    + split; [exists ty; reflexivity|left; reflexivity].
    + rewrite nget_nset_other by exact Hn. apply H.
  - unfold add_iter_history. destruct (nget _ _) as [e|] eqn:E; [|exact H]. cbn [snd]. apply tidy_nset; [exact H|].
    destruct (H _ _ E) as [H1 H2]. split; [exact H1|]. cbn [e_cols]. right. destruct (reset_all hd (e_cols e)) as [rest ->].
    + destruct H2 as [H2|(rs & ids & rest & H2)]; [left; exact H2|right; eauto].
    + exists [], [], rest. reflexivity.
  - apply tidy_put. exact H.
  - unfold clear_cache. rewrite Ht. exact H.
  - unfold put_metadata. destruct (nget _ _) as [e|] eqn:E; [|exact H]. cbn [snd]. apply tidy_nset; [exact H|].
    destruct (H _ _ E) as [H1 H2]. split; [apply sset_there; exact H1|exact H2].
  - unfold put_message. destruct (nget _ _) as [e|] eqn:E; [|exact H]. cbn [snd]. apply tidy_nset; [exact H|]. apply (H _ _ E).
Qed.
Lemma tidy_init traj : tidy (log_init traj).
Proof. intros i e. discriminate. Qed.
Lemma tidy_readable l : tidy l -> readable l.
Proof.
  intros H i Hh. unfold get_metadata, get_history. rewrite Hh. unfold has_iter_history in Hh. destruct (nget i (l_store l)) as [e|] eqn:E; [|discriminate].
  destruct (H _ _ E) as [[ty ->] [H2|(rs & ids & rest & H2)]]; [rewrite H2 in Hh; discriminate|]. split; [eauto|]. exists rs. rewrite H2. auto.
Qed.

Section Safe.
  Context (g : config) (w : world) (limit : nat) (ok : exn -> Prop) (HB : orderly w).
  (** Without this no message is sent to an optimizer. *)
  Context (Hw : wordless g w \/ ok OSError).
  Notation safe := (Manager_Safe.safe ok).
  Notation S0 := (Manager_Safe.S0 ok).
  Notation step := (mstep g w).
  Notation Inv := (MInv g w).
  Notation T := (Manager_Trace.T g w).

  Ltac rd a := apply (T_getc_bind g w); intro a.

  Lemma S0_tick : S0 (tick w limit).
  Proof.
    intros s e. unfold tick. destruct (Nat.leb _ _); [intros [= <-]; left; right; reflexivity|].
    destruct (w_intr w _); [intros [= <-]; left; left; reflexivity| discriminate].
  Qed.
  Lemma S0_alive i : S0 (is_alive w limit i).
  Proof. unfold is_alive. s0. apply S0_tick. Qed.
  Lemma S0_ext : S0 (ext w limit).
  Proof. unfold ext. s0; [apply S0_tick|]. rewrite (or_err _ HB). s0. Qed.
  Lemma S0_living ids : S0 (living w limit ids).
  Proof. induction ids as [|i ids IH]; cbn [living]; s0; [apply S0_alive| exact IH]. Qed.

  Lemma S0_setup n : S0 (setup_new_optimizer w limit n).
  Proof.
    unfold setup_new_optimizer. s0; [apply S0_tick| apply S0_lift; apply (or_sel _ HB)|].
    destruct a2; s0; [apply S0_ext|]. unfold add_to_log. s0. intros s e H. cbn in H. discriminate.
  Qed.
  Lemma S0_start i cls n : S0 (start_new_job w limit i cls n).
  Proof. unfold start_new_job. s0; apply S0_ext. Qed.
  Lemma S0_fill : S0 (fill_slots g w limit).
  Proof.
    assert (Hf : forall fuel n b, S0 (fill_loop g w limit fuel n b)).
    { induction fuel as [|fuel IH]; intros n b; cbn [fill_loop]; s0. destruct (_ && _); s0; [apply S0_setup|].
      destruct a0 as [[[i cls] sl]|]; s0; [apply S0_start| apply IH]. }
    unfold fill_slots, pack_ids. s0; [apply S0_living|]. destruct a2; s0; [apply Hf| apply S0_living|].
    destruct a2; s0. destruct (_ =? _); s0.
  Qed.
  Lemma S0_purge i : S0 (purge_one w limit i).
  Proof. unfold purge_one, in_grave. s0; [apply S0_alive|]. destruct (_ && _); s0. Qed.
  Lemma S0_checker : S0 (checker_call w limit).
  Proof. unfold checker_call. s0; [apply S0_tick|]. apply S0_lift. apply (or_check _ HB). Qed.
  Lemma S0_queue_get : S0 (queue_get w limit).
  Proof. unfold queue_get. s0; [apply S0_tick|]. destruct a0; s0. Qed.

  (** Histories are retained and readable. *)
  Definition kept (s : mstate) : Prop := trj s /\ tidy (k_log (st_core s)).

  (** In states of a run with retained histories which satisfy [P]. *)
  Definition S (P : mstate -> Prop) {A} (m : M mstate A) : Prop :=
    forall s, Inv s -> kept s -> P s -> forall e, fst (m s) = Err e -> safe e.

  Lemma S_0 P {A} (m : M mstate A) : S0 m -> S P m.
  Proof. intros H s _ _ _. apply H. Qed.

  Lemma S_pre (P P' : mstate -> Prop) {A} (m : M mstate A) : (forall s, Inv s -> P' s -> P s) -> S P m -> S P' m.
  Proof. intros H1 H2 s HI Ht Hs. apply H2; auto. Qed.

  Lemma trj_star L s s' : star g w L s s' -> trj s -> trj s'.
  Proof. apply star_ind_inv. intros l a b _ Hst. unfold trj. rewrite (trj_same _ _ _ _ _ Hst). auto. Qed.

  Lemma tidy_mstep l s s' : step l s s' -> trj s -> tidy (k_log (st_core s)) -> tidy (k_log (st_core s')).
  Proof.
    unfold trj. intros Hst. destruct Hst; talks; cbn; auto.
    - rewrite (er_log _ _ _ (apply_moves_rel ms (st_core s))). auto.
    - intros _ H1. apply (tidy_store (k_log (st_core s))); [|exact H1]. destruct H. congruence.
    - apply tidy_step.
    - apply (tidy_step (ClearCache None)).
    - intros Ht H1. apply (tidy_step (AddOpt i cls "now") _ Ht H1).
    - intros _. apply tidy_put.
  Qed.
  Lemma kept_star L s s' : star g w L s s' -> kept s -> kept s'.
  Proof.
    apply (star_ind_inv g w L kept). intros l a b _ Hst [H1 H2]. split; [unfold trj in *; rewrite (trj_same _ _ _ _ _ Hst); exact H1|].
    apply (tidy_mstep _ _ _ Hst H1 H2).
  Qed.

  Lemma S_bind L P {A B} (m : M mstate A) (f : A -> M mstate B) R E :
    S P m -> T L P m R E -> (forall a, S (R a) (f a)) -> S P (bind m f).
  Proof.
    intros Hm HT Hf s HI Ht Hs e. unfold bind. specialize (Hm s HI Ht Hs). destruct (HT s HI Hs) as [H1 H2].
    pose proof (star_MInv _ _ _ _ _ H1 HI) as HI'. pose proof (kept_star _ _ _ H1 Ht) as Ht'.
    destruct (m s) as [[a|e'] s'] eqn:Em; cbn in *; [apply Hf; auto|]. intros [= <-]. auto.
  Qed.

  Lemma S_getc P {A B} (f : core -> A) (k : A -> M mstate B) :
    (forall a, S (fun s => P s /\ a = f (st_core s)) (k a)) -> S P (bind (getc f) k).
  Proof. intros H s HI Ht Hs e. unfold bind, getc, gets. cbn. apply H; auto. Qed.

  Lemma S_quit L P {A} (m : M mstate A) Q : T L P m Q (fun e s => trj s -> safe e) -> S P m.
  Proof.
    intros H s HI Ht Hs e He. destruct (H s HI Hs) as [H1 H2]. destruct (kept_star _ _ _ H1 Ht) as [Ht' _].
    destruct (m s) as [[a|e'] s']; cbn in *; [discriminate|]. injection He as <-. auto.
  Qed.

  Lemma stored s i : Inv s -> kept s -> has i s -> exists e, nget i (l_store (k_log (st_core s))) = Some e.
  Proof.
    intros HI [Ht _] Hi. apply nget_some_in. apply (kp_store _ (m_keep _ _ _ HI)); [exact Ht|].
    apply (kp_keys _ (m_keep _ _ _ HI)). exact Hi.
  Qed.

  Lemma S_meta i k v : S (has i) (logm (put_metadata i k v)).
  Proof.
    intros s HI Ht Hi e. destruct (stored s i HI Ht Hi) as [x Hx]. unfold logm, put_metadata. rewrite Hx. discriminate.
  Qed.
  Lemma S_msg i m : S (has i) (logm (put_message i m)).
  Proof.
    intros s HI Ht Hi e. destruct (stored s i HI Ht Hi) as [x Hx]. unfold logm, put_message. rewrite Hx. discriminate.
  Qed.
  Lemma T_has_log o i : (forall c, id_ok c i -> plain_log_op c o) -> T LQ (has i) (logm (lstep o)) (fun _ => has i) any.
  Proof.
    intro Ho. apply (T_log g w); [reflexivity| |auto| intros; exact I]. intros s HI H. apply Ho. eapply id_of_has; eauto.
  Qed.
  Lemma S_put_end i c : S (has i) (put_end i c).
  Proof.
    unfold put_end. eapply S_bind; [apply S_meta| apply (T_has_log (PutMeta i _ _)); auto|]. intros []. apply S_meta.
  Qed.
  Lemma S_ended i m c : S (has i) (logm (put_message i m) ;;; put_end i c).
  Proof. eapply S_bind; [apply S_msg| apply (T_has_log (PutMsg i _)); auto|]. intros []. apply S_put_end. Qed.

  Lemma S_bind0 L P {A B} (m : M mstate A) (f : A -> M mstate B) R E :
    S0 m -> T L P m R E -> (forall a, S (R a) (f a)) -> S P (bind m f).
  Proof. intros H. apply S_bind. apply S_0. exact H. Qed.

  (** A quiet beginning which cannot go wrong, of a method about a registered child. *)
  Lemma S_has_bind i {A B} (m : M mstate A) (f : A -> M mstate B) :
    S0 m -> T LQ top m topv any -> (forall a, S (has i) (f a)) -> S (has i) (bind m f).
  Proof. intros H1 H2. eapply S_bind0; [exact H1| apply T_has_q; exact H2]. Qed.

  Lemma S_mod_has i f {B} (k : M mstate B) : (forall s, has i s -> has i (upd f s)) -> S (has i) k ->
    (forall s, Inv s -> has i s -> Inv (upd f s)) -> (forall s, kept s -> kept (upd f s)) -> S (has i) (modc f ;;; k).
  Proof. intros H1 H2 H3 H4 s HI Ht Hs e. unfold bind, modc, modify. cbn. apply H2; [apply H3| apply H4| apply H1]; auto. Qed.

  Lemma Inv_bury s i : Inv s -> has i s -> Inv (upd (bury i) s).
  Proof. intros HI H. eapply MInv_step; [apply St_bury; exact H| exact HI]. Qed.

  Lemma S_bury i {B} (k : M mstate B) : S (has i) k -> S (has i) (modc (bury i) ;;; k).
  Proof. intro H. apply S_mod_has; auto. intros. apply Inv_bury; assumption. Qed.

  Lemma S_then P {A B} (m : M mstate A) (f : A -> M mstate B) : S P m -> (forall a, S0 (f a)) -> S P (bind m f).
  Proof.
    intros Hm Hf s HI Ht Hs e. unfold bind. specialize (Hm s HI Ht Hs). destruct (m s) as [[a|e'] s']; cbn in *; [apply Hf|].
    intros [= <-]. auto.
  Qed.

  Lemma S_check_signals i : S (has i) (check_signals w limit i).
  Proof.
    unfold check_signals, in_grave. apply S_getc. intro b. destruct b; [apply S_0; s0|].
    apply S_pre with (P := has i); [tauto|]. apply S_has_bind; [apply S0_tick| apply tick_quiet|]. intro t.
    apply S_getc. intro h. destruct h as [h|].
    - destruct (c_sigs h) as [|sg sgs]; [apply S_0; s0|].
      eapply S_bind0 with (R := fun _ => has i) (E := any); [apply S0_modc|
        apply T_modc with (L := LQ); [reflexivity| |]|].
      + intros s _ [H1 H2]. eapply St_child; eauto.
      + intros s _ [H1 H2]. unfold has in *. cbn. erewrite dkeys_nset_old by eauto. exact H1.
      + intros []. apply S_then; [|intros; s0].
        destruct sg; try (apply S_0; s0; fail); (apply S_then; [|intros; s0]); [apply S_put_end| apply S_msg].
    - intros s HI Ht [H1 H2] e. exfalso. symmetry in H2. apply nget_none in H2. contradiction.
  Qed.

  Lemma S_inspect_dead i : S (has i) (inspect_dead w limit i).
  Proof.
    unfold inspect_dead, in_grave. apply S_getc. intro b. destruct b; [apply S_0; s0|].
    apply S_pre with (P := fun s => has i s /\ ~ buried i s).
    { intros s _ [H1 H]. split; [exact H1|]. apply nmem_false. congruence. }
    eapply S_bind0; [apply S0_alive|apply (T_is_alive g w limit LQ i _ any)|].
    { reflexivity. }
    { intros s ms [H1 H2]. split; [apply (has_stable i); exact H1|]. unfold buried, env, upd in *. cbn.
      rewrite (er_grave _ _ _ (apply_moves_rel ms (st_core s))). exact H2. }
    { intros; exact I. }
    intro a. destruct a; [apply S_0; s0|]. apply S_getc. intro code. destruct (Z.eqb code 0).
    - apply S_pre with (P := fun s => ~ buried i s /\ has i s); [tauto|].
      eapply S_bind with (R := fun found s => (found = false -> ~ buried i s) /\ has i s).
      + eapply S_pre; [|apply S_check_signals]. tauto.
      + eapply T_has; [exact QE| apply check_signals_open].
      + intro found. destruct found; [apply S_0; s0|].
        eapply S_bind0 with (R := fun _ => has i) (E := any); [apply S0_modc|apply T_modc with (L := LQ); [reflexivity| |]|].
        * intros s _ [H1 H2]. apply (St_conv g w s i H2). auto.
        * intros s _ [H1 H2]. exact H2.
        * intros []. apply S_ended.
    - apply S_pre with (P := has i); [tauto|]. apply S_bury. apply S_ended.
  Qed.

  Lemma S_inspect i : S (has i) (inspect_child g w limit i).
  Proof.
    unfold inspect_child. eapply S_bind; [apply S_inspect_dead| apply inspect_dead_quiet|]. intros [].
    eapply S_bind; [|apply inspect_hang_quiet|].
    - unfold inspect_hang. apply S_has_bind; [apply S0_alive| apply alive_quiet|]. intro a.
      apply S_has_bind; [apply S0_tick| apply tick_quiet|]. intro t. apply S_getc. intro v.
      apply S_pre with (P := has i); [tauto|]. destruct (_ && _); [|apply S_0; s0]. apply S_bury. apply S_ended.
    - intros []. unfold inspect_zombie. apply S_getc. intro v. apply S_pre with (P := has i); [tauto|].
      destruct (v && _); [|apply S_0; s0].
      apply S_has_bind; [apply S0_alive| apply alive_quiet|]. intro a.
      apply S_has_bind; [apply S0_tick| apply tick_quiet|]. intro t.
      destruct (_ && _); [|apply S_0; s0].
      apply S_has_bind; [apply S0_tick| apply tick_quiet|]. intro t'. apply S_ended.
  Qed.

  (** Loops over the registered children. *)
  Lemma S_for_keys (ids : list nat) (f : nat -> M mstate unit) :
    (forall i, S (has i) (f i)) -> (forall i, T LQ (has i) (f i) topv any) ->
    S (fun s => forall i, In i ids -> has i s) (for_each ids f).
  Proof.
    intros HS HT. induction ids as [|i ids IH]; cbn [for_each]; [apply S_0; s0|].
    assert (Hk : forall l s s', LQ l = true -> Inv s -> step l s s' -> (forall j, In j ids -> has j s) -> forall j, In j ids -> has j s').
    { intros l s s' Hl _ Hst H j Hj. unfold has. rewrite (keys_kept _ _ _ _ _ (QE _ Hl) Hst). apply H. exact Hj. }
    eapply S_bind with (R := fun _ s => forall j, In j ids -> has j s) (E := any).
    - eapply S_pre; [|apply HS]. intros s _ H. apply H. left. reflexivity.
    - eapply T_conseq with (L' := LQ); [apply (T_frame g w LQ _ _ _ _ _ Hk (HT i))|auto|..].
      + intros s _ H. split; [apply H; left; reflexivity| intros j Hj; apply H; right; exact Hj].
      + intros a s _ [_ H]. exact H.
      + intros; exact I.
    - intros []. exact IH.
  Qed.

  Lemma T_inspect i : T LQ (has i) (inspect_child g w limit i) topv any.
  Proof.
    unfold inspect_child. eapply T_bind; [apply inspect_dead_quiet|]. intros []. eapply T_bind; [apply inspect_hang_quiet|].
    intros []. eapply T_topv. apply inspect_zombie_quiet.
  Qed.

  Lemma S_inspect_children : S top (inspect_children g w limit).
  Proof.
    unfold inspect_children, pack_ids. apply S_getc. intro ids.
    apply S_pre with (P := fun s => forall i, In i ids -> has i s). { intros s _ [_ ->]. auto. }
    apply S_for_keys; [apply S_inspect| apply T_inspect].
  Qed.

  Lemma S_signals : S top (ids <- pack_ids ;; for_each ids (fun i => check_signals w limit i ;;; ret tt)).
  Proof.
    unfold pack_ids. apply S_getc. intro ids.
    apply S_pre with (P := fun s => forall i, In i ids -> has i s). { intros s _ [_ ->]. auto. }
    apply S_for_keys; intro i.
    - apply S_then; [apply S_check_signals| intros; s0].
    - eapply T_bind; [eapply T_pre; [|apply check_signals_quiet]; intros; exact I|]. intro. apply T_ret. intros; exact I.
  Qed.

  Lemma S_send i m : ok OSError -> S (has i) (send w limit i m).
  Proof.
    intro Ho. unfold send. apply S_has_bind; [apply S0_tick| apply tick_quiet|]. intro t. apply S_getc. intro h. destruct h as [h|].
    - destruct (c_closed h); apply S_0; s0.
    - intros s HI Ht [H1 H2] e. exfalso. symmetry in H2. apply nget_none in H2. contradiction.
  Qed.

  (** Stopping an optimizer by termination. *)
  Lemma S_shutdown hn i : g_aggressive g && g_proc g = true \/ ok OSError -> S (may_kill hn i) (shutdown_job g w limit i hn).
  Proof.
    intro Hg. unfold shutdown_job.
    eapply S_bind0 with (R := fun _ => has i) (E := any); [apply S0_act|apply T_act with (L := LQ) (l := Quiet); [reflexivity| |]|].
    - intros s _ [H1 [H2 H3]]. apply St_kill; assumption.
    - intros s _ [H1 _]. exact H1.
    - intros []. eapply S_bind with (R := fun _ => has i) (E := any) (L := LQ).
      + destruct (g_aggressive g && g_proc g); [apply S_0; s0|]. destruct Hg as [Hg|Hg]; [discriminate|]. apply S_send. exact Hg.
      + destruct (g_aggressive g && g_proc g); [apply T_ret; auto|]. apply T_has_q, send_quiet.
      + intros []. apply S_put_end.
  Qed.

  (** Hunter and victim have a best evaluation. *)
  Lemma ranked_known s i : Inv s -> In i (map fst (rev (setups (st_hist s)))) -> ranked (k_log (st_core s)) i.
  Proof.
    intros HI Hi. apply in_map_iff in Hi as [[j ty] [Hj Hin]]. cbn in Hj. subst j.
    destruct (I_reg _ _ _ (lv_log _ (m_log _ _ _ HI)) _ _ Hin) as [H0 (a & b & Ha & Hb & _)].
    exists b. destruct i; [contradiction|]. unfold get_best_iter. rewrite Ha, Hb. reflexivity.
  Qed.
  Lemma ranked_victim s i : Inv s -> settled s -> has i s -> ranked (k_log (st_core s)) i.
  Proof.
    intros HI [H _] Hi. apply ranked_known; [exact HI|]. apply (in_setups _ _ _ _ (m_id _ _ _ HI)).
    destruct (id_of_has _ _ _ _ HI Hi) as [H1 H2]. lia.
  Qed.
  Lemma ranked_hunter s i : Inv s -> settled s -> (exists ty, r_origin (k_result (st_core s)) = Some (i, ty)) -> ranked (k_log (st_core s)) i.
  Proof.
    intros HI [_ [_ Hx]] [ty Ho]. destruct Hx as [[_ E]|(b & a1 & a2 & a3 & Hb & _ & E)]; rewrite E in Ho; cbn in Ho; [discriminate|].
    injection Ho as Ho _. destruct (I_best _ _ _ (lv_log _ (m_log _ _ _ HI))) as (b' & Hb' & Hor & _).
    assert (b' = b) by (unfold get_best_iter in Hb; rewrite Hb' in Hb; congruence). subst b'.
    destruct Hor as [[_ ->]|(j & tj & Hin & Hj & _)].
    - cbn in Ho. subst i. exists no_best. exact Hb.
    - destruct (I_reg _ _ _ (lv_log _ (m_log _ _ _ HI)) _ _ Hin) as [_ (a & b'' & Ha & Hb'' & Hopt & _)].
      assert (b'' = b) by congruence. subst b''. subst j. rewrite Ho in Hin. apply ranked_known; [exact HI|].
      change i with (fst (i, tj)). apply in_map. exact Hin.
  Qed.

  Lemma S_hunt hunter ids : g_aggressive g && g_proc g = true \/ ok OSError -> S (hunting hunter ids) (hunt_loop g w limit hunter ids).
  Proof.
    intro Hg. induction ids as [|v ids IH]; cbn [hunt_loop]; [apply S_0; s0|].
    assert (Hnext : S (hunting hunter (v :: ids)) (hunt_loop g w limit hunter ids)).
    { eapply S_pre; [|exact IH]. intros s _ [H1 [H2 H3]]. unfold hunting. splits; auto. intros u Hu. apply H3. right. exact Hu. }
    unfold in_grave. apply S_getc. intro dead. apply S_getc. intro pts.
    destruct (negb dead && pts && negb (v =? hunter)) eqn:Ec; [|eapply S_pre; [|exact Hnext]; tauto].
    apply andb_true_iff in Ec as [Ec Hne]. apply andb_true_iff in Ec as [_ Hpts].
    apply negb_true_iff, Nat.eqb_neq in Hne.
    apply S_pre with (P := fun s => has_iter_history v (k_log (st_core s)) = true /\ hunting hunter (v :: ids) s).
    { intros s _ [[H1 _] H2]. split; [congruence| exact H1]. }
    eapply S_bind0; [apply S0_tick|apply (T_hunting g w hunter (v :: ids) _ _ (fun _ s => has_iter_history v (k_log (st_core s)) = true) any)|].
    { apply T_tick; [reflexivity| |intros; exact I]. intros s ms H. unfold env, upd. cbn.
      rewrite (er_log _ _ _ (apply_moves_rel ms (st_core s))). exact H. }
    intro t. apply S_getc. intro c.
    eapply S_bind; [|apply (T_lift g w LQ _ _ any); intros; exact I|].
    { intros s HI [_ Ht] [[H1 [S1 [S2 S3]]] ->] e He. cbn in He.
      exfalso. refine (or_kill _ HB t (st_core s) hunter v e (tidy_readable _ Ht) (ranked_hunter s hunter HI S1 S2) (ranked_victim s v HI S1 _) H1 He).
      apply S3. left. reflexivity. }
    intro k.
    apply S_getc. intro dead2.
    destruct (k && negb dead2) eqn:Ek; [|eapply S_pre; [|exact Hnext]; tauto].
    apply andb_true_iff in Ek as [_ Hd]. apply negb_true_iff in Hd.
    assert (Hmay : forall s, (((has_iter_history v (k_log (st_core s)) = true /\ hunting hunter (v :: ids) s) /\ c = st_core s) /\
        w_kill w t c hunter v = Ok k) /\ dead2 = nmem v (k_grave (st_core s)) -> may_kill (Some hunter) v s).
    { intros s [[[[H1 H2] _] _] H3]. pose proof H2 as [S1 [S2 S3]]. unfold may_kill. splits.
      + apply S3. left. reflexivity.
      + apply nmem_false. congruence.
      + intros b [= <-]. splits; auto. }
    eapply S_bind with (R := fun _ => hunting hunter (v :: ids)) (E := any) (L := LQ).
    - eapply S_pre; [|apply (S_shutdown (Some hunter) v Hg)]. intros s _. apply Hmay.
    - eapply T_conseq; [apply (T_hunting g w hunter (v :: ids)), (shutdown_quiet g w limit (Some hunter) v)|auto|..]; [|intros ? ? _ [_ H]; exact H|intros; exact I].
      intros s _ H. split; [apply Hmay; exact H|]. apply H.
    - intros []. apply S_then; [exact Hnext|]. intro. s0.
  Qed.

  Lemma S_start_hunt hunter : g_killing g = true ->
    S (fun s => settled s /\ (exists ty, r_origin (k_result (st_core s)) = Some (hunter, ty)) /\ 0 < hunter /\
                   g_hunt_freq g <= k_f (st_core s) - k_last_hunt (st_core s)) (start_hunt g w limit hunter).
  Proof.
    intro Hk. assert (Hg : g_aggressive g && g_proc g = true \/ ok OSError).
    { destruct Hw as [[_ [[-> ->]|[H _]]]|H]; [left; reflexivity| congruence| right; exact H]. }
    unfold start_hunt, pack_ids.
    eapply S_bind0 with (R := fun _ s => settled s /\ exists ty, r_origin (k_result (st_core s)) = Some (hunter, ty)) (E := any);
      [apply S0_act|apply T_act with (L := LQ) (l := Quiet); [reflexivity| |]|].
    - intros s _ [H1 [[ty H2] [H3 H4]]]. eapply St_hunt; eauto.
    - intros s _ [[S1 [S2 S3]] [H2 _]]. split; [|exact H2]. unfold settled; splits; assumption.
    - intros []. apply S_getc. intro ids. eapply S_pre; [|apply S_hunt; exact Hg].
      intros s _ [[H1 H2] ->]. unfold hunting. splits; auto.
  Qed.

  (** Evaluations. *)
  Lemma known s i : Inv s -> settled s -> id_ok (st_core s) i -> 1 <= i <= length (setups (st_hist s)).
  Proof. intros _ [H _] [H1 H2]. lia. Qed.

  Lemma S_history F r (has0 : bool) :
    S (open_at F (ir_opt r))
      (if has0 then ret tt else
         hd <- (match ir_extras r with [] => ret [] | _ => t <- tick w limit ;; lift (w_heads w t r) end) ;;
         logm (add_iter_history (ir_opt r) hd)).
  Proof.
    destruct has0; [apply S_0; s0|].
    eapply S_bind0 with (R := fun _ s => settled s /\ id_ok (st_core s) (ir_opt r)) (E := any) (L := LQ).
    - destruct (ir_extras r); s0; [apply S0_tick|]. apply S0_lift. apply (or_heads _ HB).
    - unfold open_at, at_f. destruct (ir_extras r); [apply T_ret; tauto|].
      eapply T_bind with (R := fun _ s => settled s /\ id_ok (st_core s) (ir_opt r)).
      + eapply T_pre; [|apply T_tick with (P := fun s => settled s /\ id_ok (st_core s) (ir_opt r))]; [tauto|reflexivity| |intros; exact I].
        intros s ms [H1 H2]. split; [apply settled_stable; exact H1|]. unfold id_ok, env, upd in *. cbn.
        rewrite (er_o _ _ _ (apply_moves_rel ms (st_core s))). exact H2.
      + intro t. eapply T_post; [|apply (T_lift g w LQ _ _ any); intros; exact I]. intros a s _ [H _]. exact H.
    - intro hd. intros s HI Ht [H1 H2] e. pose proof (kp_store _ (m_keep _ _ _ HI) (proj1 Ht) _ (known s _ HI H1 H2)) as Hi.
      apply nget_some_in in Hi as [x Hx]. unfold logm, add_iter_history. rewrite Hx. discriminate.
  Qed.

  Lemma S_accept F r : S (open_at F (ir_opt r)) (accept r).
  Proof.
    intros s HI Ht [[H1 H2] [H3 H4]] e. unfold accept, bind, act, modify, logm. cbn [st_core st_hist].
    change (k_log (set_kf (Datatypes.S (k_f (st_core s))) (st_core s))) with (k_log (st_core s)).
    pose proof (known s _ HI H3 H2) as Hk.
    pose proof (kp_store _ (m_keep _ _ _ HI) (proj1 Ht) _ Hk) as Hi. apply nget_some_in in Hi as [x Hx].
    pose proof (lv_log _ (m_log _ _ _ HI)) as HL.
    apply (in_setups _ _ _ _ (m_id _ _ _ HI)) in Hk. apply in_map_iff in Hk as [[i ty] [Hi Hin]]. cbn in Hi. subst i.
    destruct (I_reg _ _ _ HL _ _ Hin) as [_ [a [b [Ha _]]]].
    assert (Hok : addr_ok (k_log (st_core s))).
    { split; [destruct (I_best _ _ _ HL) as [b' [Hb' _]]; apply nth_error_Some; congruence|].
      intros j c Hc. apply (I_low _ _ _ HL _ _ Hc). }
    destruct (put_iteration_parts r _ a Hok Ha) as [s3 [E [_ [_ [Es _]]]]]. rewrite E. unfold put_row. rewrite Es, Hx. discriminate.
  Qed.

  Lemma S_told m : ok OSError ->
    S top (ids <- pack_ids ;; for_each ids (fun i => a <- is_alive w limit i ;; if a : bool then send w limit i m else ret tt)).
  Proof.
    intro Ho. unfold pack_ids. apply S_getc. intro ids.
    apply S_pre with (P := fun s => forall i, In i ids -> has i s). { intros s _ [_ ->]. auto. }
    apply S_for_keys; intro i.
    - apply S_has_bind; [apply S0_alive| apply alive_quiet|]. intro a. destruct a; [apply S_send; exact Ho| apply S_0; s0].
    - eapply T_bind; [apply T_pre with (P := top); [intros; exact I| apply alive_quiet]|]. intro a.
      destruct a; [apply send_quiet| apply T_ret; intros; exact I].
  Qed.

  Lemma S_share b : ok OSError -> S top (share_loop w limit b).
  Proof.
    intro Ho. unfold share_loop.
    unfold pack_ids. apply S_getc. intro ids.
    apply S_pre with (P := fun s => forall i, In i ids -> has i s). { intros s _ [_ ->]. auto. }
    apply S_for_keys; intro i.
    - destruct (_ =? _); [apply S_0; s0|].
      apply S_has_bind; [apply S0_alive| apply alive_quiet|]. intro a. destruct a; [apply S_send; exact Ho| apply S_0; s0].
    - destruct (_ =? _); [apply T_ret; intros; exact I|]. eapply T_bind; [apply T_pre with (P := top); [intros; exact I| apply alive_quiet]|]. intro a.
      destruct a; [apply send_quiet| apply T_ret; intros; exact I].
  Qed.

  Lemma S_update : S top (update_best g w limit).
  Proof.
    unfold update_best.
    intros s HI Ht _ e. destruct (Inv_best _ _ _ (lv_log _ (m_log _ _ _ HI))) as [b [Hb _]].
    unfold bind at 1. rewrite Hb. revert e.
    match goal with |- forall e, fst (?m s) = _ -> _ => enough (Hm : S top m) by (apply Hm; auto; exact I) end.
    apply S_getc. intro old. apply S_then; [|intros; s0].
    destruct Hw as [[-> _]|Ho]; [apply S_0; cbn [andb]; s0|]. destruct (_ && _); [|apply S_0; s0].
    apply S_pre with (P := top); [intros; exact I|]. apply S_share. exact Ho.
  Qed.

  Lemma S_item F q : S (fun s => at_f F s /\ id_ok (st_core s) (qid q)) (process_item g w limit q).
  Proof.
    destruct q as [r|i]; cbn [process_item qid].
    - apply S_getc. intro dead. destruct dead; [apply S_0; s0|].
      apply S_pre with (P := open_at F (ir_opt r)).
      { intros s _ [[H1 H2] H3]. unfold open_at. splits; auto. apply nmem_false. congruence. }
      apply S_getc. intro has0. apply S_pre with (P := open_at F (ir_opt r)); [tauto|].
      eapply S_bind; [apply S_history| apply history_step|]. intros [].
      eapply S_bind; [apply S_accept| |].
      { eapply T_pre; [|apply (accept_step g w F r)]. unfold open_at. tauto. }
      intros []. eapply S_bind; [eapply S_pre; [|apply S_update]; intros; exact I| apply update_best_step|]. intros [].
      apply S_getc. intro c. cbn zeta.
      destruct (_ && _) eqn:Ec; [|apply S_0; s0].
      apply andb_true_iff in Ec as [Ec Hfreq]. apply andb_true_iff in Ec as [Hpos Hkill].
      apply Nat.ltb_lt in Hpos. apply Nat.leb_le in Hfreq.
      destruct (r_origin (k_result c)) as [[b ty]|] eqn:Eo; [|lia].
      apply S_then; [|intros; s0]. eapply S_pre; [|apply S_start_hunt; exact Hkill].
      intros s _ [H1 ->]. splits; auto; [apply H1|]. exists ty. exact Eo.
    - apply S_getc. intro org. destruct org as [[b ty]|]; [|apply S_0; s0]. destruct (b =? i); [apply S_0; s0|].
      apply S_then; [|intros; s0]. intros s HI [Ht _] _ e. unfold logm, clear_cache. rewrite Ht. discriminate.
  Qed.

  Definition ids_ok (l : list qitem) (s : mstate) : Prop := forall q, In q l -> id_ok (st_core s) (qid q).

  Lemma item_settled q : T LE (fun s => settled s /\ id_ok (st_core s) (qid q)) (process_item g w limit q) (fun _ => settled) any.
  Proof.
    intros s HI [H1 H2]. destruct (process_item_step g w limit (k_f (st_core s)) q s HI) as [H3 H4]; [split; [split|]; auto|].
    split; [exact H3|]. destruct (process_item g w limit q s) as [[x|e] s']; [apply H4| exact I].
  Qed.

  Lemma ids_ok_kept l n s s' : LE n = true -> Inv s -> step n s s' -> ids_ok l s -> ids_ok l s'.
  Proof. intros _ _ Hst H q' Hq. eapply ids_kept; [exact Hst|]. auto. Qed.

  Lemma item_next q l : T LE (fun s => settled s /\ ids_ok (q :: l) s) (process_item g w limit q) (fun _ s => settled s /\ ids_ok l s) any.
  Proof.
    eapply T_conseq; [apply (T_frame g w LE _ _ _ _ _ (ids_ok_kept l) (item_settled q))|auto|..].
    - intros s _ [H1 H2]. split; [split; [exact H1| apply H2; left; reflexivity]| intros q' Hq; apply H2; right; exact Hq].
    - intros a s _ H. exact H.
    - intros; exact I.
  Qed.

  Lemma chunk_settled l : forall acc, T LE (fun s => settled s /\ ids_ok l s) (process_chunk g w limit l acc) (fun _ => settled) any.
  Proof.
    induction l as [|q l IH]; intro acc; cbn [process_chunk]; [apply T_ret; tauto|].
    eapply T_bind; [apply item_next|]. intro x. destruct acc as [[n cl] vs], x as [[n' cl'] vs']. apply IH.
  Qed.

  Lemma S_chunk l : forall acc, S (fun s => settled s /\ ids_ok l s) (process_chunk g w limit l acc).
  Proof.
    induction l as [|q l IH]; intros acc; cbn [process_chunk]; [apply S_0; s0|].
    eapply S_bind; [|apply item_next|].
    - intros s HI Ht [H1 H2]. apply (S_item (k_f (st_core s)) q s HI Ht). split; [split; auto|]. apply H2. left. reflexivity.
    - intro x. destruct acc as [[n cl] vs], x as [[n' cl'] vs']. apply IH.
  Qed.

  Lemma S_process max : S settled (process_results g w limit max).
  Proof.
    unfold process_results. apply S_then; [|intros; s0]. generalize (match max with Some 0 => None | _ => max end). intro mx.
    generalize (Datatypes.S limit) (0, @nil nat, @nil nat). induction n as [|fuel IH]; intro acc; cbn [process_loop]; [apply S_0; s0|].
    eapply S_bind0 with (R := fun _ => settled) (E := any) (L := LQ).
    - destruct mx; s0. apply S0_tick.
    - destruct mx; [apply T_ret; auto|]. eapply T_bind; [apply T_tick with (P := settled); [reflexivity| apply settled_stable| intros; exact I]|].
      intro t. eapply T_post; [|apply T_getc]. tauto.
    - intro go. destruct go; [|apply S_0; s0].
      eapply S_bind0 with (R := fun o s => settled s /\ forall ch, o = Some ch -> ids_ok ch s) (E := any) (L := LE); [apply S0_queue_get| |].
      { intros s HI Hs. destruct (queue_get_step g w limit _ _ (le_n (k_f (st_core s))) s HI (conj Hs eq_refl)) as [H1 H2].
        split; [exact H1|]. destruct (queue_get w limit s) as [[o|e] s']; [|exact I]. destruct H2 as [[H2 _] H3].
        split; [exact H2|]. intros ch Hch. exact (proj1 (H3 ch Hch)). }
      intros [ch|]; [|apply S_0; s0]. eapply S_bind; [| |intro x; apply IH].
      + eapply S_pre; [|apply S_chunk]. intros s _ [H1 H2]. auto.
      + eapply T_pre; [|apply chunk_settled]. intros s _ [H1 H2]. auto.
  Qed.

  Lemma S_for_each {A} (l : list A) f : (forall a, S top (f a)) -> (forall a, T LQ top (f a) topv any) -> S top (for_each l f).
  Proof.
    intros HS HT. induction l as [|a l IH]; cbn [for_each]; [apply S_0; s0|].
    eapply S_bind; [apply HS| apply HT|]. intros []. exact IH.
  Qed.

  Lemma S_manual : S top (manual_shutdowns g w limit).
  Proof.
    unfold manual_shutdowns. eapply S_bind0; [apply S0_tick| apply tick_quiet|]. intro t. apply S_getc. intro files.
    assert (Hc : (g_aggressive g && g_proc g = true \/ ok OSError) \/ (forall t n, ~ In (MFile n) (w_moves w t))).
    { destruct Hw as [[_ [[-> ->]|[_ H]]]|H]; auto. }
    destruct Hc as [Hg|Hf].
    - apply S_pre with (P := top); [intros; exact I|]. apply S_for_each; [|apply manual_shutdown_quiet].
      intro name. unfold manual_shutdown. destruct (stop_id name) as [z|]; [|apply S_0; s0]. cbn zeta. apply S_getc. intro kn.
      destruct kn; [|apply S_0; s0].
      apply S_pre with (P := fun s => has (Z.to_nat z) s /\ ~ buried (Z.to_nat z) s).
      { intros s _ [_ H]. symmetry in H. apply andb_true_iff in H as [H Hb]. apply andb_true_iff in H as [_ Hd].
        split; [apply nmemd_true in Hd; exact Hd|]. apply nmem_false. apply negb_true_iff in Hb. exact Hb. }
      eapply S_bind0 with (R := fun _ s => has (Z.to_nat z) s /\ ~ buried (Z.to_nat z) s) (E := any); [apply S0_modc|
        apply T_modc with (L := LQ); [reflexivity| |auto]|].
      + intros s _ _. apply St_minor. split; auto. intros n Hn. apply filter_In in Hn. apply Hn.
      + intros []. eapply S_pre; [|apply S_shutdown; exact Hg].
        intros s _ [H1 H2]. unfold may_kill. splits; auto. discriminate.
    - intros s HI Ht [_ ->]. destruct (k_files (st_core s)) as [|n l] eqn:E; [cbn; discriminate|]. exfalso.
      destruct (id_files _ _ _ (m_id _ _ _ HI) n) as [t' Ht']; [rewrite E; left; reflexivity|]. exact (Hf _ _ Ht').
  Qed.

  (** *** Checkpoints *)
  Definition all (ids : list nat) (s : mstate) : Prop := forall i, In i ids -> has i s.

  Lemma all_kept ids l s s' : LE l = true -> Inv s -> step l s s' -> all ids s -> all ids s'.
  Proof. intros Hl _ Hst H i Hi. unfold has. rewrite (keys_kept _ _ _ _ _ Hl Hst). apply H. exact Hi. Qed.

  Lemma T_all ids {A} (m : M mstate A) : T LQ top m topv any -> T LQ (all ids) m (fun _ => all ids) any.
  Proof.
    intro H. eapply T_conseq; [apply (T_frame g w LQ _ _ _ _ _ (fun l s s' Hl => all_kept ids l s s' (QE _ Hl)) H)|auto|..].
    - intros s _ Hs. split; [exact I| exact Hs].
    - intros a s _ [_ Hs]. exact Hs.
    - intros; exact I.
  Qed.
  Definition held (ids : list nat) (s : mstate) : Prop := settled s /\ all ids s.
  Lemma T_held ids {A} (m : M mstate A) E : T LE settled m (fun _ => settled) E -> T LE (held ids) m (fun _ => held ids) any.
  Proof.
    intro H. eapply T_conseq; [apply (T_frame g w LE _ _ _ _ _ (all_kept ids) H)|auto|..].
    - intros s _ Hs. exact Hs.
    - intros a s _ Hs. exact Hs.
    - intros; exact I.
  Qed.
  Lemma T_held_q ids {A} (m : M mstate A) : T LQ top m topv any -> T LE (held ids) m (fun _ => held ids) any.
  Proof. intro H. eapply T_held. apply (T_set g w). exact H. Qed.

  (** Facts about the value returned. *)
  Definition gives {A} (m : M mstate A) (P : A -> Prop) : Prop := forall s a s', m s = (Ok a, s') -> P a.
  Lemma gives_ret {A} (a : A) (P : A -> Prop) : P a -> gives (ret a) P.
  Proof. intros H s b s' [= <- _]. exact H. Qed.
  Lemma gives_raise {A} e (P : A -> Prop) : gives (@raise mstate A e) P.
  Proof. intros s a s' H. discriminate. Qed.
  Lemma gives_bind {A B} (m : M mstate A) (f : A -> M mstate B) (Q : A -> Prop) (P : B -> Prop) :
    gives m Q -> (forall a, Q a -> gives (f a) P) -> gives (bind m f) P.
  Proof.
    intros Hm Hf s b s'. unfold bind. specialize (Hm s). destruct (m s) as [[a|e] s1]; [|discriminate]. intro H. eapply Hf; eauto.
  Qed.
  Lemma gives_any {A B} (m : M mstate A) (f : A -> M mstate B) (P : B -> Prop) :
    (forall a, gives (f a) P) -> gives (bind m f) P.
  Proof. intro H. eapply gives_bind with (Q := fun _ => True); [intros s a s' _; exact I| auto]. Qed.

  Lemma S_bind_gives L P {A B} (m : M mstate A) (f : A -> M mstate B) R E (Q : A -> Prop) :
    S P m -> T L P m R E -> gives m Q -> (forall a, Q a -> S (R a) (f a)) -> S P (bind m f).
  Proof.
    intros Hm HT Hq Hf s HI Ht Hs e. unfold bind. specialize (Hm s HI Ht Hs). destruct (HT s HI Hs) as [H1 H2]. specialize (Hq s).
    pose proof (star_MInv _ _ _ _ _ H1 HI) as HI'. pose proof (kept_star _ _ _ H1 Ht) as Ht'.
    destruct (m s) as [[a|e'] s'] eqn:Em; cbn in *; [apply Hf; eauto|]. intros [= <-]. auto.
  Qed.

  Lemma paused_known ids : gives (pause_all w limit ids) (fun l => incl l ids).
  Proof.
    induction ids as [|i ids IH]; cbn [pause_all]; [apply gives_ret; intros x []|].
    apply gives_any. intro a. apply gives_any. intros _. eapply gives_bind; [exact IH|]. intros l Hl. apply gives_ret.
    destruct a; [|intros x Hx; right; apply Hl; exact Hx]. intros x [Hx|Hx]; [left; exact Hx| right; apply Hl; exact Hx].
  Qed.

  Lemma remove_incl i l : incl (remove_id i l) l.
  Proof. unfold remove_id. intros x Hx. apply filter_In in Hx. apply Hx. Qed.

  Lemma sync_one_waits i x : gives (sync_one w limit i x) (fun y => incl (snd (fst y)) (snd (fst x))).
  Proof.
    unfold sync_one. destruct x as [[no wait] live]. cbn [fst snd]. apply gives_any. intros [].
    - apply gives_any. intros _. apply gives_any. intros [h|]; [|apply gives_raise].
      destruct (c_sigs h) as [|sg sgs]; [destruct (c_closed h); [apply gives_raise| apply gives_ret, incl_refl]|].
      apply gives_any. intros _. destruct sg; try apply gives_raise.
      + apply gives_any. intros _. apply gives_any. intros _. apply gives_ret. apply incl_refl.
      + apply gives_any. intros _. apply gives_ret. apply remove_incl.
    - apply gives_ret. apply remove_incl.
  Qed.
  Lemma sync_round_waits ids : forall x, gives (sync_round w limit ids x) (fun y => incl (snd (fst y)) (snd (fst x))).
  Proof.
    induction ids as [|i ids IH]; intro x; cbn [sync_round]; [apply gives_ret, incl_refl|].
    eapply gives_bind; [apply sync_one_waits|]. intros y Hy s z s' Hz. eapply incl_tran; [eapply IH; exact Hz| exact Hy].
  Qed.

  Section Checkpoint.
    Context (Ho : ok OSError) (He : ok EOFError) (Ha : ok AssertionError) (Hc : ok CheckpointingError) (Hck : ~ no_checkpoints g w).

    Lemma S_pause ids : S (all ids) (pause_all w limit ids).
    Proof.
      induction ids as [|i ids IH]; cbn [pause_all]; [apply S_0; s0|].
      eapply S_bind0; [apply S0_alive| apply T_all, alive_quiet|]. intro a.
      eapply S_bind; [|apply T_all|].
      - destruct a; [|apply S_0; s0]. eapply S_pre; [|apply S_send; exact Ho]. intros s _ H. apply H. left. reflexivity.
      - destruct a; [apply send_quiet| apply T_ret; intros; exact I].
      - intros []. apply S_then; [|intros; s0]. eapply S_pre; [|exact IH]. intros s _ H j Hj. apply H. right. exact Hj.
    Qed.

    Lemma S_sync_one i x : S (has i) (sync_one w limit i x).
    Proof.
      unfold sync_one. destruct x as [[no wait] live]. apply S_has_bind; [apply S0_alive| apply alive_quiet|]. intro a.
      destruct a; [|apply S_0; s0]. apply S_has_bind; [apply S0_tick| apply tick_quiet|]. intro t.
      apply S_getc. intro h. destruct h as [h|].
      - destruct (c_sigs h) as [|sg sgs]; [destruct (c_closed h); apply S_0; s0|].
        eapply S_bind0 with (R := fun _ => has i) (E := any); [apply S0_modc|
          apply T_modc with (L := LQ); [reflexivity| |]|].
        + intros s _ [H1 H2]. eapply St_child; eauto.
        + intros s _ [H1 H2]. unfold has in *. cbn. erewrite dkeys_nset_old by eauto. exact H1.
        + intros []. destruct sg; try (apply S_0; s0; fail). apply S_then; [apply S_put_end| intros; s0].
      - intros s HI Ht [H1 H2] e. exfalso. symmetry in H2. apply nget_none in H2. contradiction.
    Qed.

    Lemma S_sync_round ids : forall x, S (all ids) (sync_round w limit ids x).
    Proof.
      induction ids as [|i ids IH]; intro x; cbn [sync_round]; [apply S_0; s0|].
      eapply S_bind; [|apply T_all, sync_one_quiet; exact Hck|].
      - eapply S_pre; [|apply S_sync_one]. intros s _ H. apply H. left. reflexivity.
      - intro y. eapply S_pre; [|apply IH]. intros s _ H j Hj. apply H. right. exact Hj.
    Qed.

    Lemma S_sync_loop ids fuel n : forall x, incl (snd (fst x)) ids -> S (held ids) (sync_loop g w limit fuel n x).
    Proof.
      induction fuel as [|fuel IH]; intros x Hx; cbn [sync_loop]; [apply S_0; s0|].
      destruct x as [[no wait] live]. cbn [fst snd] in Hx. destruct wait as [|i wait]; [apply S_0; s0|].
      eapply S_bind0; [apply S0_tick| apply T_held_q, tick_quiet|]. intro t.
      eapply S_bind with (R := fun _ => held ids) (L := LE) (E := any).
      - destruct (w_full w t); [|apply S_0; s0]. apply S_then; [|intros; s0]. eapply S_pre; [|apply S_process]. intros s _ [H _]. exact H.
      - destruct (w_full w t); [|apply T_ret; auto]. eapply T_bind; [eapply T_held, process_results_step|]. intro p. apply T_ret. auto.
      - intro no2. eapply S_bind_gives with (R := fun _ => held ids) (L := LE) (E := any).
        + eapply S_pre; [|apply S_sync_round]. intros s _ [_ H] j Hj. apply H, Hx. exact Hj.
        + apply T_held_q, sync_round_quiet. exact Hck.
        + apply sync_round_waits.
        + intros y Hy. apply IH. eapply incl_tran; [exact Hy| exact Hx].
    Qed.

    Lemma S0_hold fuel : forall ids, S0 (hold_loop w limit fuel ids).
    Proof.
      assert (Hr : forall ids, S0 (hold_round w limit ids)).
      { induction ids as [|i ids IH]; cbn [hold_round]; s0; [apply S0_tick| exact IH]. }
      induction fuel as [|fuel IH]; intro ids; cbn [hold_loop]; s0. destruct ids; s0; [apply Hr| apply IH].
    Qed.

    Lemma S_checkpoint_optimizers : S settled (checkpoint_optimizers g w limit).
    Proof.
      unfold checkpoint_optimizers, pack_ids. apply S_getc. intro ids.
      apply S_pre with (P := held ids). { intros s _ [H ->]. split; [exact H|]. intros i Hi. exact Hi. }
      eapply S_bind_gives; [|apply T_held_q, pause_all_quiet| apply paused_known|].
      { eapply S_pre; [|apply S_pause]. intros s _ [_ H]. exact H. }
      intros messaged Hm. apply S_pre with (P := held messaged).
      { intros s _ [H1 H2]. split; [exact H1|]. intros i Hi. apply H2, Hm. exact Hi. }
      eapply S_bind; [apply S_sync_loop; cbn; apply incl_refl| eapply T_held, sync_loop_step; exact Hck|]. intros [[no wt] live].
      eapply S_bind; [eapply S_pre; [|apply S_process]; intros s _ [H _]; exact H| eapply T_held, process_results_step|]. intro p. cbn zeta.
      eapply S_bind0; [apply S0_tick| apply T_held_q, tick_quiet|]. intro t. apply S_getc. intro empty.
      apply S_pre with (P := held messaged); [tauto|].
      eapply S_bind0 with (R := fun _ => held messaged) (L := LE) (E := any).
      - destruct empty; s0.
      - destruct empty; [apply T_ret; auto| apply T_raise; intros; exact I].
      - intros []. eapply S_bind0; [apply S0_ext| apply T_held_q, ext_quiet|]. intros [].
        apply S_then.
        + eapply S_pre; [|apply S_for_keys].
          * intros s _ [_ H]. exact H.
          * intro i. unfold save_one. apply S_has_bind; [apply S0_alive| apply alive_quiet|]. intro a.
            destruct a; [|apply S_0; s0]. destruct (nmem i _); apply S_send; exact Ho.
          * intro i. eapply T_pre; [|apply save_one_quiet]. intros; exact I.
        + intros _. apply S0_bind; [apply S0_hold|]. intros _. apply S0_for_each. intro i. unfold confirm_one. s0; [apply S0_tick|].
          destruct (w_saved w _ i); s0.
    Qed.
  End Checkpoint.
End Safe.

(** *** The loop *)
Section Loop.
  Context (g : config) (w : world) (limit : nat) (ok : exn -> Prop) (HB : orderly w) (Hw : wordless g w \/ ok OSError).
  Context (HC : no_checkpoints g w \/
                ok OSError /\ ok EOFError /\ ok AssertionError /\ (g_raise_fail g = true -> ok CheckpointingError)).
  Notation safe := (Manager_Safe.safe ok).
  Notation S0 := (Manager_Safe.S0 ok).
  Notation step := (mstep g w).
  Notation Inv := (MInv g w).
  Notation T := (Manager_Trace.T g w).
  Notation S := (Manager_Safe.S g w ok).

  Ltac rd a := apply (T_getc_bind g w); intro a.

  Lemma S_checkpoint : ~ no_checkpoints g w -> S settled (checkpoint g w limit).
  Proof.
    intro Hck. destruct HC as [?|[Ho [He [Ha Hc]]]]; [contradiction|].
    set (ok' := fun e => ok e \/ e = CheckpointingError).
    assert (Htry : Manager_Safe.S g w ok' settled
      (ext w limit ;;; note EvSaveLog ;;; checkpoint_optimizers g w limit ;;; ext w limit ;;; note EvSaveManager ;;; ext w limit)).
    { eapply S_bind0; [apply S0_ext; exact HB| eapply T_any, (T_set g w), ext_quiet|]. intros [].
      eapply S_bind0; [apply S0_act| apply (note_step g w EvSaveLog any); right; left; reflexivity|]. intros []. apply S_then.
      - apply S_checkpoint_optimizers; auto; unfold ok'; auto.
      - intros _. s0; apply S0_ext; exact HB. }
    unfold checkpoint. eapply S_bind0; [apply S0_ext; exact HB| eapply T_any, (T_set g w), ext_quiet|]. intros [].
    match goal with |- S _ (bind ?m _) => set (tr := m) end.
    assert (HT : T LE settled tr (fun _ => settled) any).
    { unfold tr. eapply T_try with (R := chkE); [| |intros; exact I].
      + eapply T_bind; [apply T_set, ext_quiet|]. intros []. eapply T_bind with (R := fun _ s => settled s /\ log_written (st_hist s)).
        { apply T_act with (l := Quiet); [reflexivity| |].
          - intros s _ H. apply St_note; [right; left; reflexivity| exact H].
          - intros s _ [H1 [H2 H3]]. unfold settled. cbn. splits; try assumption. exists [], (st_core s), (st_hist s). cbn. splits; auto. }
        intros []. eapply T_bind; [apply T_written, checkpoint_optimizers_step; exact Hck|]. intros [].
        eapply T_bind; [apply T_written, T_set, ext_quiet|]. intros [].
        eapply T_bind with (R := fun _ => settled).
        { apply T_act with (l := Quiet); [reflexivity| |].
          - intros s _ [H1 H2]. apply St_saved; assumption.
          - intros s _ [[H1 [H2 H3]] _]. unfold settled. cbn. splits; assumption. }
        intros []. apply T_set, ext_quiet.
      + intros e Hx. destruct e; try discriminate Hx. destruct (g_raise_fail g); [apply T_raise; intros; exact I|].
        apply T_ret. intros s _ H. apply H. reflexivity. }
    eapply S_bind; [|exact HT|].
    - intros s HI Ht Hs e. unfold tr, try_except. specialize (Htry s HI Ht Hs).
      match type of Htry with context [fst (?m s)] => destruct (m s) as [[a|e'] s'] end; [discriminate|]. specialize (Htry e' eq_refl).
      destruct e'; cbn; try (intros [= <-]; destruct Htry as [H|[H|[H|H]]]; [left; exact H| right; left; exact H| right; right; exact H| discriminate]).
      destruct (g_raise_fail g); [|discriminate]. intros [= <-]. right. right. apply Hc. reflexivity.
    - intros []. apply S_getc. intro conv. apply S_then.
      + destruct conv; [|apply S_0; s0]. apply S_pre with (P := top); [intros; exact I|]. apply S_told; assumption.
      + intros _. unfold pack_ids. s0. apply S0_for_each. intro i. unfold toggle_one. s0; [apply S0_alive|]. destruct a0; s0.
  Qed.

  Lemma S_manual_chk : S settled (manual_checkpoints g w limit).
  Proof.
    unfold manual_checkpoints.
    eapply S_bind0; [apply S0_tick| eapply T_any, (T_set g w), tick_quiet|]. intro t. apply S_getc. intro b. destruct b; [|apply S_0; s0].
    intros s HI Ht [Hs Hb].
    assert (Hck : ~ no_checkpoints g w) by (intro Hn; rewrite (id_chk _ _ _ (m_id _ _ _ HI) Hn) in Hb; discriminate).
    revert s HI Ht Hs Hb. enough (H : S settled (modc (set_kchkpt false) ;;; checkpoint g w limit)) by (intros; eapply H; eauto).
    eapply S_bind0 with (R := fun _ => settled) (L := LE) (E := any); [apply S0_modc| |intros []; apply S_checkpoint; exact Hck].
    apply T_modc; [reflexivity| |auto]. intros s _ _. apply St_minor. split; auto; cbn; discriminate.
  Qed.

  Lemma T_sett {A} (m : M mstate A) : T LQ top m topv any -> T LE settled m (fun _ => settled) any.
  Proof. intro H. eapply T_any. apply (T_set g w). exact H. Qed.

  Lemma T_manual_chk : T LE settled (manual_checkpoints g w limit) (fun _ => settled) any.
  Proof.
    unfold manual_checkpoints. eapply T_bind; [apply T_sett, tick_quiet|]. intro t. rd b. destruct b; [|apply T_ret; tauto].
    apply T_pure with (phi := ~ no_checkpoints g w).
    { intros s HI [_ Hb] Hn. pose proof (id_chk _ _ _ (m_id _ _ _ HI) Hn). congruence. }
    intro Hck. eapply T_bind with (R := fun _ => settled); [|intros []; apply checkpoint_step; exact Hck].
    apply T_modc; [reflexivity| |tauto]. intros s _ _. apply St_minor. split; auto. cbn. discriminate.
  Qed.

  Lemma S_periodic : S settled (periodic_checkpoint g w limit).
  Proof.
    unfold periodic_checkpoint. destruct (g_chk g) eqn:Eg; [|apply S_0; s0].
    assert (Hck : ~ no_checkpoints g w) by (intros [H _]; congruence).
    eapply S_bind0; [apply S0_tick| apply T_sett, tick_quiet|]. intro t. apply S_getc. intro c.
    apply S_pre with (P := settled); [tauto|]. destruct (w_time_chk w t); [apply S_checkpoint; exact Hck|].
    destruct (g_iter_freq g) as [n|]; [|apply S_0; s0]. destruct (_ <? _); [|apply S_0; s0].
    eapply S_bind0 with (R := fun _ => settled) (L := LE) (E := any); [apply S0_modc| |intros []; apply S_checkpoint; exact Hck].
    apply T_modc; [reflexivity| |auto]. intros s _ _. apply St_minor. split; auto; cbn; discriminate.
  Qed.

  (** No judgement since the loop was entered with the flag down. *)
  Definition going (s : mstate) : Prop := settled s /\ pending s.
  Lemma T_going L {A} (m : M mstate A) (R : A -> mstate -> Prop) E : (forall l, L l = true -> l <> Judge) ->
    T L settled m R E -> T L going m (fun a s => R a s /\ pending s) any.
  Proof.
    intros HL H. assert (Hk : forall l s s', L l = true -> Inv s -> step l s s' -> pending s -> pending s').
    { intros l s s' Hl _ Hst. eapply pending_kept; [|exact Hst]. auto. }
    eapply T_conseq; [apply (T_frame g w L _ _ _ _ _ Hk H)| auto| auto| auto|]. intros; exact I.
  Qed.
  Lemma EJ l : LE l = true -> l <> Judge.
  Proof. destruct l; discriminate. Qed.

  Lemma S_iteration : S (fun s => settled s /\ k_converged (st_core s) = false) (iteration g w limit).
  Proof.
    unfold iteration.
    eapply S_bind0 with (R := fun _ => going) (E := any); [apply S0_act|apply T_act with (L := LQ) (l := Quiet); [reflexivity| |]|].
    { intros s _ [H1 H2]. apply St_iter; assumption. }
    { intros s HI [H H2]. split; [exact H|]. intro Hj. pose proof (ax_judge _ _ _ (m_aux _ _ _ HI) _ Hj). congruence. }
    intros []. eapply S_bind0; [apply S0_fill; exact HB| eapply T_going; [|apply fill_slots_step]|].
    { intros []; discriminate. }
    intros []. unfold pack_ids. apply S_getc. intro ids.
    eapply S_bind with (R := fun _ => going) (E := any) (L := LE).
    { apply S_pre with (P := fun s => forall i, In i ids -> has i s). { intros s _ [_ ->]. auto. }
      apply S_for_keys; intro i.
      - apply S_then; [apply S_check_signals; assumption| intros; s0].
      - eapply T_bind; [eapply T_pre; [|apply check_signals_quiet]; intros; exact I|]. intro. apply T_ret. intros; exact I. }
    { apply T_pre with (P := going); [intros s _ [H _]; exact H|]. eapply T_going; [apply EJ|]. apply T_sett, for_each_quiet. intro i.
      eapply T_bind; [apply check_signals_quiet|]. intro. apply T_ret. intros; exact I. }
    intros []. eapply S_bind; [eapply S_pre; [|apply S_process; assumption]; intros s _ [H _]; exact H|
      eapply T_going; [apply EJ| apply process_results_step]|]. intro pr.
    eapply S_bind; [eapply S_pre; [|apply S_manual; assumption]; intros; exact I| eapply T_going; [apply EJ|]; apply T_sett, manual_shutdowns_quiet|]. intros [].
    eapply S_bind; [eapply S_pre; [|apply S_manual_chk]; intros s _ [H _]; exact H| eapply T_going; [apply EJ| apply T_manual_chk]|]. intros [].
    eapply S_bind; [eapply S_pre; [|apply S_inspect_children; assumption]; intros; exact I| eapply T_going; [apply EJ|]; apply T_sett, inspect_children_quiet|]. intros [].
    apply S_getc. intro ids2. eapply S_bind0 with (R := fun _ => going) (E := any) (L := LP).
    { apply S0_for_each, S0_purge. }
    { apply T_pre with (P := going); [intros s _ [H _]; exact H|].
      assert (Hk : forall l s s', LP l = true -> Inv s -> step l s s' -> going s -> going s').
      { intros l s s' Hl _ Hst [H1 H2]. split; [eapply purge_settled; eauto|]. eapply pending_kept; [|exact Hst|exact H2]. destruct l; discriminate. }
      eapply T_conseq; [apply (T_frame g w LP top going _ topv any Hk)|auto|..].
      - eapply T_conseq; [apply (T_for_each g w LP top ids2 _ any); intros i _; apply purge_one_step|auto|auto|intros; exact I|auto].
      - intros s _ H. split; [exact I| exact H].
      - intros a s _ [_ H]. exact H.
      - intros; exact I. }
    intros []. apply S_getc. intro ids3.
    assert (Hk : forall l s s', LQ l = true -> Inv s -> step l s s' -> going s -> going s').
    { intros l s s' Hl _ Hst [H1 H2]. split; [eapply settled_kept; eauto|]. eapply pending_kept; [|exact Hst|exact H2]. destruct l; discriminate. }
    eapply S_bind0 with (R := fun l s => surveyed ids3 l s /\ going s) (E := any) (L := LQ).
    { apply S0_living. }
    { eapply T_conseq; [apply (T_frame g w LQ _ going _ _ _ Hk (survey g w limit ids3))|auto|..].
      - intros s _ [H ->]. auto.
      - intros a s _ H. exact H.
      - intros; exact I. }
    intro l. cbn zeta. eapply S_bind0 with (R := fun chk s => (surveyed ids3 l s /\ going s) /\ exists t, w_check w t (st_core s) = Ok chk) (E := any) (L := LQ).
    { apply S0_checker. exact HB. }
    { unfold checker_call. eapply T_bind with (R := fun _ s => surveyed ids3 l s /\ going s).
      - eapply T_conseq; [apply (T_frame g w LQ (surveyed ids3 l) going _ (fun _ => surveyed ids3 l) any Hk), T_tick; [reflexivity| apply surveyed_stable| intros; exact I]|auto|auto|auto|intros; exact I].
      - intro t. rd c. eapply T_post; [|apply T_lift; intros; exact I]. intros a s _ [[H ->] H3]. split; [exact H| eauto]. }
    intro chk. eapply S_bind0 with (R := fun _ => settled) (E := any) (L := LA).
    { apply S0_act. }
    { apply T_act with (l := Judge); [reflexivity| |].
      - intros s _ [[[S1 [S2 S3]] [H Hp]] Hc]. apply St_judge; auto.
        destruct (length l =? 0) eqn:El.
        + apply Nat.eqb_eq in El. destruct l; [|discriminate]. intros i h Hg. destruct (c_alive h) eqn:Ea; [|reflexivity].
          destruct (S3 i h Hg Ea).
        + destruct l as [|i l']; [discriminate|]. intro Hn. rewrite Hn in S1. cbn in S1. subst ids3. exact (S2 i (or_introl eq_refl)).
      - intros s _ [[_ [H _]] _]. exact H. }
    intros []. apply S_then; [apply S_periodic| intros; s0].
  Qed.

  Lemma iteration_settled : T LA (fun s => settled s /\ k_converged (st_core s) = false) (iteration g w limit) (fun _ => settled) any.
  Proof.
    intros s HI [H1 H2].
    assert (H : T LA (fun s' => at_f (k_f (st_core s)) s' /\ k_converged (st_core s') = false) (iteration g w limit) (fun _ => settled) any).
    { eapply T_conseq; [apply (iteration_step g w limit (k_f (st_core s)) (fun _ => True)); auto|auto|auto|..].
      - eapply T_conseq; [apply process_results_step|auto|..]; auto. intros s' _ [H _]. exact H.
      - intros chk s' _ [S1 _]. exact S1.
      - intros; exact I. }
    apply (H s HI). split; [split; auto| exact H2].
  Qed.

  Lemma S_main fuel : forall r, S settled (main_loop g w limit fuel r).
  Proof.
    induction fuel as [|fuel IH]; intro r; cbn [main_loop]; [apply S_0; s0|]. apply S_getc. intro conv.
    destruct conv; [apply S_0; s0|].
    apply S_pre with (P := fun s => settled s /\ k_converged (st_core s) = false); [intros s _ [H1 H2]; auto|].
    eapply S_bind; [apply S_iteration| apply iteration_settled|]. intro chk. apply IH.
  Qed.

  Lemma S0_restart i : S0 (restart_one w limit i).
  Proof. unfold restart_one. apply S0_bind; [apply S0_ext; exact HB|]. intros []. s0. Qed.

  Lemma S_body r0 : S (fun s => (forall l, resting g w l s) /\ k_converged (st_core s) = false) (run_body g w limit r0).
  Proof.
    unfold run_body, pack_ids. apply S_getc. intro ids. intros s HI Ht [[H1 H2] Hids].
    assert (Hnd : NoDup ids) by (rewrite <- Hids || rewrite Hids; apply (id_nodup _ _ _ (m_id _ _ _ HI))).
    assert (Hs : resting g w ids s /\ k_converged (st_core s) = false) by auto.
    revert s HI Ht Hs H1 H2 Hids.
    enough (HS : S (fun s => resting g w ids s /\ k_converged (st_core s) = false) (for_each ids (restart_one w limit) ;;; r <- main_loop g w limit (Datatypes.S limit) r0 ;;
      (if g_chk g && g_at_conv g then checkpoint g w limit else ret tt) ;;; stop_all_children w limit None ;;; ret r))
      by (intros s HI Ht Hs _ _ _; exact (HS s HI Ht Hs)).
    eapply S_bind0 with (R := fun _ => mainP r0 r0) (E := any) (L := LA).
    { apply S0_for_each. exact S0_restart. }
    { eapply T_conseq; [apply (restarts_step g w limit ids Hnd)|auto|auto|..].
      - intros a s _ [[H1 _] H2]. split; auto.
      - intros; exact I. }
    intros [].
    eapply S_bind; [eapply S_pre; [|apply S_main]; intros s _ [H _]; exact H| apply main_step|]. intro r.
    eapply S_bind with (R := fun _ => settled) (E := any) (L := LE).
    { destruct (g_chk g && g_at_conv g) eqn:Eg; [|apply S_0; s0]. apply andb_true_iff in Eg as [Eg _].
      eapply S_pre; [|apply S_checkpoint; intros [H _]; congruence]. intros s _ [H _]. exact H. }
    { destruct (g_chk g && g_at_conv g) eqn:Eg; [|apply T_ret; intros s _ [H _]; exact H]. apply andb_true_iff in Eg as [Eg _].
      eapply T_pre; [|apply checkpoint_step; intros [H _]; congruence]. intros s _ [H _]. exact H. }
    intros [].
    apply S_pre with (P := top); [intros; exact I|]. apply S_then; [|intros; s0]. apply (S_quit g w ok LQ _ _ topv).
    eapply T_conseq; [apply (stop_all_quiet g w limit None)|auto|auto|auto|]. intros e s H Ht. left. exact (H Ht).
  Qed.

  Lemma finish_reason r s x s' : finish r s = (Ok x, s') -> fst x = Some r.
  Proof.
    unfold finish, bind, act, modify. cbn. destruct (logm log_close _) as [[[]|] s1]; [|discriminate]. cbn. intros [= <- <-]. reflexivity.
  Qed.

  (** From any state in which a session can begin. *)
  Lemma crash_reason_from h0 s e x : Inv s -> kept s -> idle g w h0 s ->
    fst (start_manager g w limit s) = Ok (Some (RCrash e), x) -> e = RuntimeError \/ ok e.
  Proof.
    intros HI Ht Hid. unfold start_manager. pose (idle0 := idle g w h0). pose proof (idle_stable g w h0) as idle0_stable.
    set (m := try_except _ _ _).
    assert (Hpre : T LA idle0 m (fun pre s => idle0 s /\ k_converged (st_core s) = match pre with Some b => b | None => false end) any).
    { assert (Hmod : forall b E, T LA idle0 (modc (set_kconverged b)) (fun _ s => idle0 s /\ k_converged (st_core s) = b) E).
      { intros b E. eapply (T_step g w LA Judge); [reflexivity| intro t; reflexivity| |].
        - intros t _ [[H H'] _]. apply St_pre. rewrite H. exact H'.
        - intros t _ H. split; [exact H| reflexivity]. }
      unfold m. eapply T_try with (R := fun _ => idle0); [| |intros; exact I].
      - eapply T_bind with (R := fun _ => idle0).
        + unfold checker_call. eapply T_bind; [apply T_tick; [reflexivity| apply idle0_stable| auto]|]. intro t. rd c.
          eapply T_post; [|apply T_lift]; [intros a t' _ [[H _] _]; exact H| tauto].
        + intro chk. rd c. cbn zeta. eapply T_bind with (R := fun _ s => idle0 s /\ k_converged (st_core s) = chk || ((length (k_packs c) =? 0) && negb (k_spawn c))).
          * apply T_pre with (P := idle0); [tauto|]. apply Hmod.
          * intros []. apply T_ret. auto.
      - intros e' _. eapply T_bind; [apply Hmod|]. intros []. apply T_ret. auto. }
    destruct (T_out _ _ _ _ _ _ _ s Hpre HI Hid) as [pre [s1 [E1 [St1 [HI1 Q1]]]]]. pose proof (kept_star g w _ _ _ St1 Ht) as Ht1.
    unfold bind at 1. rewrite E1. destruct pre as [pre|e']; [|discriminate].
    assert (Hgo : forall r0, k_converged (st_core s1) = false ->
      fst ((ext w limit ;;; (fun s => match run_body g w limit r0 s with
                  | (Ok r, s1) => finish r s1
                  | (Err OutOfFuel, s1) => (Err OutOfFuel, s1)
                  | (Err e, s1) => match stop_all_children w limit (Some (crash_text e)) s1 with
                                   | (Err OutOfFuel, s2) => (Err OutOfFuel, s2)
                                   | (_, s2) => finish (match e with KeyboardInterrupt => RInterrupt | _ => RCrash e end) s2
                                   end
                  end)) s1) = Ok (Some (RCrash e), x) -> (r0 = RDead \/ r0 = RNone) -> e = RuntimeError \/ ok e).
    { intros r0 Hc H Hr0.
      assert (Hext : T LA (fun s => idle0 s /\ k_converged (st_core s) = false) (ext w limit)
                               (fun _ s => idle0 s /\ k_converged (st_core s) = false) any).
      { apply T_ext; [reflexivity| |intros; exact I]. intros t ms [H1 H2]. split; [apply idle0_stable; exact H1|]. cbn.
        rewrite (er_converged _ _ _ (apply_moves_rel ms (st_core t))). exact H2. }
      destruct (T_out _ _ _ _ _ _ _ s1 Hext HI1 (conj (proj1 Q1) Hc)) as [u [s2 [E2 [St2 [HI2 Q2]]]]]. pose proof (kept_star g w _ _ _ St2 Ht1) as Ht2.
      unfold bind in H. rewrite E2 in H. destruct u as [[]|e']; [|discriminate].
      destruct Q2 as [[I1 I5] I4].
      pose proof (S_body r0 s2 HI2 Ht2 (conj I5 I4)) as Hsafe.
      destruct (T_out _ _ _ _ _ _ _ s2 (run_body_step g w limit r0) HI2 (conj I5 I4)) as [b [s3 [E3 [St3 [HI3 Q3]]]]].
      rewrite E3 in *. cbn [fst] in Hsafe. destruct b as [r|e'].
      - destruct (finish r s3) as [[y|] s4] eqn:Ef; cbn in H; [|discriminate]. injection H as ->. apply finish_reason in Ef. cbn in Ef.
        destruct Q3 as [_ [c [chk [d [_ [_ Hr]]]]]]. injection Ef as <-. destruct chk; [discriminate|]. subst r0. destruct Hr0; discriminate.
      - specialize (Hsafe e' eq_refl).
        assert (Hfin : forall why r', fst (match stop_all_children w limit why s3 with
                                   | (Err OutOfFuel, s2) => (Err OutOfFuel, s2)
                                   | (_, s2) => finish r' s2 end) = Ok (Some (RCrash e), x) -> r' = RCrash e).
        { intros why r' H'. destruct (stop_all_children w limit why s3) as [[u|e2] s4].
          - destruct (finish r' s4) as [[y|] s5] eqn:Ef; cbn in H'; [|discriminate]. injection H' as ->. apply finish_reason in Ef. cbn in Ef. congruence.
          - destruct e2; try discriminate; (destruct (finish r' s4) as [[y|] s5] eqn:Ef; cbn in H'; [|discriminate]; injection H' as ->; apply finish_reason in Ef; cbn in Ef; congruence). }
        destruct Hsafe as [[-> | ->] | Hsafe].
        + apply Hfin in H. discriminate.
        + discriminate.
        + assert (Hee : e' = e \/ e' = KeyboardInterrupt \/ e' = OutOfFuel).
          { destruct e'; auto; apply Hfin in H; injection H as <-; auto. }
          destruct Hee as [<- | [-> | ->]]; [exact Hsafe| apply Hfin in H; discriminate| discriminate]. }
    destruct pre as [[|]|].
    - intro H. cbn in H. discriminate.
    - intro H. apply (Hgo RDead); auto. apply Q1.
    - intro H. apply (Hgo RNone); auto. apply Q1.
  Qed.

  Lemma crash_reason e x : fst (run g w limit true) = Ok (Some (RCrash e), x) -> e = RuntimeError \/ ok e.
  Proof. apply (crash_reason_from []); [apply MInv_fresh| split; [reflexivity|apply tidy_init]| apply fresh_idle]. Qed.
End Loop.
