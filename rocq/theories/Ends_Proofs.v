(** * How optimizers end, as the log of a run has it *)
From Verif Require Import Prelude Prelude_Proofs Logger_Model Logger_Spec Logger_Proofs Manager_Model Manager_Spec Manager_Proofs Manager_Trace Manager_Methods Ends_Spec Ends_Intr.

Arguments get_best_iter : simpl never.
Arguments lstep : simpl never.
Arguments put_iteration : simpl never.
Arguments dkeys : simpl never.
Arguments get_metadata : simpl never.

(** ** The log *)
Notation endc i l := (get_metadata i "end_cond" l).
Notation stopt i l := (get_metadata i "t_stop" l).
Definition entry (i : nat) (l : logger) : Prop := In i (dkeys (l_store l)).

(** Nothing is dropped and no end condition changes. *)
Record calm_log (l l' : logger) : Prop := mkCL {
  cl_traj : l_traj l' = l_traj l;
  cl_entry : forall i, entry i l' <-> entry i l;
  cl_end : forall i, endc i l' = endc i l;
  cl_stop : forall i, is_ok (stopt i l) = true -> is_ok (stopt i l') = true }.

Lemma calm_refl l : calm_log l l.
Proof. split; auto; tauto. Qed.

Lemma calm_store l i e e' : nget i (l_store l) = Some e -> sget "end_cond" (e_meta e') = sget "end_cond" (e_meta e) ->
  (sget "t_stop" (e_meta e) <> None -> sget "t_stop" (e_meta e') <> None) ->
  calm_log l (set_store (nset i e' (l_store l)) l).
Proof.
  intros E H1 H2. split; [reflexivity|..]; unfold entry, get_metadata; cbn; intro j.
  - rewrite (dkeys_nset_old _ _ _ _ E). tauto.
  - rewrite nget_nset. destruct (Nat.eqb_spec j i) as [->|Hn]; [rewrite E, H1|]; reflexivity.
  - rewrite nget_nset. destruct (Nat.eqb_spec j i) as [->|Hn]; [|auto]. rewrite E.
    destruct (sget "t_stop" (e_meta e)); [|discriminate]. destruct (sget "t_stop" (e_meta e')); [reflexivity|]. destruct H2; congruence.
Qed.

Lemma calm_hist i hd l : calm_log l (snd (add_iter_history i hd l)).
Proof. unfold add_iter_history. destruct (nget i (l_store l)) eqn:E; [|apply calm_refl]. eapply calm_store; eauto. Qed.
Lemma calm_msg i m l : calm_log l (snd (put_message i m l)).
Proof. unfold put_message. destruct (nget i (l_store l)) eqn:E; [|apply calm_refl]. eapply calm_store; eauto. Qed.
Lemma calm_stop i v l : calm_log l (snd (put_metadata i "t_stop" v l)).
Proof.
  unfold put_metadata. destruct (nget i (l_store l)) eqn:E; [|apply calm_refl].
  eapply calm_store; [exact E| |]; cbn; rewrite sget_sset; cbn; [reflexivity| discriminate].
Qed.
Lemma calm_clear i l : l_traj l = true -> calm_log l (snd (clear_cache i l)).
Proof. intro H. unfold clear_cache. rewrite H. apply calm_refl. Qed.
Lemma calm_iter r l : calm_log l (snd (put_iteration r l)).
Proof.
  assert (H1 : calm_log l (snd (put_row r l))).
  { unfold put_row. destruct (nget (ir_opt r) (l_store l)) eqn:E; [|apply calm_refl]. eapply calm_store; eauto. }
  assert (Hsame : forall a b, l_store b = l_store a -> l_traj b = l_traj a -> calm_log a b).
  { intros a b E1 E2. split; [exact E2|..]; unfold entry, get_metadata; rewrite E1; auto; tauto. }
  assert (Htr : forall a b c, calm_log a b -> calm_log b c -> calm_log a c).
  { intros a b c [a1 a2 a3 a4] [b1 b2 b3 b4]. split; [congruence| intro; rewrite b2; apply a2| intro; rewrite b3; auto| auto]. }
  unfold put_iteration, bind, modify. cbn beta iota.
  set (l1 := set_count (S (l_count l)) l). assert (C1 : calm_log l l1) by (apply Hsame; reflexivity).
  assert (C2 : calm_log l1 (snd (put_best r l1))).
  { unfold put_best. destruct (nget _ (l_bests l1)) as [a|]; [|apply calm_refl]. destruct (nth_error _ a) as [b|]; [|apply calm_refl].
    destruct (nlt _ _); [|apply calm_refl]. cbn zeta. destruct (nth_error _ _) as [b'|]; [|apply Hsame; reflexivity].
    destruct (nlt _ _); apply Hsame; reflexivity. }
  destruct (put_best r l1) as [[u|e] l2]; cbn [snd] in C2; [|eapply Htr; eassumption].
  unfold put_max, modify. cbn beta iota. set (l3 := if _ && _ then _ else _).
  assert (C3 : calm_log l2 l3) by (unfold l3; destruct (_ && _); apply Hsame; reflexivity).
  clear H1. assert (H1 : calm_log l3 (snd (put_row r l3))).
  { unfold put_row. destruct (nget (ir_opt r) (l_store l3)) eqn:E; [|apply calm_refl]. eapply calm_store; eauto. }
  eapply Htr; [exact C1|]. eapply Htr; [exact C2|]. eapply Htr; [exact C3| exact H1].
Qed.

(** The end condition itself. *)
Lemma put_endc i v l r l' : put_metadata i "end_cond" v l = (r, l') -> l_traj l' = l_traj l /\ (forall j, entry j l' <-> entry j l) /\
  (forall j, is_ok (stopt j l) = true -> is_ok (stopt j l') = true) /\ (forall j, j <> i -> endc j l' = endc j l) /\
  (endc i l' = endc i l \/ endc i l' = Ok v) /\ (r = Ok tt -> endc i l' = Ok v).
Proof.
  unfold put_metadata. destruct (nget i (l_store l)) as [e|] eqn:E; intros [= <- <-]; [|splits; auto; try discriminate; tauto].
  assert (Hi : endc i (set_store (nset i (mkE (sset "end_cond" v (e_meta e)) (e_msgs e) (e_cols e)) (l_store l)) l) = Ok v).
  { unfold get_metadata. cbn. rewrite nget_nset_same. cbn. rewrite sget_sset. reflexivity. }
  splits; auto.
  - unfold entry. intros j. cbn. rewrite (dkeys_nset_old _ _ _ _ E). tauto.
  - intros j. unfold get_metadata. cbn. rewrite nget_nset. destruct (Nat.eqb_spec j i) as [->|Hn]; [|auto].
    rewrite E. cbn. rewrite sget_sset. cbn. auto.
  - intros j Hj. unfold get_metadata. cbn. rewrite nget_nset_other by auto. reflexivity.
Qed.

Lemma put_stopt i v l l' : put_metadata i "t_stop" v l = (Ok tt, l') -> is_ok (stopt i l') = true.
Proof.
  unfold put_metadata. destruct (nget i (l_store l)) as [e|] eqn:E; intros [= <-].
  unfold get_metadata. cbn. rewrite nget_nset_same. cbn. rewrite sget_sset. reflexivity.
Qed.

Lemma add_new i ty t l : ~ entry i l -> let l' := snd (add_optimizer i ty t l) in
  l_traj l' = l_traj l /\ (forall j, entry j l' <-> entry j l \/ j = i) /\ (forall j, endc j l' = endc j l) /\
  (forall j, stopt j l' = stopt j l).
Proof.
  intro Hn. assert (E : nget i (l_store l) = None).
  { destruct (nget i (l_store l)) eqn:E; [|reflexivity]. exfalso. apply Hn. apply nget_some_in. eauto. }
  cbn. splits; auto; unfold entry, get_metadata; cbn; intro j.
  - rewrite dkeys_nset. destruct (nmem i _) eqn:Em; [apply nmem_in in Em; contradiction|]. rewrite in_app_iff. cbn. intuition.
  - rewrite nget_nset. destruct (Nat.eqb_spec j i) as [->|Hj]; [rewrite E|]; reflexivity.
  - rewrite nget_nset. destruct (Nat.eqb_spec j i) as [->|Hj]; [rewrite E|]; reflexivity.
Qed.

(** ** The invariant *)
Lemma starts_in (h : hist) i cls sl c : In i (map fst (starts ((c, EvStart i cls sl) :: h))).
Proof. cbn. rewrite map_app, in_app_iff. cbn. auto. Qed.

Definition ended (i : nat) (s : mstate) : Prop :=
  is_ok (stopt i (k_log (st_core s))) = true /\ is_ok (endc i (k_log (st_core s))) = true.
Notation keys s := (dkeys (k_packs (st_core s))).
Notation grave s := (k_grave (st_core s)).
Notation log s := (k_log (st_core s)).
Definition none : nat -> Prop := fun _ => False.
Definition every : nat -> Prop := fun _ => True.

(** What the outside does to a child. *)
Definition moved (ms : list move) (c c' : core) : Prop :=
  forall i h', nget i (k_packs c') = Some h' -> exists h, nget i (k_packs c) = Some h /\
    (forall m, In (SDone m) (c_sigs h') -> In (SDone m) (c_sigs h) \/ In (MSig i (SDone m)) ms) /\
    (c_alive h' = false -> (c_alive h = false /\ c_code h' = c_code h) \/ In (MExit i (c_code h')) ms).

Lemma moved_one m c : moved [m] c (apply_move m c).
Proof.
  intros i h' Hg.
  assert (Hid : nget i (k_packs c) = Some h' -> exists h, nget i (k_packs c) = Some h /\
    (forall m0, In (SDone m0) (c_sigs h') -> In (SDone m0) (c_sigs h) \/ In (MSig i (SDone m0)) [m]) /\
    (c_alive h' = false -> (c_alive h = false /\ c_code h' = c_code h) \/ In (MExit i (c_code h')) [m])) by (intro; exists h'; splits; auto).
  assert (Hon : forall j f, nget i (k_packs (on_child j f c)) = Some h' -> nget i (k_packs c) = Some h' \/
      exists h, j = i /\ nget i (k_packs c) = Some h /\ h' = f h /\ c_alive h = true).
  { intros j f. unfold on_child. destruct (nget j (k_packs c)) as [h|] eqn:E; [|auto]. destruct (c_alive h) eqn:Ea; [|auto]. cbn.
    rewrite nget_nset. destruct (Nat.eqb_spec i j) as [->|Hn]; [|auto]. intros [= <-]. right. exists h. auto. }
  destruct m; cbn [apply_move] in Hg; try (apply Hon in Hg as [Hg|(h & -> & Hh & -> & Ha)]; [auto|]; exists h; split; [exact Hh|]).
  - destruct (c_closed h); cbn; (split; [|intro; congruence]); intros m0 H; [auto|].
    apply in_app_iff in H as [H|[->|[]]]; auto.
  - cbn. split; [auto| congruence].
  - cbn. split; auto.
  - cbn. split; [auto| congruence].
  - destruct (forallb _ _); apply Hid; exact Hg.
  - apply Hid; exact Hg.
  - apply Hid; exact Hg.
Qed.

Lemma moved_all ms : forall c, moved ms c (apply_moves ms c).
Proof.
  unfold apply_moves. induction ms as [|m ms IH]; intros c i h' Hg; cbn in Hg; [exists h'; splits; auto|].
  destruct (IH (apply_move m c) i h' Hg) as (h1 & G1 & S1 & D1). destruct (moved_one m c i h1 G1) as (h & G2 & S2 & D2).
  exists h. splits; auto.
  - intros m0 H. destruct (S1 m0 H) as [H1|H1]; [|cbn; auto]. destruct (S2 m0 H1) as [H2|[H2|[]]]; cbn; auto.
  - intro Ha. destruct (D1 Ha) as [[A1 A2]|H]; [|cbn; auto]. destruct (D2 A1) as [[B1 B2]|[H|[]]]; [left; split; congruence|].
    right. left. rewrite H, A2. reflexivity.
Qed.

Section Ends.
  Context (g : config) (w : world) (limit : nat) (F : string -> Prop).

  (** The optimizers [D] are registered; [X] are those about which something is just being written,
      [Y] those which are just being started. *)
  Record ends (X Y : nat -> Prop) (D : list nat) (s : mstate) : Prop := mkEnds {
    e_traj : l_traj (log s) = true;
    e_nodup : NoDup (keys s);
    e_keys : incl D (keys s);
    e_packs : forall i, In i (keys s) -> entry i (log s);
    e_entry : forall i, entry i (log s) -> i <= k_o (st_core s);
    e_gentry : forall i, In i (grave s) -> entry i (log s);
    e_home : forall i, In i (map fst (starts (st_hist s))) -> In i (keys s) \/ ended i s;
    e_grave : forall i, In i (grave s) -> ~ X i -> ended i s;
    e_buried : forall i v, endc i (log s) = Ok v -> ~ X i -> In i (grave s);
    e_cause : forall i v, endc i (log s) = Ok v -> end_cause g w (st_hist s) i v \/ F v;
    e_victims : forall i, In i (k_victims (st_core s)) -> In i (grave s);
    e_kills : forall i, In i (kills (st_hist s)) -> In i (grave s);
    e_killed : no_checkpoints g w -> forall i v, In i (kills (st_hist s)) -> endc i (log s) = Ok v ->
      v = "GloMPO Termination" \/ v = "Forced GloMPO Termination" \/ F v;
    e_chk : no_checkpoints g w -> k_chkpt (st_core s) = false;
    e_sigs : forall i h m, nget i (k_packs (st_core s)) = Some h -> In (SDone m) (c_sigs h) -> exists t, In (MSig i (SDone m)) (w_moves w t);
    e_dead : forall i h, nget i (k_packs (st_core s)) = Some h -> c_alive h = false -> Y i \/ exists t, In (MExit i (c_code h)) (w_moves w t) }.

  Lemma ends_weaker (X X' Y Y' : nat -> Prop) D D' s : ends X Y D s -> (forall i, X i -> X' i) -> (forall i, Y i -> Y' i) ->
    incl D' D -> ends X' Y' D' s.
  Proof.
    intros [] HX HY HD. split; auto.
    - intros i Hi. auto.
    - intros i v Hv Hn. eapply e_buried0; [exact Hv|]. auto.
    - intros i h Hg Ha. destruct (e_dead0 i h Hg Ha); auto.
  Qed.
  Lemma ends_every X Y D s : ends X Y D s -> ends every every [] s.
  Proof. intro H. eapply ends_weaker; [exact H| unfold every; auto| unfold every; auto| intros i []]. Qed.

  (** *** What keeps it *)
  (** The rest of the attributes does not matter. *)
  Lemma ends_same X Y D c h c' h' : ends X Y D (mkMS c h) ->
    k_packs c' = k_packs c -> k_grave c' = k_grave c -> k_victims c' = k_victims c -> k_o c' = k_o c -> k_log c' = k_log c ->
    (k_chkpt c' = true -> k_chkpt c = true) -> starts h' = starts h -> kills h' = kills h -> ends X Y D (mkMS c' h').
  Proof.
    intros [] P1 P2 P3 P4 P5 P6 P7 P8. unfold ended in *. cbn in *.
    assert (Hc : forall i v, end_cause g w h i v -> end_cause g w h' i v).
    { intros i v []; [eapply Own; eauto| apply Stopped; congruence| eapply Forced; eauto| eapply Failed; eauto| eapply Silent; eauto]. }
    split; unfold ended; cbn; rewrite ?P1, ?P2, ?P3, ?P4, ?P5, ?P7, ?P8; auto.
    - intros i v Hv. destruct (e_cause0 i v Hv); auto.
    - intro Hn. specialize (e_chk0 Hn). destruct (k_chkpt c'); [|reflexivity]. rewrite P6 in e_chk0; auto.
  Qed.

  Lemma ends_log X Y D s l : ends X Y D s -> calm_log (log s) l -> ends X Y D (upd (set_klog l) s).
  Proof.
    intros [] [C1 C2 C3 C4]. unfold ended in *. split; unfold ended; cbn; auto; try congruence.
    - intros i Hi. apply C2. auto.
    - intros i Hi. apply C2 in Hi. auto.
    - intros i Hi. apply C2. auto.
    - intros i Hi. destruct (e_home0 i Hi) as [|[H1 H2]]; [auto|]. right. rewrite C3. auto.
    - intros i Hi Hx. destruct (e_grave0 i Hi Hx). rewrite C3. auto.
    - intros i v. rewrite C3. eauto.
    - intros i v. rewrite C3. eauto.
    - intros Hn i v. rewrite C3. eauto.
  Qed.

  Lemma ends_env X Y D s t : ends X Y D s -> ends X Y D (env (w_moves w t) s).
  Proof.
    intros []. pose proof (apply_moves_rel (w_moves w t) (st_core s)) as R. pose proof (moved_all (w_moves w t) (st_core s)) as M.
    destruct R. unfold ended in *. split; unfold ended, env, upd; cbn; rewrite ?er_log, ?er_keys, ?er_grave, ?er_victims, ?er_o; auto.
    - intro Hn. specialize (e_chk0 Hn). destruct (k_chkpt (apply_moves _ _)); [|reflexivity]. destruct (er_chkpt eq_refl) as [H|H]; [congruence|].
      destruct Hn as [_ Hn]. destruct (Hn t H).
    - intros i h m Hg Hi. destruct (M i h Hg) as (h0 & G0 & S0 & _). destruct (S0 m Hi); eauto.
    - intros i h Hg Ha. destruct (M i h Hg) as (h0 & G0 & _ & D0). destruct (D0 Ha) as [[A1 ->]|H]; eauto.
  Qed.

  (** Children. *)
  Lemma ends_child X Y D s i h h' : ends X Y D s -> nget i (k_packs (st_core s)) = Some h -> incl (c_sigs h') (c_sigs h) ->
    (c_alive h' = false -> c_alive h = false /\ c_code h' = c_code h) -> ends X Y D (upd (fun c => set_kpacks (nset i h' (k_packs c)) c) s).
  Proof.
    intros [] Hg Hs Ha. assert (Hk : dkeys (nset i h' (k_packs (st_core s))) = keys s) by (eapply dkeys_nset_old; exact Hg).
    unfold ended in *. split; unfold ended, upd; cbn; rewrite ?Hk; auto.
    - intros j h0 m. rewrite nget_nset. destruct (Nat.eqb_spec j i) as [->|Hn]; [|eauto]. intros [= <-] Hi. eapply e_sigs0; [exact Hg|]. apply Hs, Hi.
    - intros j h0. rewrite nget_nset. destruct (Nat.eqb_spec j i) as [->|Hn]; [|eauto]. intros [= <-] Hd. destruct (Ha Hd) as [H1 ->]. eauto.
  Qed.

  Lemma ends_bury Y D s i : ends (eq i) Y D s -> In i (keys s) -> ends (eq i) Y D (upd (bury i) s).
  Proof.
    intros [] Hk. unfold ended in *. split; unfold ended, upd; cbn; auto.
    - intros j Hj. apply in_nadd in Hj as [->|Hj]; auto.
    - intros j Hj Hx. apply in_nadd in Hj as [->|Hj]; [destruct (Hx eq_refl)| auto].
    - intros j v Hv Hx. apply in_nadd. eauto.
    - intros j Hj. apply in_nadd. eauto.
    - intros j Hj. apply in_nadd. eauto.
  Qed.

  Lemma ends_close Y D s i : ends (eq i) Y D s -> In i (grave s) -> ended i s -> ends none Y D s.
  Proof.
    intros [] Hg He. split; auto.
    - intros j Hj _. destruct (Nat.eq_dec i j) as [->|Hn]; [exact He|]. apply e_grave0; auto.
    - intros j v Hv _. destruct (Nat.eq_dec i j) as [->|Hn]; [exact Hg|]. eapply e_buried0; eauto.
  Qed.

  (** *** Methods *)
  Notation G := (ends none none).
  (** When an exception leaves a method.  [ck]: within a checkpoint, where one kind of exceptions is caught. *)
  Definition left (ck : bool) (e : exn) (s : mstate) : Prop :=
    ends every every [] s /\ (ck = true -> e = CheckpointingError -> G [] s).
  Definition V (ck : bool) (P : mstate -> Prop) {A} (m : M mstate A) (Q : A -> mstate -> Prop) : Prop :=
    forall s, P s -> match m s with (Ok a, s') => Q a s' | (Err e, s') => left ck e s' end.
  Definition good (P : mstate -> Prop) : Prop :=
    (forall s, P s -> ends every every [] s) /\ (forall s t, P s -> P (env (w_moves w t) s)).
  (** Facts which the outside cannot change. *)
  Definition own (K : mstate -> Prop) : Prop := forall s t, K s -> K (env (w_moves w t) s).

  Lemma V_ret ck (P : mstate -> Prop) {A} (a : A) (Q : A -> mstate -> Prop) : (forall s, P s -> Q a s) -> V ck P (ret a) Q.
  Proof. intros H s Hs. exact (H s Hs). Qed.
  Lemma V_raise ck (P : mstate -> Prop) {A} e Q : (forall s, P s -> left ck e s) -> V ck P (@raise mstate A e) Q.
  Proof. intros H s Hs. exact (H s Hs). Qed.
  Lemma V_bind ck P {A B} (m : M mstate A) (f : A -> M mstate B) R Q : V ck P m R -> (forall a, V ck (R a) (f a) Q) -> V ck P (bind m f) Q.
  Proof. intros Hm Hf s Hs. unfold bind. specialize (Hm s Hs). destruct (m s) as [[a|e] s']; [apply Hf|]; exact Hm. Qed.
  Lemma V_getc ck (P : mstate -> Prop) {A B} (f : core -> A) (k : A -> M mstate B) Q :
    (forall a, V ck (fun s => P s /\ a = f (st_core s)) (k a) Q) -> V ck P (bind (getc f) k) Q.
  Proof. intros H s Hs. apply (H (f (st_core s)) s). auto. Qed.
  Lemma V_get ck (P : mstate -> Prop) {A} (f : core -> A) : V ck P (getc f) (fun _ => P).
  Proof. intros s Hs. exact Hs. Qed.
  Lemma V_pre ck (P P' : mstate -> Prop) {A} (m : M mstate A) Q : (forall s, P' s -> P s) -> V ck P m Q -> V ck P' m Q.
  Proof. intros H1 H2 s Hs. apply H2. auto. Qed.
  Lemma V_post ck P {A} (m : M mstate A) (Q Q' : A -> mstate -> Prop) : (forall a s, Q a s -> Q' a s) -> V ck P m Q -> V ck P m Q'.
  Proof. intros H1 H2 s Hs. specialize (H2 s Hs). destruct (m s) as [[a|e] s']; auto. Qed.
  Lemma V_modc ck (P : mstate -> Prop) f (Q : unit -> mstate -> Prop) : (forall s, P s -> Q tt (upd f s)) -> V ck P (modc f) Q.
  Proof. intros H s Hs. exact (H s Hs). Qed.
  Lemma V_act ck (P : mstate -> Prop) e f (Q : unit -> mstate -> Prop) : (forall s, P s -> Q tt (noted e f s)) -> V ck P (act e f) Q.
  Proof. intros H s Hs. exact (H s Hs). Qed.
  Lemma V_for_each ck (P : mstate -> Prop) {A} (l : list A) (f : A -> M mstate unit) :
    (forall a, In a l -> V ck P (f a) (fun _ => P)) -> V ck P (for_each l f) (fun _ => P).
  Proof.
    intro H. induction l as [|a l IH]; cbn; [apply V_ret; auto|].
    eapply V_bind; [apply H; left; reflexivity|]. intros []. apply IH. intros b Hb. apply H. right. exact Hb.
  Qed.
  Lemma V_lift ck (P : mstate -> Prop) {A} (r : res A) : (forall s e, P s -> left ck e s) -> V ck P (lift r) (fun _ => P).
  Proof. intros H s Hs. unfold lift. destruct r; auto. Qed.

  Lemma left_weak ck e s X Y D : ends X Y D s -> e <> CheckpointingError -> left ck e s.
  Proof. intros H He. split; [eapply ends_every; exact H| intros _ ->; contradiction]. Qed.
  Lemma left_G ck e s D : G D s -> left ck e s.
  Proof.
    intro H. split; [eapply ends_every; exact H|]. intros _ _. eapply ends_weaker; [exact H|auto|auto|intros i []].
  Qed.
  Lemma left_out e s X Y D : ends X Y D s -> left false e s.
  Proof. intro H. split; [eapply ends_every; exact H| discriminate]. Qed.

  Lemma good_ends X Y D : good (ends X Y D).
  Proof. split; [intro s; apply ends_every| intros s t; apply ends_env]. Qed.
  Lemma good_and P K : good P -> own K -> good (fun s => P s /\ K s).
  Proof. intros [H1 H2] H. split; [intros s [Hs _]; auto| intros s t [Hs Hk]; auto]. Qed.
  Lemma own_and K K' : own K -> own K' -> own (fun s => K s /\ K' s).
  Proof. intros H H' s t [A B]. auto. Qed.

  Lemma own_keys i : own (fun s => In i (keys s)).
  Proof. intros s t H. cbn. rewrite (er_keys _ _ _ (apply_moves_rel _ _)). exact H. Qed.
  Lemma own_grave i : own (fun s => In i (grave s)).
  Proof. intros s t H. cbn. rewrite (er_grave _ _ _ (apply_moves_rel _ _)). exact H. Qed.
  Lemma own_not_grave i : own (fun s => ~ In i (grave s)).
  Proof. intros s t H. cbn. rewrite (er_grave _ _ _ (apply_moves_rel _ _)). exact H. Qed.
  Lemma own_ended i : own (ended i).
  Proof. intros s t H. unfold ended. cbn. rewrite (er_log _ _ _ (apply_moves_rel _ _)). exact H. Qed.
  Lemma own_kills i : own (fun s => ~ In i (kills (st_hist s))).
  Proof. intros s t H. exact H. Qed.
  Lemma own_entry i : own (fun s => entry i (log s)).
  Proof. intros s t H. cbn. rewrite (er_log _ _ _ (apply_moves_rel _ _)). exact H. Qed.

  Lemma V_tick ck P : good P -> V ck P (tick w limit) (fun _ => P).
  Proof.
    intros [H1 H2] s Hs. unfold tick. destruct (Nat.leb _ _); [split; [auto|discriminate]|].
    pose proof (H2 s (k_tick (st_core s)) Hs) as H3. destruct (w_intr w _); [split; [apply H1; exact H3|discriminate]| exact H3].
  Qed.
  Lemma V_ext ck P : good P -> (forall s e, P s -> left ck e s) -> V ck P (ext w limit) (fun _ => P).
  Proof.
    intros HP Hl. unfold ext. eapply V_bind; [apply V_tick; exact HP|]. intro t. destruct (w_err w t); [apply V_raise| apply V_ret]; auto.
  Qed.
  Lemma V_alive ck P i : good P -> V ck P (is_alive w limit i)
    (fun a s => P s /\ a = match nget i (k_packs (st_core s)) with Some h => c_alive h | None => false end).
  Proof. intros HP. unfold is_alive. eapply V_bind; [apply V_tick; exact HP|]. intro t. intros s Hs. split; [exact Hs| reflexivity]. Qed.
  Lemma V_alive' ck P i : good P -> V ck P (is_alive w limit i) (fun _ => P).
  Proof. intro H. eapply V_post; [|apply V_alive; exact H]. intros a s [H1 _]. exact H1. Qed.

  Ltac gc a := apply V_getc; intro a.

  (** Notes other than starts and kills. *)
  Definition plain (e : event) : bool := match e with EvStart _ _ _ | EvKill _ _ => false | _ => true end.
  Lemma ends_note X Y D s e : plain e = true -> ends X Y D s -> ends X Y D (noted e (fun c => c) s).
  Proof. intros He H. destruct s as [c h]. eapply ends_same; [exact H|..]; auto; destruct e; try discriminate; reflexivity. Qed.

  Lemma V_send ck X Y D K i m : own K -> (forall s e, K s -> plain e = true -> K (noted e (fun c => c) s)) ->
    V ck (fun s => ends X Y D s /\ K s) (send w limit i m) (fun _ s => ends X Y D s /\ K s).
  Proof.
    intros HK HK2. unfold send. eapply V_bind; [apply V_tick, good_and; [apply good_ends| exact HK]|]. intro t. gc h.
    apply V_pre with (P := fun s => ends X Y D s /\ K s); [tauto|]. destruct h as [h|].
    - destruct (c_closed h).
      + apply V_raise. intros s [H _]. eapply left_weak; [exact H| discriminate].
      + apply V_act. intros s [H1 H2]. split; [apply ends_note; auto| apply HK2; auto].
    - apply V_raise. intros s [H _]. eapply left_weak; [exact H| discriminate].
  Qed.
  Lemma V_send' ck D i m : V ck (G D) (send w limit i m) (fun _ => G D).
  Proof.
    intros s Hs. pose proof (V_send ck none none D (fun _ => True) i m (fun _ _ _ => I) (fun _ _ _ _ => I) s (conj Hs I)) as H.
    destruct (send w limit i m s) as [[a|e] s']; [apply H| exact H].
  Qed.

  (** Log operations. *)
  Lemma V_calm ck X Y D (K : mstate -> Prop) {A} (m : M logger A) :
    (forall l, l_traj l = true -> calm_log l (snd (m l))) -> (forall l e l', m l = (Err e, l') -> e <> CheckpointingError) ->
    (forall s l, K s -> calm_log (log s) l -> K (upd (set_klog l) s)) ->
    V ck (fun s => ends X Y D s /\ K s) (logm m) (fun _ s => ends X Y D s /\ K s).
  Proof.
    intros Hm He HK s [H1 H2]. unfold logm. pose proof (Hm (log s) (e_traj _ _ _ _ H1)) as Hc. pose proof (He (log s)) as He'.
    destruct (m (log s)) as [[a|e] l]; cbn [snd] in Hc.
    - split; [apply (ends_log X Y D s l H1 Hc)| apply (HK s l H2 Hc)].
    - eapply left_weak; [apply (ends_log X Y D s l H1 Hc)| eapply He'; reflexivity].
  Qed.
  Lemma meta_err i k v l e l' : put_metadata i k v l = (Err e, l') -> e <> CheckpointingError.
  Proof. unfold put_metadata. destruct (nget i _); [discriminate|]. intros [= <- _]. discriminate. Qed.
  Lemma msg_err i m l e l' : put_message i m l = (Err e, l') -> e <> CheckpointingError.
  Proof. unfold put_message. destruct (nget i _); [discriminate|]. intros [= <- _]. discriminate. Qed.
  Lemma hist_err i m l e l' : add_iter_history i m l = (Err e, l') -> e <> CheckpointingError.
  Proof. unfold add_iter_history. destruct (nget i _); [discriminate|]. intros [= <- _]. discriminate. Qed.
  Lemma clear_err i l e l' : clear_cache i l = (Err e, l') -> e <> CheckpointingError.
  Proof.
    unfold clear_cache. destruct (l_traj l); [discriminate|]. destruct i as [[|i]|]; try discriminate. destruct (nmemd _ _); [discriminate|].
    intros [= <- _]. discriminate.
  Qed.
  Lemma iter_err r l e l' : put_iteration r l = (Err e, l') -> e <> CheckpointingError.
  Proof.
    unfold put_iteration, bind, modify. cbn beta iota. set (l1 := set_count _ l).
    assert (Hb : forall e0 l0, put_best r l1 = (Err e0, l0) -> e0 <> CheckpointingError).
    { intros e0 l0. unfold put_best. destruct (nget _ _) as [a|]; [|intros [= <- _]; discriminate].
      destruct (nth_error _ a); [|intros [= <- _]; discriminate]. destruct (nlt _ _); [|discriminate]. cbn zeta.
      destruct (nth_error _ _); [discriminate| intros [= <- _]; discriminate]. }
    destruct (put_best r l1) as [[u|e0] l2]; [|intros [= <- _]; eapply Hb; reflexivity].
    unfold put_max, modify, put_row. cbn beta iota. destruct (nget _ _); [discriminate| intros [= <- _]; discriminate].
  Qed.

  Lemma V_msg ck X Y D (K : mstate -> Prop) i m : (forall s l, K s -> calm_log (log s) l -> K (upd (set_klog l) s)) ->
    V ck (fun s => ends X Y D s /\ K s) (logm (put_message i m)) (fun _ s => ends X Y D s /\ K s).
  Proof. intro HK. apply V_calm; [intros; apply calm_msg| apply msg_err| exact HK]. Qed.

  (** The end of [i] is written. *)
  Lemma V_put_end ck (X Y : nat -> Prop) (D : list nat) i v (K : mstate -> Prop) : X i ->
    (forall s, K s -> (end_cause g w (st_hist s) i v \/ F v) /\
                      (no_checkpoints g w -> ~ In i (kills (st_hist s)) \/ v = "GloMPO Termination" \/ v = "Forced GloMPO Termination" \/ F v)) ->
    (forall s l, K s -> K (upd (set_klog l) s)) ->
    V ck (fun s => ends X Y D s /\ K s) (put_end i v) (fun _ s => ends X Y D s /\ K s /\ ended i s).
  Proof.
    intros HX HK HK2. unfold put_end.
    eapply V_bind with (R := fun _ s => (ends X Y D s /\ K s) /\ is_ok (stopt i (log s)) = true).
    - intros s [H1 H2]. unfold logm. destruct (put_metadata i "t_stop" "now" (log s)) as [[[]|e] l] eqn:E.
      + pose proof (calm_stop i "now" (log s)) as C. rewrite E in C. cbn [snd] in C. split; [split|].
        * apply (ends_log _ _ _ s l H1 C).
        * apply (HK2 s l H2).
        * cbn. eapply put_stopt; exact E.
      + pose proof (calm_stop i "now" (log s)) as C. rewrite E in C. cbn [snd] in C.
        eapply left_weak; [apply (ends_log _ _ _ s l H1 C)| eapply meta_err; exact E].
    - intros []. intros s [[H1 H2] H3]. unfold logm. destruct (put_metadata i "end_cond" v (log s)) as [r l] eqn:E.
      pose proof (put_endc _ _ _ _ _ E) as (C1 & C2 & C3 & C4 & C5 & C6). destruct (HK s H2) as [Hc Hk].
      assert (H : ends X Y D (upd (set_klog l) s)).
      { destruct H1. unfold ended in *. split; unfold ended, upd; cbn; auto; try congruence.
        - intros j Hj. apply C2. auto.
        - intros j Hj. apply C2 in Hj. auto.
        - intros j Hj. apply C2. auto.
        - intros j Hj. destruct (e_home0 j Hj) as [|[A1 A2]]; [auto|]. right. split; [auto|].
          destruct (Nat.eq_dec j i) as [->|Hn]; [|rewrite C4; auto]. destruct C5 as [->| ->]; auto.
        - intros j Hj Hx. destruct (e_grave0 j Hj Hx) as [A1 A2]. split; [auto|]. rewrite C4; [auto|]. intros ->. contradiction.
        - intros j v' Hv Hx. rewrite C4 in Hv by (intros ->; contradiction). eauto.
        - intros j v' Hv. destruct (Nat.eq_dec j i) as [->|Hn]; [|rewrite C4 in Hv by auto; eauto].
          destruct C5 as [C5|C5]; [rewrite C5 in Hv; eauto|]. assert (v' = v) by congruence. subst v'. exact Hc.
        - intros Hn j v' Hj Hv. destruct (Nat.eq_dec j i) as [->|Hne]; [|rewrite C4 in Hv by auto; eauto].
          destruct C5 as [C5|C5]; [rewrite C5 in Hv; eauto|]. assert (v' = v) by congruence. subst v'.
          destruct (Hk Hn) as [|]; [contradiction| assumption]. }
      destruct r as [[]|e].
      + split; [exact H|]. split; [exact (HK2 s l H2)|]. unfold ended. cbn. split; [apply C3, H3|]. rewrite C6; reflexivity.
      + eapply left_weak; [exact H| eapply meta_err; exact E].
  Qed.

  Lemma nokill_hist i : forall s l, ~ In i (kills (st_hist s)) -> ~ In i (kills (st_hist (upd (set_klog l) s))).
  Proof. auto. Qed.

  Lemma G_hole i D s : G D s -> ends (eq i) none D s.
  Proof. intro H. eapply ends_weaker; [exact H| intros ? []| auto| apply incl_refl]. Qed.
  Lemma open_kills X Y D s i : ends X Y D s -> ~ In i (grave s) -> ~ In i (kills (st_hist s)).
  Proof. intros H Hn Hk. apply Hn. eapply e_kills; eauto. Qed.

  (** Buried first, then written. *)
  Lemma V_end_buried ck D i v :
    (forall h, ~ In i (kills h) -> end_cause g w h i v) ->
    V ck (fun s => (ends (eq i) none D s /\ In i (grave s)) /\ ~ In i (kills (st_hist s))) (put_end i v) (fun _ s => G D s /\ ~ In i (kills (st_hist s))).
  Proof.
    intro Hc.
    apply V_pre with (P := fun s => ends (eq i) none D s /\ (In i (grave s) /\ ~ In i (kills (st_hist s)))); [tauto|].
    eapply V_post; [|apply (V_put_end ck (eq i) none D i v (fun s => In i (grave s) /\ ~ In i (kills (st_hist s)))); [reflexivity| |auto]].
    - intros _ s (H1 & [H2 H3] & H4). split; [eapply ends_close; eauto| exact H3].
    - intros s [H1 H2]. split; [left; apply Hc; exact H2| auto].
  Qed.

  Lemma V_signals ck D (Kh : hist -> Prop) i :
    V ck (fun s => G D s /\ Kh (st_hist s)) (check_signals w limit i) (fun _ s => G D s /\ Kh (st_hist s)).
  Proof.
    set (K := fun s => Kh (st_hist s)). change (V ck (fun s => G D s /\ K s) (check_signals w limit i) (fun _ s => G D s /\ K s)).
    assert (HKo : own K) by (intros s t H; exact H).
    unfold check_signals, in_grave. gc b. destruct b; [apply V_ret; tauto|].
    apply V_pre with (P := fun s => G D s /\ (K s /\ ~ In i (grave s))).
    { intros s [[H1 H2] H3]. splits; auto. apply nmem_false. congruence. }
    eapply V_bind; [apply V_tick, good_and; [apply good_ends| apply own_and; [exact HKo| apply own_not_grave]]|]. intro t. gc h.
    destruct h as [h|]; [|apply V_raise; intros s [[H _] _]; eapply left_weak; [exact H| discriminate]].
    destruct (c_sigs h) as [|sg sgs] eqn:Es; [apply V_ret; tauto|].
    eapply V_bind with (R := fun _ s => G D s /\ (K s /\ ~ In i (grave s) /\ In i (keys s) /\
        forall m, sg = SDone m -> exists t, In (MSig i (SDone m)) (w_moves w t))).
    { apply V_modc. intros s [[H1 [H2 H3]] Hh]. symmetry in Hh. splits; auto.
      - eapply ends_child; [exact H1| exact Hh| cbn; rewrite Es; intros x Hx; right; exact Hx| cbn; auto].
      - cbn. erewrite dkeys_nset_old by exact Hh. apply nget_some_in. eauto.
      - intros m ->. eapply e_sigs; [exact H1| exact Hh|]. rewrite Es. left. reflexivity. }
    intros []. eapply V_bind with (R := fun _ s => G D s /\ K s); [|intros; apply V_ret; auto].
    destruct sg as [m|m| |]; try (apply V_ret; tauto).
    - eapply V_bind with (R := fun _ s => ends (eq i) none D s /\ (K s /\ In i (keys s)) /\ ended i s).
      + eapply V_pre; [|eapply V_post; [|apply (V_put_end ck (eq i) none D i m (fun s => (K s /\ In i (keys s)) /\ ~ In i (kills (st_hist s)) /\
            exists t, In (MSig i (SDone m)) (w_moves w t)))]].
        * intros s (H1 & H2 & H3 & H4 & H5). split; [apply G_hole; exact H1|]. splits; auto. eapply open_kills; eauto.
        * intros _ s (H1 & (H2 & _) & H4). auto.
        * reflexivity.
        * intros s (_ & Hk & t' & Ht). split; [left; eapply Own; exact Ht| auto].
        * auto.
      + intros []. apply V_modc. intros s (H1 & (H2 & H3) & H4). split; [|exact H2].
        assert (H5 : ends (eq i) none D (upd (bury i) s)) by (apply ends_bury; assumption).
        assert (H6 : G D (upd (bury i) s)) by (apply (ends_close none D _ i H5); [cbn; apply in_nadd; auto| exact H4]).
        destruct s as [c hh]. eapply ends_same; [exact H6|..]; auto.
    - eapply V_bind; [apply V_pre with (P := fun s => G D s /\ K s); [tauto| apply (V_msg ck none none D K i m)]; auto|].
      intro. apply V_modc. intros s [H1 H2]. split; [|exact H2]. destruct s as [c hh]. eapply ends_same; [exact H1|..]; auto.
  Qed.
  Lemma V_signals' ck D i : V ck (G D) (check_signals w limit i) (fun _ => G D).
  Proof.
    intros s Hs. pose proof (V_signals ck D (fun _ => True) i s (conj Hs I)) as H.
    destruct (check_signals w limit i s) as [[a|e] s']; [apply H| exact H].
  Qed.

  Lemma ends_bury' D s i : G D s -> In i (keys s) -> ends (eq i) none D (upd (bury i) s) /\ In i (grave (upd (bury i) s)).
  Proof. intros H Hk. split; [apply ends_bury; [apply G_hole; exact H| exact Hk]| cbn; apply in_nadd; auto]. Qed.

  Lemma V_last ck D i m v : (forall h, ~ In i (kills h) -> end_cause g w h i v) ->
    V ck (fun s => (ends (eq i) none D s /\ In i (grave s)) /\ ~ In i (kills (st_hist s)))
      (logm (put_message i m) ;;; put_end i v) (fun _ s => G D s).
  Proof.
    intro Hc. eapply V_bind with (R := fun _ s => (ends (eq i) none D s /\ In i (grave s)) /\ ~ In i (kills (st_hist s))).
    - apply V_pre with (P := fun s => ends (eq i) none D s /\ (In i (grave s) /\ ~ In i (kills (st_hist s)))); [tauto|].
      eapply V_post; [|apply V_msg; auto]. cbn. tauto.
    - intros. eapply V_post; [|apply V_end_buried; exact Hc]. cbn. tauto.
  Qed.

  Lemma V_inspect_dead ck D i : In i D -> V ck (G D) (inspect_dead w limit i) (fun _ => G D).
  Proof.
    intro Hi. unfold inspect_dead, in_grave. gc b. destruct b; [apply V_ret; tauto|].
    apply V_pre with (P := fun s => G D s /\ ~ In i (kills (st_hist s))).
    { intros s [H1 H2]. split; [exact H1|]. eapply open_kills; [exact H1|]. apply nmem_false. congruence. }
    eapply V_bind; [apply V_alive, good_and; [apply good_ends| apply own_kills]|]. intro a.
    destruct a; [apply V_ret; tauto|]. gc code.
    apply V_pre with (P := fun s => (G D s /\ ~ In i (kills (st_hist s))) /\ exists t, In (MExit i code) (w_moves w t)).
    { intros s [[[H1 H2] H3] H4]. splits; auto. pose proof (e_keys _ _ _ _ H1 i Hi) as Hk. apply nget_some_in in Hk as [h Hh].
      rewrite Hh in H3, H4. destruct (e_dead _ _ _ _ H1 i h Hh) as [[]|H]; [auto|]. rewrite H4. exact H. }
    destruct (Z.eqb_spec code 0) as [->|Hn].
    - eapply V_bind with (R := fun _ s => (G D s /\ ~ In i (kills (st_hist s))) /\ exists t, In (MExit i 0%Z) (w_moves w t)).
      + eapply V_pre; [|eapply V_post; [|apply (V_signals ck D (fun h => ~ In i (kills h) /\ exists t, In (MExit i 0%Z) (w_moves w t)) i)]]; cbn; tauto.
      + intro found. destruct found; [apply V_ret; tauto|].
        intros s [[H1 H2] [t Ht]]. revert s H1 H2.
        enough (HV : V ck (fun s => G D s /\ ~ In i (kills (st_hist s)))
          (modc (fun c => bury i (set_kconv (S (k_conv c)) c)) ;;;
           logm (put_message i "Terminated normally without sending a minimization complete signal to the manager.") ;;;
           put_end i "Normal termination (Reason unknown)") (fun _ => G D)) by (intros s H1 H2; exact (HV s (conj H1 H2))).
        eapply V_bind with (R := fun _ s => (ends (eq i) none D s /\ In i (grave s)) /\ ~ In i (kills (st_hist s))).
        * apply V_modc. intros s [H1 H2].
          assert (H1' : G D (upd (fun c => set_kconv (S (k_conv c)) c) s)) by (destruct s; eapply ends_same; [exact H1|..]; auto).
          split; [|exact H2]. apply (ends_bury' D (upd (fun c => set_kconv (S (k_conv c)) c) s) i H1'). apply (e_keys _ _ _ _ H1' i Hi).
        * intros []. apply V_last. intros h _. eapply Silent; exact Ht.
    - intros s [[H1 H2] [t Ht]]. revert s H1 H2.
      enough (HV : V ck (fun s => G D s /\ ~ In i (kills (st_hist s)))
          (modc (bury i) ;;; logm (put_message i "Terminated in error") ;;; put_end i "Error termination") (fun _ => G D))
        by (intros s H1 H2; exact (HV s (conj H1 H2))).
      eapply V_bind with (R := fun _ s => (ends (eq i) none D s /\ In i (grave s)) /\ ~ In i (kills (st_hist s))).
      * apply V_modc. intros s [H1 H2]. split; [|exact H2]. apply (ends_bury' D s i H1). apply (e_keys _ _ _ _ H1 i Hi).
      * intros []. apply V_last. intros h _. eapply Failed; eauto.
  Qed.

  (** Written about one who may have been killed. *)
  Lemma V_forced ck D i m : (exists t, g_forced g = true /\ g_proc g = true /\ w_late w t i = true) ->
    V ck (fun s => ends (eq i) none D s /\ In i (grave s)) (logm (put_message i m) ;;; put_end i "Forced GloMPO Termination") (fun _ => G D).
  Proof.
    intros (t & H1 & H2 & H3). eapply V_bind with (R := fun _ s => ends (eq i) none D s /\ In i (grave s)).
    - apply V_msg. auto.
    - intros. eapply V_post; [|apply (V_put_end ck (eq i) none D i _ (fun s => In i (grave s)))].
      + intros _ s (A & B & C). eapply ends_close; eauto.
      + reflexivity.
      + intros s _. split; [left; eapply Forced; eauto| auto].
      + auto.
  Qed.

  Lemma V_inspect_rest ck D i : In i D -> V ck (G D) (inspect_hang g w limit i ;;; inspect_zombie g w limit i) (fun _ => G D).
  Proof.
    intro Hi. eapply V_bind with (R := fun _ => G D).
    - unfold inspect_hang. eapply V_bind; [apply V_alive', good_ends|]. intro a.
      eapply V_bind; [apply V_tick, good_ends|]. intro t. gc v. apply V_pre with (P := G D); [tauto|].
      destruct (a && w_late w t i && g_forced g && negb v && g_proc g) eqn:Ec; [|apply V_ret; auto].
      repeat (apply andb_true_iff in Ec as [Ec ?]).
      eapply V_bind with (R := fun _ s => ends (eq i) none D s /\ In i (grave s)).
      + apply V_modc. intros s H1'. apply (ends_bury' D s i H1'). apply (e_keys _ _ _ _ H1' i Hi).
      + intros []. apply V_forced. exists t. auto.
    - intros []. unfold inspect_zombie. gc v. destruct (v && g_forced g) eqn:Ev; [|apply V_ret; tauto].
      apply andb_true_iff in Ev as [-> Hf].
      apply V_pre with (P := fun s => G D s /\ In i (grave s)).
      { intros s [H1 H2]. split; [exact H1|]. symmetry in H2. apply nmem_in in H2. eapply e_victims; eauto. }
      assert (HG : good (fun s => G D s /\ In i (grave s))) by (apply good_and; [apply good_ends| apply own_grave]).
      eapply V_bind; [apply V_alive'; exact HG|]. intro a. eapply V_bind; [apply V_tick; exact HG|]. intro t.
      destruct (a && w_late w t i && g_proc g) eqn:Ec; [|apply V_ret; tauto].
      apply andb_true_iff in Ec as [Ec Hp]. apply andb_true_iff in Ec as [_ Hl].
      eapply V_bind; [apply V_tick; exact HG|]. intro t2.
      eapply V_pre; [|apply V_forced; exists t; auto]. intros s [H1 H2]. split; [apply G_hole; exact H1| exact H2].
  Qed.

  Lemma incl_keys D s : G D s -> forall ids, ids = keys s -> G (D ++ ids) s.
  Proof.
    intros [] ids ->. split; auto. apply incl_app; [assumption| apply incl_refl].
  Qed.
  Lemma G_fewer D D' s : incl D' D -> G D s -> G D' s.
  Proof. intros Hi H. eapply ends_weaker; [exact H| auto| auto| exact Hi]. Qed.

  (** A loop over the registered optimizers. *)
  Lemma V_over ck D (f : list nat -> M mstate unit) :
    (forall ids, V ck (G (D ++ ids)) (f ids) (fun _ => G (D ++ ids))) -> V ck (G D) (ids <- pack_ids ;; f ids) (fun _ => G D).
  Proof.
    intro H. unfold pack_ids. gc ids. eapply V_pre; [|eapply V_post; [|apply H]].
    - intros s [H1 H2]. apply incl_keys; assumption.
    - intros u s Hs. eapply G_fewer; [|exact Hs]. apply incl_appl, incl_refl.
  Qed.

  Lemma V_inspect ck D : V ck (G D) (inspect_children g w limit) (fun _ => G D).
  Proof.
    apply V_over. intro ids. apply V_for_each. intros i Hi. unfold inspect_child.
    assert (Hi' : In i (D ++ ids)) by (apply in_app_iff; auto).
    eapply V_bind; [apply V_inspect_dead; exact Hi'|]. intros []. apply V_inspect_rest; exact Hi'.
  Qed.

  (** *** Kills *)
  Lemma V_shutdown ck D hn i : In i D -> V ck (fun s => G D s /\ ~ In i (grave s)) (shutdown_job g w limit i hn) (fun _ => G D).
  Proof.
    intro Hi. unfold shutdown_job.
    eapply V_bind with (R := fun _ s => ends (eq i) none D s /\ (In i (grave s) /\ In i (kills (st_hist s)))).
    - apply V_act. intros s [H1 H2]. pose proof (e_keys _ _ _ _ H1 i Hi) as Hk. split; [|split].
      + destruct (G_hole i _ _ H1). unfold ended in *. split; unfold ended, noted; cbn; auto.
        * intros j Hj. apply in_nadd in Hj as [->|Hj]; auto.
        * intros j Hj Hx. apply in_nadd in Hj as [->|Hj]; [destruct (Hx eq_refl)| auto].
        * intros j v Hv Hx. apply in_nadd. eauto.
        * intros j v Hv. destruct (e_cause0 j v Hv) as [[]|H]; [left; eapply Own; eauto| left; apply Stopped; cbn; apply in_app_iff; auto|
            left; eapply Forced; eauto| left; eapply Failed; eauto| left; eapply Silent; eauto| auto].
        * intros j Hj. apply in_nadd. apply in_nadd in Hj as [->|Hj]; eauto.
        * intros j Hj. apply in_nadd. apply in_app_iff in Hj as [Hj|[->|[]]]; eauto.
        * intros Hn j v Hj Hv. apply in_app_iff in Hj as [Hj|[<-|[]]]; [eauto|].
          destruct H2. eapply e_buried; [exact H1| exact Hv| intros []].
      + cbn. apply in_nadd. auto.
      + cbn. apply in_app_iff. cbn. auto.
    - intros []. eapply V_bind with (R := fun _ s => ends (eq i) none D s /\ (In i (grave s) /\ In i (kills (st_hist s)))).
      + destruct (_ && _); [apply V_ret; auto|]. apply (V_send ck (eq i) none D (fun s => In i (grave s) /\ In i (kills (st_hist s)))).
        * intros s t [A B]. split; [apply (own_grave i); exact A| exact B].
        * intros s e [A B] He. split; [exact A|]. destruct e; try discriminate; exact B.
      + intros []. eapply V_post; [|apply (V_put_end ck (eq i) none D i _ (fun s => In i (grave s) /\ In i (kills (st_hist s))))].
        * intros _ s (A & [B _] & C). eapply ends_close; eauto.
        * reflexivity.
        * intros s [_ B]. split; [left; apply Stopped; exact B| auto].
        * auto.
  Qed.

  Lemma V_hunt_loop ck D hunter ids : incl ids D -> V ck (G D) (hunt_loop g w limit hunter ids) (fun _ => G D).
  Proof.
    induction ids as [|v ids IH]; intro Hi; cbn [hunt_loop]; [apply V_ret; auto|].
    assert (IH' := IH (fun x Hx => Hi x (or_intror Hx))). unfold in_grave.
    gc dead. gc pts. apply V_pre with (P := G D); [tauto|]. destruct (_ && _); [|exact IH'].
    eapply V_bind; [apply V_tick, good_ends|]. intro t. gc c. apply V_pre with (P := G D); [tauto|].
    eapply V_bind; [apply V_lift; intros s e Hs; eapply left_G; exact Hs|]. intro k. gc dead2.
    destruct (k && negb dead2) eqn:Ek; [|eapply V_pre; [|exact IH']; tauto].
    apply andb_true_iff in Ek as [_ Ek]. apply negb_true_iff in Ek.
    eapply V_bind; [eapply V_pre; [|apply V_shutdown; apply Hi; left; reflexivity]|].
    { intros s [H1 H2]. split; [exact H1|]. apply nmem_false. congruence. }
    intros []. eapply V_bind; [exact IH'|]. intro l. apply V_ret. auto.
  Qed.

  Lemma V_hunt ck D hunter : V ck (G D) (start_hunt g w limit hunter) (fun _ => G D).
  Proof.
    unfold start_hunt. eapply V_bind with (R := fun _ => G D).
    - apply V_act. intros [c h] H. eapply ends_same; [exact H|..]; auto.
    - intros []. unfold pack_ids. gc ids. eapply V_pre; [|eapply V_post; [|apply (V_hunt_loop ck (D ++ ids) hunter ids)]].
      + intros s [H1 H2]. apply incl_keys; assumption.
      + intros u s Hs. eapply G_fewer; [|exact Hs]. apply incl_appl, incl_refl.
      + apply incl_appr, incl_refl.
  Qed.

  (** *** Evaluations *)
  Lemma V_log ck D {A} (m : M logger A) : (forall l, l_traj l = true -> calm_log l (snd (m l))) ->
    (forall l e l', m l = (Err e, l') -> e <> CheckpointingError) -> V ck (G D) (logm m) (fun _ => G D).
  Proof.
    intros H1 H2 s Hs. pose proof (V_calm ck none none D (fun _ => True) m H1 H2 (fun _ _ _ _ => I) s (conj Hs I)) as H.
    destruct (logm m s) as [[a|e] s']; [apply H| exact H].
  Qed.
  Lemma G_mod D f s : G D s -> k_packs (f (st_core s)) = k_packs (st_core s) -> k_grave (f (st_core s)) = k_grave (st_core s) ->
    k_victims (f (st_core s)) = k_victims (st_core s) -> k_o (f (st_core s)) = k_o (st_core s) -> k_log (f (st_core s)) = k_log (st_core s) ->
    (k_chkpt (f (st_core s)) = true -> k_chkpt (st_core s) = true) -> G D (upd f s).
  Proof. destruct s as [c h]. intros H. intros. eapply ends_same; [exact H|..]; auto. Qed.

  Lemma V_share ck D b : V ck (G D) (share_loop w limit b) (fun _ => G D).
  Proof.
    unfold share_loop, pack_ids. gc ids. apply V_pre with (P := G D); [tauto|]. apply V_for_each. intros i _.
    destruct (_ =? _); [apply V_ret; auto|]. eapply V_bind; [apply V_alive', good_ends|]. intro a. destruct a; [apply V_send'| apply V_ret; auto].
  Qed.
  Lemma best_err l e : get_best_iter None l = Err e -> e <> CheckpointingError.
  Proof. unfold get_best_iter. destruct (nth_error _ _); [discriminate|]. intros [= <-]. discriminate. Qed.
  Lemma V_update ck D : V ck (G D) (update_best g w limit) (fun _ => G D).
  Proof.
    unfold update_best. eapply V_bind with (R := fun _ => G D).
    - intros s Hs. destruct (get_best_iter None (log s)) as [b|e] eqn:Eb; [exact Hs|]. eapply left_G; exact Hs.
    - intro b. gc old. apply V_pre with (P := G D); [tauto|]. eapply V_bind with (R := fun _ => G D).
      + destruct (_ && _); [apply V_share| apply V_ret; auto].
      + intros []. apply V_modc. intros s H. apply G_mod; auto.
  Qed.
  Lemma V_item ck D q : V ck (G D) (process_item g w limit q) (fun _ => G D).
  Proof.
    destruct q as [r|i]; cbn [process_item].
    - gc dead. apply V_pre with (P := G D); [tauto|]. destruct dead; [apply V_ret; auto|]. gc has0. apply V_pre with (P := G D); [tauto|].
      eapply V_bind with (R := fun _ => G D).
      { destruct has0; [apply V_ret; auto|]. eapply V_bind with (R := fun _ => G D).
        - destruct (ir_extras r); [apply V_ret; auto|]. eapply V_bind; [apply V_tick, good_ends|]. intro t.
          apply V_lift. intros s e Hs. eapply left_G; exact Hs.
        - intro hd. apply V_log; [intros; apply calm_hist| apply hist_err]. }
      intros []. eapply V_bind with (R := fun _ => G D).
      { unfold accept. eapply V_bind with (R := fun _ => G D).
        - apply V_act. intros [c h] H. eapply ends_same; [exact H|..]; auto.
        - intros []. apply V_log; [intros; apply calm_iter| apply iter_err]. }
      intros []. eapply V_bind; [apply V_update|]. intros []. gc c. apply V_pre with (P := G D); [tauto|]. cbn zeta.
      destruct (_ && _); [|apply V_ret; auto]. eapply V_bind; [apply V_hunt|]. intro. apply V_ret. auto.
    - gc org. apply V_pre with (P := G D); [tauto|]. destruct org as [[b ty]|]; [|apply V_ret; auto]. destruct (_ =? _); [apply V_ret; auto|].
      eapply V_bind; [apply V_log; [intros; apply calm_clear; assumption| apply clear_err]|]. intro. apply V_ret. auto.
  Qed.
  Lemma V_chunk ck D l : forall acc, V ck (G D) (process_chunk g w limit l acc) (fun _ => G D).
  Proof.
    induction l as [|q l IH]; intro acc; cbn [process_chunk]; [apply V_ret; auto|].
    eapply V_bind; [apply V_item|]. intro x. destruct acc as [[n cl] vs], x as [[n' cl'] vs']. apply IH.
  Qed.
  Lemma V_queue ck D : V ck (G D) (queue_get w limit) (fun _ => G D).
  Proof.
    unfold queue_get. eapply V_bind; [apply V_tick, good_ends|]. intro t. gc q. apply V_pre with (P := G D); [tauto|].
    destruct q as [|ch q]; [apply V_ret; auto|]. eapply V_bind with (R := fun _ => G D); [apply V_modc; intros s H; apply G_mod; auto|].
    intros []. apply V_ret. auto.
  Qed.
  Lemma V_process ck D max : V ck (G D) (process_results g w limit max) (fun _ => G D).
  Proof.
    unfold process_results. eapply V_bind with (R := fun _ => G D); [|intro x; apply V_ret; auto].
    generalize (match max with Some 0 => None | _ => max end). intro mx.
    generalize (S limit) (0, @nil nat, @nil nat). induction n as [|fuel IH]; intro acc; cbn [process_loop].
    - apply V_raise. intros s Hs. eapply left_G; exact Hs.
    - eapply V_bind with (R := fun _ => G D).
      { destruct mx; [apply V_ret; auto|]. eapply V_bind; [apply V_tick, good_ends|]. intro t. apply V_get. }
      intro go. destruct go; [|apply V_ret; auto]. eapply V_bind; [apply V_queue|]. intro o. destruct o as [ch|]; [|apply V_ret; auto].
      eapply V_bind; [apply V_chunk|]. intro x. apply IH.
  Qed.

  (** *** New optimizers *)
  Lemma V_setup D n : V false (G D) (setup_new_optimizer w limit n)
    (fun o s => G D s /\ forall i cls sl, o = Some (i, cls, sl) -> entry i (log s)).
  Proof.
    unfold setup_new_optimizer. eapply V_bind; [apply V_tick, good_ends|]. intro t.
    eapply V_bind with (R := fun _ => G D); [apply V_act; intros s H; apply ends_note; auto|]. intros [].
    gc c. apply V_pre with (P := G D); [tauto|].
    eapply V_bind; [apply V_lift; intros s e Hs; eapply left_G; exact Hs|]. intros [| |cf].
    - eapply V_bind with (R := fun _ => G D).
      + apply V_act. intros [c0 h] H. eapply ends_same; [exact H|..]; auto.
      + intros []. apply V_ret. intros s H. split; [exact H| discriminate].
    - apply V_ret. intros s H. split; [exact H| discriminate].
    - set (K := fun s => forall j, entry j (log s) -> j < k_o (st_core s)).
      assert (HK : good (fun s => G D s /\ K s)).
      { apply good_and; [apply good_ends|]. intros s t' H j. unfold K in H. cbn.
        rewrite (er_log _ _ _ (apply_moves_rel _ _)), (er_o _ _ _ (apply_moves_rel _ _)). apply H. }
      eapply V_bind with (R := fun _ s => G D s /\ K s).
      { apply V_modc. intros s H. split.
        - destruct H. unfold ended in *. split; unfold ended, upd; cbn; auto.
        - intros j Hj. cbn in *. apply (e_entry _ _ _ _ H) in Hj. lia. }
      intros []. eapply V_bind; [apply V_ext; [exact HK| intros s e [H _]; eapply left_G; exact H]|]. intros [].
      gc i. unfold add_to_log. eapply V_bind with (R := fun _ s => G D s /\ entry i (log s)).
      + eapply V_bind with (R := fun _ s => (G D s /\ K s) /\ i = k_o (st_core s)).
        * apply V_act. intros s [[H1 H2] H3]. splits; auto. apply ends_note; auto.
        * intros []. intros s [[H1 H2] H3]. unfold logm. destruct (add_optimizer i (cf_class cf) "now" (log s)) as [r l] eqn:E.
          assert (Hn : ~ entry i (log s)) by (intro Hi; specialize (H2 i Hi); lia).
          pose proof (add_new i (cf_class cf) "now" (log s) Hn) as A. rewrite E in A. cbn [snd] in A. destruct A as (A1 & A2 & A3 & A4).
          assert (HG : G D (upd (set_klog l) s)).
          { pose proof H1 as Hall. destruct H1. unfold ended in *. split; unfold ended, upd; cbn; auto; try congruence.
            - intros j Hj. apply A2. auto.
            - intros j Hj. apply A2 in Hj as [Hj| ->]; [auto|]. lia.
            - intros j Hj. apply A2. auto.
            - intros j Hj. rewrite A3, A4. auto.
            - intros j Hj Hx. rewrite A3, A4. auto.
            - intros j v. rewrite A3. eauto.
            - intros j v. rewrite A3. eauto.
            - intros Hc j v. rewrite A3. eauto. }
          unfold add_optimizer, modify in E. injection E as <- <-. split; [exact HG|]. cbn. apply A2. auto.
      + intros []. apply V_ret. intros s [H1 H2]. split; [exact H1|]. intros i' cls sl [= <- _ _]. exact H2.
  Qed.

  Lemma V_start D i cls sl : V false (fun s => G D s /\ entry i (log s)) (start_new_job w limit i cls sl) (fun _ => G D).
  Proof.
    unfold start_new_job.
    assert (HG : good (fun s => G D s /\ entry i (log s))) by (apply good_and; [apply good_ends| apply own_entry]).
    eapply V_bind; [apply V_ext; [exact HG| intros s e [H _]; eapply left_G; exact H]|]. intros [].
    eapply V_bind with (R := fun _ s => ends none (eq i) D s /\ In i (keys s)).
    { apply V_modc. intros s [H1 H2].
      assert (Hk : forall j, In j (dkeys (nset i (mkCh sl false 0 [] false true) (k_packs (st_core s)))) <-> In j (keys s) \/ j = i).
      { intro j. rewrite dkeys_nset. destruct (nmem i _) eqn:Em; [apply nmem_in in Em; intuition congruence|]. rewrite in_app_iff. cbn. intuition. }
      split; [|cbn; apply Hk; auto]. destruct H1. unfold ended in *. split; unfold ended, upd; cbn; auto.
      - apply NoDup_nset. assumption.
      - intros j Hj. apply Hk. auto.
      - intros j Hj. apply Hk in Hj as [Hj| ->]; auto.
      - intros j Hj. destruct (e_home0 j Hj); [left; apply Hk|]; auto.
      - intros j h m. rewrite nget_nset. destruct (Nat.eqb_spec j i) as [->|Hn]; [intros [= <-] []| eauto].
      - intros j h. rewrite nget_nset. destruct (Nat.eqb_spec j i) as [->|Hn]; [auto|]. intros Hg Ha. destruct (e_dead0 j h Hg Ha) as [[]|]; auto. }
    intros []. eapply V_bind; [apply V_ext; [apply good_and; [apply good_ends| apply own_keys]| intros s e [H _]; eapply left_out; exact H]|].
    intros []. apply V_act. intros s [H1 H2]. apply nget_some_in in H2 as [h0 Hh0].
    assert (Hk : dkeys (nset i (mkCh sl true 0 [] false true) (k_packs (st_core s))) = keys s) by (eapply dkeys_nset_old; exact Hh0).
    destruct H1. unfold ended in *. split; unfold ended, noted; cbn; rewrite ?Hk; auto.
    - intros j Hj. rewrite map_app, in_app_iff in Hj. destruct Hj as [Hj|[<-|[]]]; [auto|]. left. apply nget_some_in. eauto.
    - intros j v Hv. destruct (e_cause0 j v Hv) as [[]|]; [left; eapply Own; eauto| left; apply Stopped; auto|
        left; eapply Forced; eauto| left; eapply Failed; eauto| left; eapply Silent; eauto| auto].
    - intros j h m. rewrite nget_nset. destruct (Nat.eqb_spec j i) as [->|Hn]; [intros [= <-] []| eauto].
    - intros j h. rewrite nget_nset. destruct (Nat.eqb_spec j i) as [->|Hn]; [intros [= <-]; discriminate|].
      intros Hg Ha. destruct (e_dead0 j h Hg Ha) as [->|]; [contradiction| auto].
  Qed.

  Lemma V_living ck D ids : V ck (G D) (living w limit ids) (fun _ => G D).
  Proof.
    induction ids as [|i ids IH]; cbn [living]; [apply V_ret; auto|]. eapply V_bind; [apply V_alive', good_ends|]. intro b.
    eapply V_bind; [exact IH|]. intro l. apply V_ret. auto.
  Qed.

  Lemma V_fill D : V false (G D) (fill_slots g w limit) (fun _ => G D).
  Proof.
    assert (Hf : forall fuel n b, V false (G D) (fill_loop g w limit fuel n b) (fun _ => G D)).
    { induction fuel as [|fuel IH]; intros n b; cbn [fill_loop]; [apply V_raise; intros s H; eapply left_G; exact H|].
      gc sp. apply V_pre with (P := G D); [tauto|]. destruct (_ && _); [|apply V_ret; auto].
      eapply V_bind; [apply V_setup|]. intro o. destruct o as [[[i cls] sl]|]; [|apply V_ret; tauto].
      eapply V_bind; [eapply V_pre; [|apply V_start]|]. { intros s [H1 H2]. split; [exact H1| eapply H2; reflexivity]. }
      intros []. apply IH. }
    unfold fill_slots, pack_ids. gc ids. apply V_pre with (P := G D); [tauto|].
    eapply V_bind; [apply V_living|]. intro l. gc count. gc bad. apply V_pre with (P := G D); [tauto|].
    destruct bad; [apply V_raise; intros s H; eapply left_G; exact H|].
    eapply V_bind; [apply Hf|]. intro st. gc ids2. apply V_pre with (P := G D); [tauto|]. eapply V_bind; [apply V_living|]. intro l2.
    destruct st.
    - apply V_modc. intros s H. apply G_mod; [exact H|..]; destruct (_ =? _); auto.
    - destruct (_ =? _); [apply V_raise; intros s H; eapply left_G; exact H| apply V_ret; auto].
  Qed.

  (** *** Requests and checkpoints *)
  Lemma V_manual D : V false (G D) (manual_shutdowns g w limit) (fun _ => G D).
  Proof.
    unfold manual_shutdowns. eapply V_bind; [apply V_tick, good_ends|]. intro t. gc files. apply V_pre with (P := G D); [tauto|].
    apply V_for_each. intros name _. unfold manual_shutdown. destruct (stop_id name) as [z|]; [|apply V_ret; auto]. cbn zeta.
    set (i := Z.to_nat z). gc kn. destruct kn; [|apply V_ret; tauto].
    apply V_pre with (P := fun s => G (D ++ [i]) s /\ ~ In i (grave s)).
    { intros s [H1 H2]. symmetry in H2. apply andb_true_iff in H2 as [H2 Hg]. apply andb_true_iff in H2 as [_ Hd].
      apply nmemd_true in Hd. apply negb_true_iff, nmem_false in Hg. split; [|exact Hg].
      destruct H1. split; auto. apply incl_app; [assumption|]. intros x [<-|[]]. exact Hd. }
    eapply V_bind with (R := fun _ s => G (D ++ [i]) s /\ ~ In i (grave s)).
    - apply V_modc. intros s [H1 H2]. split; [apply G_mod; auto| exact H2].
    - intros []. eapply V_post; [|apply V_shutdown; apply in_app_iff; right; left; reflexivity].
      intros u s H. eapply G_fewer; [|exact H]. apply incl_appl, incl_refl.
  Qed.

  Section Checkpoint.
    Context (Hck : ~ no_checkpoints g w) (D : list nat).
    Notation VG m := (V true (G D) m (fun _ => G D)).

    Lemma V_pause ids : VG (pause_all w limit ids).
    Proof.
      induction ids as [|i ids IH]; cbn [pause_all]; [apply V_ret; auto|]. eapply V_bind; [apply V_alive', good_ends|]. intro a.
      eapply V_bind with (R := fun _ => G D); [destruct a; [apply V_send'| apply V_ret; auto]|]. intros [].
      eapply V_bind; [exact IH|]. intro. apply V_ret. auto.
    Qed.

    Lemma V_sync_one i x : VG (sync_one w limit i x).
    Proof.
      unfold sync_one. destruct x as [[no wait] live]. eapply V_bind; [apply V_alive', good_ends|]. intro a. destruct a; [|apply V_ret; auto].
      eapply V_bind; [apply V_tick, good_ends|]. intro t. gc h.
      destruct h as [h|]; [|apply V_raise; intros s [H _]; eapply left_G; exact H].
      destruct (c_sigs h) as [|sg sgs] eqn:Es.
      { destruct (c_closed h); [apply V_raise; intros s [H _]; eapply left_G; exact H| apply V_ret; tauto]. }
      eapply V_bind with (R := fun _ s => G D s /\ (In i (keys s) /\ forall m, sg = SDone m -> exists t, In (MSig i (SDone m)) (w_moves w t))).
      { apply V_modc. intros s [H1 Hh]. symmetry in Hh. splits; auto.
        - eapply ends_child; [exact H1| exact Hh| cbn; rewrite Es; intros x Hx; right; exact Hx| cbn; auto].
        - cbn. erewrite dkeys_nset_old by exact Hh. apply nget_some_in. eauto.
        - intros m ->. eapply e_sigs; [exact H1| exact Hh|]. rewrite Es. left. reflexivity. }
      intros []. destruct sg as [m|m| |].
      - eapply V_bind with (R := fun _ s => ends (eq i) none D s /\ In i (keys s) /\ ended i s).
        + eapply V_pre; [|eapply V_post; [|apply (V_put_end true (eq i) none D i m (fun s => In i (keys s) /\
              exists t, In (MSig i (SDone m)) (w_moves w t)))]].
          * intros s (H1 & H2 & H3). split; [apply G_hole; exact H1|]. auto.
          * intros u s (H1 & (H2 & _) & H4). auto.
          * reflexivity.
          * intros s (_ & t' & Ht). split; [left; eapply Own; exact Ht| intro; contradiction].
          * auto.
        + intros []. eapply V_bind with (R := fun _ => G D); [|intros []; apply V_ret; auto].
          apply V_modc. intros s (H1 & H3 & H4).
          assert (H5 : ends (eq i) none D (upd (bury i) s)) by (apply ends_bury; assumption).
          assert (H6 : G D (upd (bury i) s)) by (apply (ends_close none D _ i H5); [cbn; apply in_nadd; auto| exact H4]).
          destruct s as [c hh]. eapply ends_same; [exact H6|..]; auto.
      - apply V_raise. intros s [H _]. eapply left_G; exact H.
      - eapply V_bind with (R := fun _ => G D); [apply V_act; intros s [H _]; apply ends_note; auto|]. intros []. apply V_ret. auto.
      - apply V_raise. intros s [H _]. eapply left_G; exact H.
    Qed.

    Lemma V_sync_round ids : forall x, VG (sync_round w limit ids x).
    Proof. induction ids as [|i ids IH]; intro x; cbn [sync_round]; [apply V_ret; auto|]. eapply V_bind; [apply V_sync_one|]. intro. apply IH. Qed.
    Lemma V_sync fuel n : forall x, VG (sync_loop g w limit fuel n x).
    Proof.
      induction fuel as [|fuel IH]; intros [[no wait] live]; cbn [sync_loop]; [apply V_raise; intros s H; eapply left_G; exact H|].
      destruct wait as [|i wait]; [apply V_ret; auto|]. eapply V_bind; [apply V_tick, good_ends|]. intro t.
      eapply V_bind with (R := fun _ => G D).
      { destruct (w_full w t); [|apply V_ret; auto]. eapply V_bind; [apply V_process|]. intro. apply V_ret. auto. }
      intro no'. eapply V_bind; [apply V_sync_round|]. intro y. apply IH.
    Qed.
    Lemma V_hold_round ids : VG (hold_round w limit ids).
    Proof.
      induction ids as [|i ids IH]; cbn [hold_round]; [apply V_ret; auto|]. eapply V_bind; [apply V_tick, good_ends|]. intro t.
      gc r. apply V_pre with (P := G D); [tauto|]. eapply V_bind; [exact IH|]. intro. apply V_ret. auto.
    Qed.
    Lemma V_hold fuel : forall ids, VG (hold_loop w limit fuel ids).
    Proof.
      induction fuel as [|fuel IH]; intro ids; cbn [hold_loop]; [apply V_raise; intros s H; eapply left_G; exact H|].
      destruct ids; [apply V_ret; auto|]. eapply V_bind; [apply V_hold_round|]. intro. apply IH.
    Qed.
    Lemma V_optimizers : VG (checkpoint_optimizers g w limit).
    Proof.
      unfold checkpoint_optimizers, pack_ids. gc ids. apply V_pre with (P := G D); [tauto|]. eapply V_bind; [apply V_pause|]. intro msd.
      eapply V_bind; [apply V_sync|]. intros [[no wt] live]. eapply V_bind; [apply V_process|]. intro pr. cbn zeta.
      eapply V_bind; [apply V_tick, good_ends|]. intro t. gc em. apply V_pre with (P := G D); [tauto|].
      eapply V_bind with (R := fun _ => G D); [destruct em; [apply V_ret; auto| apply V_raise; intros s H; eapply left_G; exact H]|]. intros [].
      eapply V_bind; [apply V_ext; [apply good_ends| intros s e H; eapply left_G; exact H]|]. intros [].
      eapply V_bind with (R := fun _ => G D).
      { apply V_for_each. intros i _. unfold save_one. eapply V_bind; [apply V_alive', good_ends|]. intro a.
        destruct a; [destruct (nmem _ _); apply V_send'| apply V_ret; auto]. }
      intros []. eapply V_bind; [apply V_hold|]. intros []. apply V_for_each. intros i _. unfold confirm_one.
      eapply V_bind; [apply V_tick, good_ends|]. intro t2. destruct (w_saved w t2 i); [apply V_ret; auto| apply V_raise; intros s H; eapply left_G; exact H].
    Qed.
  End Checkpoint.

  Lemma V_checkpoint : ~ no_checkpoints g w -> V false (G []) (checkpoint g w limit) (fun _ => G []).
  Proof.
    intro Hck. unfold checkpoint. eapply V_bind; [apply V_ext; [apply good_ends| intros s e H; eapply left_G; exact H]|]. intros [].
    eapply V_bind with (R := fun _ => G []).
    { intros s Hs. unfold try_except.
      match goal with |- context [match ?m s with _ => _ end] => set (body := m); assert (Hm : V true (G []) body (fun _ => G [])) end.
      { unfold body. eapply V_bind; [apply V_ext; [apply good_ends| intros s' e H; eapply left_G; exact H]|]. intros [].
        eapply V_bind with (R := fun _ => G []); [apply V_act; intros s' H; apply ends_note; auto|]. intros [].
        eapply V_bind; [apply V_optimizers; exact Hck|]. intros [].
        eapply V_bind; [apply V_ext; [apply good_ends| intros s' e H; eapply left_G; exact H]|]. intros [].
        eapply V_bind with (R := fun _ => G []); [apply V_act; intros s' H; apply ends_note; auto|]. intros [].
        apply V_ext; [apply good_ends| intros s' e H; eapply left_G; exact H]. }
      specialize (Hm s Hs). destruct (body s) as [[[]|e] s']; [exact Hm|].
      destruct Hm as [H1 H2]. destruct e; try (split; [exact H1| discriminate]).
      destruct (g_raise_fail g); [split; [exact H1| discriminate]| apply H2; reflexivity]. }
    intros []. gc conv. apply V_pre with (P := G []); [tauto|]. eapply V_bind with (R := fun _ => G []).
    { destruct conv; [|apply V_ret; auto]. unfold pack_ids. gc ids. apply V_pre with (P := G []); [tauto|]. apply V_for_each. intros i _.
      eapply V_bind; [apply V_alive', good_ends|]. intro a. destruct a; [apply V_send'| apply V_ret; auto]. }
    intros []. unfold pack_ids. gc ids. apply V_pre with (P := G []); [tauto|]. apply V_for_each. intros i _. unfold toggle_one.
    eapply V_bind; [apply V_alive', good_ends|]. intro a. destruct a; [|apply V_ret; auto].
    apply V_modc. intros s H. destruct (nget i (k_packs (st_core s))) as [h|] eqn:E.
    - assert (Hc : G [] (upd (fun c => set_kpacks (nset i (mkCh (c_slots h) (c_alive h) (c_code h) (c_sigs h) (c_closed h) true) (k_packs c)) c) s)).
      { eapply ends_child; [exact H| exact E| apply incl_refl| auto]. }
      unfold upd in *. rewrite E. exact Hc.
    - apply G_mod; rewrite ?E; auto.
  Qed.

  Lemma V_purge i : V false (G []) (purge_one w limit i) (fun _ => G []).
  Proof.
    unfold purge_one, in_grave. eapply V_bind; [apply V_alive', good_ends|]. intro a. gc b.
    destruct (negb a && b) eqn:Eb; [|apply V_ret; tauto]. apply andb_true_iff in Eb as [_ ->].
    apply V_modc. intros s [H1 H2]. symmetry in H2. apply nmem_in in H2.
    pose proof (e_grave _ _ _ _ H1 i H2 (fun x => x)) as He.
    destruct H1. unfold ended in *. split; unfold ended, upd; cbn; auto.
    - apply NoDup_ndel. assumption.
    - intros j [].
    - intros j Hj. apply e_packs0. eapply in_dkeys_ndel; exact Hj.
    - intros j Hj. destruct (Nat.eq_dec j i) as [->|Hn]; [auto|]. destruct (e_home0 j Hj) as [Hk|]; [|auto]. left.
      apply nget_some_in in Hk as [h Hh]. apply nget_some_in. exists h. rewrite nget_ndel_other; auto.
    - intros j h m Hg. apply e_sigs0. destruct (Nat.eq_dec j i) as [->|Hn]; [rewrite nget_ndel_same in Hg by assumption; discriminate| rewrite nget_ndel_other in Hg by exact Hn; exact Hg].
    - intros j h Hg. apply e_dead0. destruct (Nat.eq_dec j i) as [->|Hn]; [rewrite nget_ndel_same in Hg by assumption; discriminate| rewrite nget_ndel_other in Hg by exact Hn; exact Hg].
  Qed.

  (** *** The loop *)
  Lemma V_manual_chk : V false (G []) (manual_checkpoints g w limit) (fun _ => G []).
  Proof.
    unfold manual_checkpoints. eapply V_bind; [apply V_tick, good_ends|]. intro t. gc b. destruct b; [|apply V_ret; tauto].
    intros s [H1 H2].
    assert (Hck : ~ no_checkpoints g w) by (intro Hn; rewrite (e_chk _ _ _ _ H1 Hn) in H2; discriminate).
    revert s H1 H2. intros s H1 _. revert s H1. eapply V_bind with (R := fun _ => G []); [apply V_modc; intros s H; apply G_mod; auto; discriminate|].
    intros []. apply V_checkpoint. exact Hck.
  Qed.

  Lemma V_periodic : V false (G []) (periodic_checkpoint g w limit) (fun _ => G []).
  Proof.
    unfold periodic_checkpoint. destruct (g_chk g) eqn:E; [|apply V_ret; auto].
    assert (Hck : ~ no_checkpoints g w) by (intros [Hn _]; congruence).
    eapply V_bind; [apply V_tick, good_ends|]. intro t. gc c. apply V_pre with (P := G []); [tauto|].
    destruct (w_time_chk w t); [apply V_checkpoint; exact Hck|]. destruct (g_iter_freq g); [|apply V_ret; auto].
    destruct (_ <? _); [|apply V_ret; auto].
    eapply V_bind with (R := fun _ => G []); [apply V_modc; intros s H; apply G_mod; auto|]. intros []. apply V_checkpoint. exact Hck.
  Qed.

  Lemma V_iteration : V false (G []) (iteration g w limit) (fun _ => G []).
  Proof.
    unfold iteration, pack_ids.
    eapply V_bind with (R := fun _ => G []); [apply V_act; intros s H; apply ends_note; auto|]. intros [].
    eapply V_bind; [apply V_fill|]. intros []. gc ids. apply V_pre with (P := G []); [tauto|].
    eapply V_bind.
    { apply V_for_each. intros i _. eapply V_bind; [apply V_signals'|]. intro. apply V_ret. auto. }
    intros []. eapply V_bind; [apply V_process|]. intro. eapply V_bind; [apply V_manual|]. intros [].
    eapply V_bind; [apply V_manual_chk|]. intros []. eapply V_bind; [apply V_inspect|]. intros [].
    gc ids2. apply V_pre with (P := G []); [tauto|]. eapply V_bind; [apply V_for_each; intros; apply V_purge|]. intros [].
    gc ids3. apply V_pre with (P := G []); [tauto|]. eapply V_bind; [apply V_living|]. intro l. cbn zeta.
    eapply V_bind with (R := fun _ => G []).
    { unfold checker_call. eapply V_bind; [apply V_tick, good_ends|]. intro t. gc c. apply V_pre with (P := G []); [tauto|].
      apply V_lift. intros s e H. eapply left_G; exact H. }
    intro chk. eapply V_bind with (R := fun _ => G []).
    { apply V_act. intros [c h] H. eapply ends_same; [exact H|..]; auto. }
    intros []. eapply V_bind; [apply V_periodic|]. intros []. apply V_ret. auto.
  Qed.

  Lemma V_main fuel : forall r, V false (G []) (main_loop g w limit fuel r) (fun _ => G []).
  Proof.
    induction fuel as [|fuel IH]; intro r; cbn [main_loop]; [apply V_raise; intros s H; eapply left_G; exact H|].
    gc conv. apply V_pre with (P := G []); [tauto|]. destruct conv; [apply V_ret; auto|].
    eapply V_bind; [apply V_iteration|]. intro. apply IH.
  Qed.

  (** *** The end *)
  Notation W := (ends every every []).
  Definition held (ids : list nat) (s : mstate) : Prop := W s /\ keys s = ids.
  Definition halt (e : exn) (s : mstate) : Prop := W s /\ (e = OutOfFuel \/ e = KeyboardInterrupt /\ exists t, w_intr w t = true).
  (** [b]: exceptions are caught around. *)
  Definition U (b : bool) (ids : list nat) (P : mstate -> Prop) {A} (m : M mstate A) (Q : mstate -> Prop) : Prop :=
    forall s, P s -> match m s with
    | (Ok _, s') => Q s'
    | (Err e, s') => halt e s' \/ (b = true /\ is_exception e = true /\ held ids s')
    end.

  Lemma U_bind b ids P {A B} (m : M mstate A) (f : A -> M mstate B) R Q : U b ids P m R -> (forall a, U b ids R (f a) Q) -> U b ids P (bind m f) Q.
  Proof. intros H1 H2 s Hs. unfold bind. specialize (H1 s Hs). destruct (m s) as [[a|e] s']; [apply H2|]; exact H1. Qed.
  Lemma U_ret b ids P {A} (a : A) : U b ids P (ret a) P.
  Proof. intros s Hs. exact Hs. Qed.
  Lemma U_getc b ids (P : mstate -> Prop) {A B} (f : core -> A) (k : A -> M mstate B) Q :
    (forall a, U b ids (fun s => P s /\ a = f (st_core s)) (k a) Q) -> U b ids P (bind (getc f) k) Q.
  Proof. intros H s Hs. apply (H (f (st_core s)) s). auto. Qed.
  Lemma U_pre b ids (P P' : mstate -> Prop) {A} (m : M mstate A) Q : (forall s, P' s -> P s) -> U b ids P m Q -> U b ids P' m Q.
  Proof. intros H1 H2 s Hs. apply H2. auto. Qed.
  Lemma U_tick b ids P : good P -> U b ids P (tick w limit) P.
  Proof.
    intros [H1 H2] s Hs. unfold tick. destruct (Nat.leb _ _); [left; split; auto|].
    pose proof (H2 s (k_tick (st_core s)) Hs) as H3. destruct (w_intr w _) eqn:E; [|exact H3].
    left. split; [apply H1; exact H3| eauto].
  Qed.
  Lemma U_alive b ids P i : good P -> U b ids P (is_alive w limit i) P.
  Proof. intro HP. unfold is_alive. eapply U_bind; [apply U_tick; exact HP|]. intros t s Hs. exact Hs. Qed.
  Lemma U_for_each b ids (P : mstate -> Prop) {A} (l : list A) (f : A -> M mstate unit) :
    (forall a, In a l -> U b ids P (f a) P) -> U b ids P (for_each l f) P.
  Proof.
    intro H. induction l as [|a l IH]; cbn; [apply U_ret|].
    eapply U_bind; [apply H; left; reflexivity|]. intros []. apply IH. intros c Hc. apply H. right. exact Hc.
  Qed.
  Lemma U_try ids (m : M mstate unit) : U true ids (held ids) m (held ids) ->
    U false ids (held ids) (try_except m is_exception (fun _ => ret tt)) (held ids).
  Proof.
    intros H s Hs. unfold try_except. specialize (H s Hs). destruct (m s) as [[[]|e] s']; [exact H|].
    destruct (is_exception e) eqn:E; destruct H as [H|(_ & H1 & H2)]; try congruence; auto.
    destruct H as [_ [->|[-> _]]]; discriminate.
  Qed.

  Lemma good_held ids : good (held ids).
  Proof.
    split; [intros s [H _]; exact H|]. intros s t [H1 H2]. split; [apply ends_env; exact H1|].
    cbn. rewrite (er_keys _ _ _ (apply_moves_rel _ _)). exact H2.
  Qed.
  Lemma U_send ids i m : U true ids (held ids) (send w limit i m) (held ids).
  Proof.
    unfold send. eapply U_bind; [apply U_tick, good_held|]. intro t. apply U_getc. intro h. apply U_pre with (P := held ids); [tauto|].
    destruct h as [h|]; [destruct (c_closed h)|]; intros s Hs; cbn; auto.
    destruct Hs as [H1 H2]. split; [apply (ends_note _ _ _ s (EvSend i m) eq_refl H1)| exact H2].
  Qed.
  Lemma U_drain ids fuel : U true ids (held ids) (drain_loop w limit fuel) (held ids).
  Proof.
    induction fuel as [|fuel IH]; cbn [drain_loop]; [intros s [H _]; left; split; auto|].
    eapply U_bind with (R := held ids); [|intros [x|]; [exact IH| apply U_ret]].
    unfold queue_get. eapply U_bind; [apply U_tick, good_held|]. intro t. apply U_getc. intro q. apply U_pre with (P := held ids); [tauto|].
    destruct q as [|ch q]; [apply U_ret|]. eapply U_bind with (R := held ids); [|intros []; apply U_ret].
    intros [c h] [H1 H2]. split; [|exact H2]. eapply ends_same; [exact H1|..]; auto.
  Qed.

  Definition final (why : option string) : string := match why with Some m => m | None => "GloMPO Convergence" end.
  Lemma W_bury s i : W s -> In i (keys s) -> W (upd (bury i) s).
  Proof.
    intros [] Hk. unfold ended in *. split; unfold ended, upd; cbn; auto.
    - intros j Hj. apply in_nadd in Hj as [->|Hj]; auto.
    - intros j Hj Hx. destruct (Hx I).
    - intros j v Hv Hx. destruct (Hx I).
    - intros j Hj. apply in_nadd. eauto.
    - intros j Hj. apply in_nadd. eauto.
  Qed.

  Lemma U_put_end ids why i done : F (final why) -> In i ids ->
    U false ids (fun s => held ids s /\ forall j, In j done -> ended j s) (put_end i (final why))
      (fun s => held ids s /\ forall j, In j (i :: done) -> ended j s).
  Proof.
    intros HF Hi s [[H1 H2] H3].
    pose proof (V_put_end false every every [] i (final why)
      (fun s => keys s = ids /\ F (final why)) I) as Hp.
    assert (He : forall j, In j done -> ended j (snd (put_end i (final why) s))).
    { intros j Hj. specialize (H3 j Hj). unfold put_end, bind, logm.
      destruct (put_metadata i "t_stop" "now" (log s)) as [[[]|e] l] eqn:E; pose proof (calm_stop i "now" (log s)) as C; rewrite E in C; cbn [snd] in C.
      - cbn. destruct (put_metadata i "end_cond" (final why) l) as [r l2] eqn:E2.
        pose proof (put_endc _ _ _ _ _ E2) as (C1 & C2 & C3 & C4 & C5 & C6). destruct C as [D1 D2 D3 D4]. unfold ended in *. cbn in *.
        destruct H3 as [S1 S2]. split; [apply C3, D4, S1|]. destruct (Nat.eq_dec j i) as [->|Hn]; [|rewrite C4, D3 by exact Hn; exact S2].
        destruct C5 as [-> | ->]; [rewrite D3; exact S2| reflexivity].
      - cbn. destruct C as [D1 D2 D3 D4]. unfold ended in *. cbn. rewrite D3. destruct H3. auto. }
    assert (Hok : forall e s', put_end i (final why) s <> (Err e, s')).
    { assert (Hen : entry i (log s)) by (apply (e_packs _ _ _ _ H1); rewrite H2; exact Hi).
      unfold put_end, bind, logm. intros e s'.
      destruct (put_metadata i "t_stop" "now" (log s)) as [r l] eqn:E. pose proof (calm_stop i "now" (log s)) as C. rewrite E in C. cbn [snd] in C.
      unfold put_metadata in E. apply nget_some_in in Hen as [en En]. rewrite En in E. injection E as <- El. cbn.
      destruct (put_metadata i "end_cond" (final why) l) as [r2 l2] eqn:E2. unfold put_metadata in E2.
      destruct C as [_ D2 _ _]. assert (Hen : entry i l) by (apply D2; apply nget_some_in; eauto). apply nget_some_in in Hen as [en2 En2].
      rewrite En2 in E2. injection E2 as <- _. discriminate. }
    assert (HK : forall s, keys s = ids /\ F (final why) -> (end_cause g w (st_hist s) i (final why) \/ F (final why)) /\
      (no_checkpoints g w -> ~ In i (kills (st_hist s)) \/ final why = "GloMPO Termination" \/ final why = "Forced GloMPO Termination" \/ F (final why))).
    { intros s0 [_ Hf]. split; auto. }
    specialize (Hp HK (fun s0 l H => H) s (conj H1 (conj H2 HF))).
    destruct (put_end i (final why) s) as [[[]|e] s'] eqn:E; [|destruct (Hok e s' eq_refl)].
    destruct Hp as (P1 & (P2 & _) & P3). cbn [snd] in He. split; [split; assumption|]. intros j [<-|Hj]; auto.
  Qed.

  Lemma U_stop_one ids why i done : F (final why) -> In i ids ->
    U false ids (fun s => held ids s /\ forall j, In j done -> ended j s) (stop_one w limit why i)
      (fun s => held ids s /\ forall j, In j (i :: done) -> ended j s).
  Proof.
    intros HF Hi. unfold stop_one. apply U_getc. intro b.
    assert (Hg : good (fun s => held ids s /\ forall j, In j (i :: done) -> ended j s)).
    { apply good_and; [apply good_held|]. intros s t H j Hj. apply own_ended, H, Hj. }
    eapply U_bind with (R := fun s => held ids s /\ forall j, In j (i :: done) -> ended j s).
    - destruct b.
      + intros s [[H1 H2] H3]. cbn. split; [exact H1|]. intros j [<-|Hj]; [|auto]. symmetry in H3. apply andb_true_iff in H3 as [A B].
        split; assumption.
      + apply U_pre with (P := fun s => held ids s /\ forall j, In j done -> ended j s); [tauto|].
        eapply U_bind; [|intros []; apply U_put_end; assumption].
        intros s [[H1 H2] H3]. cbn. split; [|exact H3]. split; [|exact H2]. apply W_bury; [exact H1| rewrite H2; exact Hi].
    - intros u. eapply U_bind; [apply U_alive; exact Hg|]. intro a. destruct a; [|apply U_ret].
      eapply U_bind; [apply U_tick; exact Hg|]. intro t. eapply U_bind; [apply U_alive; exact Hg|]. intro. apply U_ret.
  Qed.

  Definition all_ended (s : mstate) : Prop := W s /\ forall i, In i (map fst (starts (st_hist s))) -> ended i s.

  Lemma U_stop_all why s : F (final why) -> W s -> match stop_all_children w limit why s with
    | (Ok _, s') => all_ended s' | (Err e, s') => halt e s' end.
  Proof.
    intros HF HW.
    assert (H : U false (keys s) (held (keys s)) (stop_all_children w limit why)
      (fun s' => held (keys s) s' /\ forall j, In j (keys s) -> ended j s')).
    { unfold stop_all_children, pack_ids. apply U_getc. intro ids.
      intros s0 [Hs0 Hids]. assert (ids = keys s) as -> by (rewrite Hids; apply Hs0). clear Hids. revert s0 Hs0.
      change (U false (keys s) (held (keys s)) (try_except
        (for_each (keys s) (fun i => a <- is_alive w limit i ;; if a : bool then send w limit i (match why with Some _ => OCrash | None => OStop end) else ret tt))
        is_exception (fun _ => ret tt) ;;; try_except (drain_loop w limit (S limit)) is_exception (fun _ => ret tt) ;;;
        for_each (keys s) (stop_one w limit why)) (fun s' => held (keys s) s' /\ forall j, In j (keys s) -> ended j s')).
      eapply U_bind; [apply U_try, U_for_each|].
      { intros i _. eapply U_bind; [apply U_alive, good_held|]. intro a. destruct a; [apply U_send| apply U_ret]. }
      intros []. eapply U_bind; [apply U_try, U_drain|]. intros [].
      assert (Hl : forall l done, incl l (keys s) -> U false (keys s) (fun s' => held (keys s) s' /\ forall j, In j done -> ended j s')
        (for_each l (stop_one w limit why)) (fun s' => held (keys s) s' /\ forall j, In j (l ++ done) -> ended j s')).
      { induction l as [|i l IH]; intros done Hl; cbn [for_each]; [apply U_ret|].
        eapply U_bind; [apply U_stop_one; [exact HF| apply Hl; left; reflexivity]|]. intros [] s0 H0.
        specialize (IH (i :: done) (fun x Hx => Hl x (or_intror Hx)) s0 H0).
        destruct (for_each l (stop_one w limit why) s0) as [[a|e] s1]; [|exact IH]. destruct IH as [A B]. split; [exact A|].
        intros j Hj. apply B. cbn in Hj. rewrite in_app_iff in *. cbn. tauto. }
      intros s0 H0. specialize (Hl (keys s) [] (incl_refl _) s0 (conj H0 (fun j (Hj : In j []) => match Hj with end))).
      destruct (for_each (keys s) _ s0) as [[a|e] s1]; [|exact Hl]. destruct Hl as [A B]. split; [exact A|].
      intros j Hj. apply B. apply in_app_iff. auto. }
    specialize (H s (conj HW eq_refl)). destruct (stop_all_children w limit why s) as [[a|e] s'].
    - destruct H as [[A B] C]. split; [exact A|]. intros i Hi. destruct (e_home _ _ _ _ A i Hi) as [Hk|]; [|assumption].
      apply C. rewrite <- B. exact Hk.
    - destruct H as [H|(H & _)]; [exact H| discriminate].
  Qed.

  Lemma ends_fresh : G [] (fresh true).
  Proof. split; cbn; try contradiction; try discriminate; auto; try (intros i []); try (intros; contradiction). constructor. Qed.

  Lemma finish_ended r s o s' : all_ended s -> finish r s = (o, s') -> all_ended s'.
  Proof.
    intros [H1 H2] E. unfold finish, bind, act in E. cbn in E. unfold logm, log_close, clear_cache in E. cbn in E.
    rewrite (e_traj _ _ _ _ H1) in E. cbn in E. injection E as _ <-. destruct s as [c h]. split.
    - eapply ends_same; [exact H1|..]; auto.
    - exact H2.
  Qed.
End Ends.

(** ** The run *)
Section Run.
  Context (g : config) (w : world) (limit : nat).
  Notation W F := (ends g w F every every []).

  Lemma ends_F (F F' : string -> Prop) X Y D s : (forall v, F v -> F' v) -> ends g w F X Y D s -> ends g w F' X Y D s.
  Proof.
    intros HF []. split; auto.
    - intros i v Hv. destruct (e_cause0 i v Hv); auto.
    - intros Hn i v Hi Hv. destruct (e_killed0 Hn i v Hi Hv) as [|[|]]; auto.
  Qed.

  Lemma V_body F s r : ends g w F none none [] s -> keys s = [] -> match run_body g w limit r s with
    | (Ok _, s') => F (final None) -> all_ended g w F s'
    | (Err e, s') => e <> OutOfFuel -> F (final None) \/ (forall t, w_intr w t = false) -> W F s' end.
  Proof.
    intros HG Hk. unfold run_body, pack_ids, getc, gets. unfold bind at 1. rewrite Hk. cbn [for_each].
    unfold bind at 1. cbn [ret]. unfold bind at 1. pose proof (V_main g w limit F (S limit) r s HG) as Hm.
    destruct (main_loop g w limit (S limit) r s) as [[r'|e] s1]; [|intros _ _; apply Hm].
    unfold bind at 1.
    assert (Hc : V g w F false (ends g w F none none []) (if g_chk g && g_at_conv g then checkpoint g w limit else ret tt) (fun _ => ends g w F none none [])).
    { destruct (g_chk g) eqn:E; cbn; [|apply V_ret; auto]. destruct (g_at_conv g); [|apply V_ret; auto].
      apply V_checkpoint. intros [Hn _]. congruence. }
    specialize (Hc s1 Hm). destruct ((if g_chk g && g_at_conv g then checkpoint g w limit else ret tt) s1) as [[u|e] s2]; [|intros _ _; apply Hc].
    apply ends_every in Hc.
    unfold bind. pose proof (fun HF => U_stop_all g w limit F None s2 HF Hc) as Hs.
    pose proof (U_stop_all g w limit (fun _ => True) None s2 I (ends_F F (fun _ => True) _ _ _ _ (fun _ _ => I) Hc)) as Ht.
    destruct (stop_all_children w limit None s2) as [[v|e] s3]; [intro HF; exact (Hs HF)|].
    intros He [HF|Hi]; [apply (Hs HF)|]. destruct Ht as [_ [->|[_ [t Ht]]]]; [contradiction| rewrite Hi in Ht; discriminate].
  Qed.

  Lemma body_W (F : string -> Prop) s r : ends g w F none none [] s -> keys s = [] -> F (final None) -> W F (snd (run_body g w limit r s)).
  Proof.
    intros HG Hk HF. unfold run_body, pack_ids, getc, gets. unfold bind at 1. rewrite Hk. cbn [for_each].
    unfold bind at 1. cbn [ret]. unfold bind at 1. pose proof (V_main g w limit F (S limit) r s HG) as Hm.
    destruct (main_loop g w limit (S limit) r s) as [[r'|e] s1]; [|apply Hm].
    unfold bind at 1.
    assert (Hc : V g w F false (ends g w F none none []) (if g_chk g && g_at_conv g then checkpoint g w limit else ret tt) (fun _ => ends g w F none none [])).
    { destruct (g_chk g) eqn:E; cbn; [|apply V_ret; auto]. destruct (g_at_conv g); [|apply V_ret; auto].
      apply V_checkpoint. intros [Hn _]. congruence. }
    specialize (Hc s1 Hm). destruct ((if g_chk g && g_at_conv g then checkpoint g w limit else ret tt) s1) as [[u|e] s2]; [|apply Hc].
    apply ends_every in Hc. unfold bind. pose proof (U_stop_all g w limit F None s2 HF Hc) as Hs.
    destruct (stop_all_children w limit None s2) as [[v|e] s3]; apply Hs.
  Qed.

  (** The reason of a run that ends by itself. *)
  Lemma main_reason fuel : forall r s r1 s', main_loop g w limit fuel r s = (Ok r1, s') -> r1 = r \/ r1 = RChecker.
  Proof.
    induction fuel as [|fuel IH]; intros r s r1 s' E; cbn [main_loop] in E; [discriminate|]. unfold bind at 1, getc, gets in E.
    destruct (k_converged (st_core s)); [injection E as <- _; auto|]. unfold bind in E.
    destruct (iteration g w limit s) as [[chk|e] s1]; [|discriminate]. apply IH in E. destruct chk; tauto.
  Qed.
  Lemma body_reason r0 s : r0 = RDead \/ r0 = RNone -> forall r1, fst (run_body g w limit r0 s) = Ok r1 -> undisturbed r1.
  Proof.
    intros Hr0 r1. unfold run_body, bind. destruct (pack_ids s) as [[ids|e] s0]; [|discriminate].
    destruct (for_each ids (restart_one w limit) s0) as [[u|e] s1]; [|discriminate].
    destruct (main_loop g w limit (S limit) r0 s1) as [[r'|e] s2] eqn:E; [|discriminate].
    destruct ((if g_chk g && g_at_conv g then checkpoint g w limit else ret tt) s2) as [[v|e] s3]; [|discriminate].
    destruct (stop_all_children w limit None s3) as [[x|e] s4]; [|discriminate]. cbn. intros [= <-].
    apply main_reason in E as [H|H]; subst; unfold undisturbed; tauto.
  Qed.

  Lemma exn_fuel (e : exn) : e = OutOfFuel \/ e <> OutOfFuel.
  Proof. destruct e; auto; right; discriminate. Qed.
  Lemma finish_reason r s r' res s' : finish r s = (Ok (Some r', res), s') -> r' = r.
  Proof.
    intro E. unfold finish, bind, act in E. cbn in E. destruct (logm log_close _) as [[u1|e1] s5]; [|discriminate]. cbn in E.
    injection E as <- _ _. reflexivity.
  Qed.

  Lemma run_ended (F : string -> Prop) r res s : F (closing r) -> run g w limit true = (Ok (Some r, res), s) ->
    undisturbed r \/ (forall t, w_intr w t = false) \/ (r = RInterrupt /\ one_interrupt w /\ F (final None)) -> all_ended g w F s.
  Proof.
    intros HF. unfold run, start_manager.
    match goal with |- (bind ?m ?k) _ = _ -> _ => set (pre := m) end.
    set (K := fun s => ends g w F none none [] s /\ keys s = []).
    assert (Hgood : good g w F K) by (apply good_and; [apply good_ends| intros s0 t H; cbn; rewrite (er_keys _ _ _ (apply_moves_rel _ _)); exact H]).
    assert (Hset : forall b s0, K s0 -> K (upd (set_kconverged b) s0)) by (intros b s0 [H1 H2]; split; [apply G_mod; auto| exact H2]).
    assert (Hpre : K (snd (pre (fresh true)))).
    { assert (H0 : K (fresh true)) by (split; [apply ends_fresh| reflexivity]). revert H0. generalize (fresh true). intros s0 H0.
      unfold pre, try_except, checker_call, bind.
      assert (Ht : K (snd (tick w limit s0))).
      { unfold tick. destruct (Nat.leb _ _); [exact H0|]. pose proof (proj2 Hgood s0 (k_tick (st_core s0)) H0). destruct (w_intr w _); exact H. }
      destruct (tick w limit s0) as [[t|e] s1]; cbn in Ht.
      - cbn. destruct (w_check w t (st_core s1)) as [b|e]; cbn; [apply (Hset _ s1 Ht)|].
        destruct (is_exception e); cbn; [apply (Hset _ s1 Ht)| exact Ht].
      - destruct (is_exception e); cbn; [apply (Hset _ s1 Ht)| exact Ht]. }
    unfold bind at 1. destruct (pre (fresh true)) as [[o|e] s1]; [|discriminate]. cbn [snd] in Hpre.
    intros E Hu.
    assert (Hgo : forall r0, r0 = RDead \/ r0 = RNone -> (ext w limit ;;; fun s => match run_body g w limit r0 s with
                 | (Ok r, s1) => finish r s1
                 | (Err OutOfFuel, s1) => (Err OutOfFuel, s1)
                 | (Err e, s1) =>
                     match stop_all_children w limit (Some (crash_text e)) s1 with
                     | (Err OutOfFuel, s2) => (Err OutOfFuel, s2)
                     | (_, s2) => finish (match e with KeyboardInterrupt => RInterrupt | _ => RCrash e end) s2
                     end
                 end) s1 = (Ok (Some r, res), s) -> all_ended g w F s).
    { intros r0 Hr0 E0. unfold bind in E0.
      assert (Hx : V g w F false K (ext w limit) (fun _ => K)) by (apply V_ext; [exact Hgood| intros s' e [H _]; eapply left_G; exact H]).
      specialize (Hx s1 Hpre). destruct (ext w limit s1) as [[u|e] s2]; [|discriminate].
      pose proof (V_body F s2 r0 (proj1 Hx) (proj2 Hx)) as Hb. pose proof (body_reason r0 s2 Hr0) as Hn.
      pose proof (fun Hw => B_body g w limit Hw r0 s2) as HB.
      destruct (run_body g w limit r0 s2) as [[r1|e] s3]; cbn [fst snd] in Hn, HB.
      - pose proof (finish_reason _ _ _ _ _ E0) as ->. eapply finish_ended; [|exact E0]. apply Hb.
        specialize (Hn r1 eq_refl). destruct Hn as [ -> |[ -> | -> ]]; exact HF.
      - destruct (exn_fuel e) as [->|He]; [discriminate|].
        assert (E1 : match stop_all_children w limit (Some (crash_text e)) s3 with
           | (Err OutOfFuel, s4) => (Err OutOfFuel, s4)
           | (_, s4) => finish (match e with KeyboardInterrupt => RInterrupt | _ => RCrash e end) s4 end = (Ok (Some r, res), s)) by (destruct e; try exact E0; contradiction).
        clear E0.
        assert (Hr : r = match e with KeyboardInterrupt => RInterrupt | _ => RCrash e end).
        { destruct (stop_all_children w limit (Some (crash_text e)) s3) as [[u1|e1] s4]; [|destruct e1; try discriminate]; eapply finish_reason; exact E1. }
        destruct Hu as [Hu|[Hi|(Hi & Ho & HF3)]].
        + exfalso. rewrite Hr in Hu. unfold undisturbed in Hu. destruct e; destruct Hu as [|[|]]; discriminate.
        + assert (HF2 : F (crash_text e)) by (rewrite Hr in HF; destruct e; exact HF).
          pose proof (U_stop_all g w limit F (Some (crash_text e)) s3 HF2 (Hb He (or_intror Hi))) as Hs.
          destruct (stop_all_children w limit (Some (crash_text e)) s3) as [[u1|e1] s4]; [eapply finish_ended; eauto|].
          destruct Hs as [_ [Hs|[_ [t Ht]]]]; [subst e1; discriminate| rewrite Hi in Ht; discriminate].
        + assert (e = KeyboardInterrupt) as -> by (destruct e; congruence).
          assert (HF2 : F (crash_text KeyboardInterrupt)) by (rewrite Hr in HF; exact HF).
          pose proof (U_stop_all g w limit F (Some (crash_text KeyboardInterrupt)) s3 HF2 (Hb He (or_introl HF3))) as Hs.
          destruct (HB Ho) as [_ HB']. destruct (HB' eq_refl) as (t1 & T1 & T2).
          destruct (B_stop_all w limit (Some (crash_text KeyboardInterrupt)) s3) as [_ HS].
          destruct (stop_all_children w limit (Some (crash_text KeyboardInterrupt)) s3) as [[u1|e1] s4]; [eapply finish_ended; eauto|].
          destruct Hs as [_ [Hs|[-> _]]]; [subst e1; discriminate|]. destruct (HS eq_refl) as (t2 & T3 & T4).
          pose proof (oi_once _ Ho _ _ T2 T4). cbn [fst snd] in T3. lia. }
    destruct o as [[|]|]; [cbn in E; discriminate| eapply Hgo; [|exact E]; auto| eapply Hgo; [|exact E]; auto].
  Qed.

  (** Whatever happens. *)
  Definition closed (v : string) : Prop := v = "GloMPO Convergence" \/ v = "GloMPO Crash" \/ v = "User Interrupt".
  Lemma finish_W r s : W closed s -> W closed (snd (finish r s)).
  Proof.
    intro H. unfold finish, bind, act. cbn. unfold logm, log_close, clear_cache. cbn.
    rewrite (e_traj _ _ _ _ _ _ _ H). cbn. destruct s as [c h]. eapply ends_same; [exact H|..]; auto.
  Qed.
  Lemma run_W : W closed (snd (run g w limit true)).
  Proof.
    unfold run, start_manager.
    match goal with |- context [(bind ?m ?k) (fresh true)] => set (pre := m) end.
    set (K := fun s => ends g w closed none none [] s /\ keys s = []).
    assert (Hgood : good g w closed K) by (apply good_and; [apply good_ends| intros s0 t H; cbn; rewrite (er_keys _ _ _ (apply_moves_rel _ _)); exact H]).
    assert (Hset : forall b s0, K s0 -> K (upd (set_kconverged b) s0)) by (intros b s0 [H1 H2]; split; [apply G_mod; auto| exact H2]).
    assert (Hpre : K (snd (pre (fresh true)))).
    { assert (H0 : K (fresh true)) by (split; [apply ends_fresh| reflexivity]). revert H0. generalize (fresh true). intros s0 H0.
      unfold pre, try_except, checker_call, bind.
      assert (Ht : K (snd (tick w limit s0))).
      { unfold tick. destruct (Nat.leb _ _); [exact H0|]. pose proof (proj2 Hgood s0 (k_tick (st_core s0)) H0). destruct (w_intr w _); exact H. }
      destruct (tick w limit s0) as [[t|e] s1]; cbn in Ht.
      - cbn. destruct (w_check w t (st_core s1)) as [b|e]; cbn; [apply (Hset _ s1 Ht)|].
        destruct (is_exception e); cbn; [apply (Hset _ s1 Ht)| exact Ht].
      - destruct (is_exception e); cbn; [apply (Hset _ s1 Ht)| exact Ht]. }
    unfold bind at 1. destruct (pre (fresh true)) as [[o|e] s1]; cbn [snd] in Hpre; [|apply (ends_every _ _ _ _ _ _ _ (proj1 Hpre))].
    assert (Hgo : forall r0, W closed (snd ((ext w limit ;;; fun s => match run_body g w limit r0 s with
                 | (Ok r, s1) => finish r s1
                 | (Err OutOfFuel, s1) => (Err OutOfFuel, s1)
                 | (Err e, s1) =>
                     match stop_all_children w limit (Some (crash_text e)) s1 with
                     | (Err OutOfFuel, s2) => (Err OutOfFuel, s2)
                     | (_, s2) => finish (match e with KeyboardInterrupt => RInterrupt | _ => RCrash e end) s2
                     end
                 end) s1))).
    { intros r0. unfold bind.
      assert (Hx : V g w closed false K (ext w limit) (fun _ => K)) by (apply V_ext; [exact Hgood| intros s' e [H _]; eapply left_G; exact H]).
      specialize (Hx s1 Hpre). destruct (ext w limit s1) as [[u|e] s2]; [|apply Hx].
      pose proof (body_W closed s2 r0 (proj1 Hx) (proj2 Hx) (or_introl eq_refl)) as Hw.
      destruct (run_body g w limit r0 s2) as [[r1|e] s3]; cbn [snd] in Hw; [apply finish_W, Hw|].
      assert (HF : closed (crash_text e)) by (unfold closed; destruct e; cbn; auto).
      pose proof (U_stop_all g w limit closed (Some (crash_text e)) s3 HF Hw) as Hs.
      assert (Hf : forall r, W closed (snd (match stop_all_children w limit (Some (crash_text e)) s3 with
                     | (Err OutOfFuel, s2) => (Err OutOfFuel, s2) | (_, s2) => finish r s2 end))).
      { intro r. destruct (stop_all_children w limit (Some (crash_text e)) s3) as [[u1|e1] s4]; [apply finish_W, Hs|].
        destruct Hs as [Hs _]. destruct e1; try (apply finish_W, Hs). exact Hs. }
      destruct e; try apply Hf. exact Hw. }
    destruct o as [[|]|]; [apply (ends_every _ _ _ _ _ _ _ (proj1 Hpre))| apply Hgo| apply Hgo].
  Qed.

  (** Recorded ends are not overwritten at the end of the run. *)
  Section Keep.
    Context (s0 : mstate).
    Definition kept (s : mstate) : Prop := kills (st_hist s) = kills (st_hist s0) /\
      forall j, Ends_Proofs.ended j s0 -> Ends_Proofs.ended j s /\ endc j (log s) = endc j (log s0).
    Definition PR {A} (m : M mstate A) : Prop := forall s, kept s -> kept (snd (m s)).
    Lemma PR_bind {A B} (m : M mstate A) (f : A -> M mstate B) : PR m -> (forall a, PR (f a)) -> PR (bind m f).
    Proof. intros H1 H2 s Hs. unfold bind. specialize (H1 s Hs). destruct (m s) as [[a|e] s']; [apply H2|]; exact H1. Qed.
    Lemma PR_ret {A} (a : A) : PR (ret a).
    Proof. intros s Hs. exact Hs. Qed.
    Lemma PR_raise {A} e : PR (@raise mstate A e).
    Proof. intros s Hs. exact Hs. Qed.
    Lemma PR_getc {A} (f : core -> A) : PR (getc f).
    Proof. intros s Hs. exact Hs. Qed.
    Lemma PR_tick : PR (tick w limit).
    Proof.
      intros s [H1 H2]. unfold tick. destruct (Nat.leb _ _); [split; auto|].
      assert (H : kept (env (w_moves w (k_tick (st_core s))) s)).
      { split; [exact H1|]. unfold ended. cbn. rewrite (er_log _ _ _ (apply_moves_rel _ _)). exact H2. }
      destruct (w_intr w _); exact H.
    Qed.
    Lemma PR_alive i : PR (is_alive w limit i).
    Proof. apply PR_bind; [apply PR_tick| intro; apply PR_getc]. Qed.
    Lemma PR_for_each {A} (l : list A) f : (forall a, PR (f a)) -> PR (for_each l f).
    Proof. intro H. induction l as [|a l IH]; cbn; [apply PR_ret| apply PR_bind; auto]. Qed.
    Lemma PR_try m : PR m -> PR (try_except m is_exception (fun _ => ret tt)).
    Proof. intros H s Hs. unfold try_except. specialize (H s Hs). destruct (m s) as [[a|e] s']; [exact H|]. destruct (is_exception e); exact H. Qed.
    Lemma PR_stop_all why : PR (stop_all_children w limit why).
    Proof.
      unfold stop_all_children, pack_ids. apply PR_bind; [apply PR_getc|]. intro ids. apply PR_bind.
      { apply PR_try, PR_for_each. intro i. apply PR_bind; [apply PR_alive|]. intros [|]; [|apply PR_ret].
        apply PR_bind; [apply PR_tick|]. intro t. apply PR_bind; [apply PR_getc|]. intros [h|]; [|apply PR_raise].
        destruct (c_closed h); [apply PR_raise|]. intros s Hs. exact Hs. }
      intros []. apply PR_bind.
      { apply PR_try. generalize (S limit). induction n as [|n IH]; cbn [drain_loop]; [apply PR_raise|].
        apply PR_bind; [|intros [x|]; [exact IH| apply PR_ret]]. apply PR_bind; [apply PR_tick|]. intro. apply PR_bind; [apply PR_getc|].
        intros [|ch q]; [apply PR_ret|]. apply PR_bind; [intros s Hs; exact Hs| intro; apply PR_ret]. }
      intros []. apply PR_for_each. intro i. unfold stop_one. intros s Hs. unfold bind at 1, getc, gets.
      destruct (is_ok (endc i (log s)) && is_ok (stopt i (log s))) eqn:E.
      - revert s Hs E. intros s Hs _. revert s Hs. apply PR_bind; [apply PR_ret|]. intros []. apply PR_bind; [apply PR_alive|].
        intros [|]; [|apply PR_ret]. apply PR_bind; [apply PR_tick|]. intro. apply PR_bind; [apply PR_alive|]. intro. apply PR_ret.
      - assert (Hi : ~ Ends_Proofs.ended i s0).
        { intro Hi. destruct (proj2 Hs i Hi) as [[A B] _]. rewrite A, B in E. discriminate. }
        revert s Hs E. intros s Hs _. revert s Hs. apply PR_bind.
        + apply PR_bind; [intros s Hs; exact Hs|]. intros [].
          assert (Hput : forall k v, PR (logm (put_metadata i k v))).
          { intros k v s [H1 H2]. unfold logm. unfold put_metadata. destruct (nget i (l_store (log s))) as [en|]; [|split; assumption].
            split; [exact H1|]. intros j Hj. assert (Hn : j <> i) by (intros ->; contradiction). destruct (H2 j Hj) as [H3 H4].
            unfold ended, get_metadata in *. cbn. rewrite nget_nset_other by exact Hn. auto. }
          apply PR_bind; [apply Hput| intro; apply Hput].
        + intros []. apply PR_bind; [apply PR_alive|].
          intros [|]; [|apply PR_ret]. apply PR_bind; [apply PR_tick|]. intro. apply PR_bind; [apply PR_alive|]. intro. apply PR_ret.
    Qed.
  End Keep.

  Definition no_text (v : string) : Prop := False.
  Lemma body_kills r s : ends g w no_text none none [] s -> keys s = [] -> no_checkpoints g w ->
    match run_body g w limit r s with
    | (Ok _, s') => forall i, In i (kills (st_hist s')) -> exists v, end_logged i v (log s') /\ (v = "GloMPO Termination" \/ v = "Forced GloMPO Termination")
    | _ => True
    end.
  Proof.
    intros HG Hk Hn. unfold run_body, pack_ids, getc, gets. unfold bind at 1. rewrite Hk. cbn [for_each].
    unfold bind at 1. cbn [ret]. unfold bind at 1. pose proof (V_main g w limit no_text (S limit) r s HG) as Hm.
    destruct (main_loop g w limit (S limit) r s) as [[r'|e] s1]; [|exact I].
    destruct Hn as [Hc Hn']. rewrite Hc. cbn [andb]. unfold bind at 1. cbn [ret]. unfold bind.
    pose proof (PR_stop_all s1 None s1 (conj eq_refl (fun j Hj => conj Hj eq_refl))) as Hs.
    destruct (stop_all_children w limit None s1) as [[v|e] s3]; [|exact I]. cbn [ret]. cbn [snd] in Hs. destruct Hs as [K1 K2].
    intros i Hi. rewrite K1 in Hi.
    pose proof (e_grave _ _ _ _ _ _ _ Hm i (e_kills _ _ _ _ _ _ _ Hm i Hi) (fun x => x)) as He. destruct (K2 i He) as [[A B] C].
    destruct (stopt i (log s3)) as [t|] eqn:Et; [|discriminate]. destruct (endc i (log s3)) as [v0|] eqn:Ev; [|discriminate].
    exists v0. split; [split; [exists t; exact Et| exact Ev]|]. symmetry in C.
    destruct (e_killed _ _ _ _ _ _ _ Hm (conj Hc Hn') i v0 Hi C) as [|[|[]]]; auto.
  Qed.
  Lemma run_via (F : string -> Prop) r res s : run g w limit true = (Ok (Some r, res), s) -> undisturbed r ->
    exists r0 s2 s3, ends g w F none none [] s2 /\ keys s2 = [] /\ run_body g w limit r0 s2 = (Ok r, s3) /\ log s = log s3 /\
      kills (st_hist s) = kills (st_hist s3).
  Proof.
    unfold run, start_manager.
    match goal with |- (bind ?m ?k) _ = _ -> _ => set (pre := m) end.
    set (K := fun s => ends g w F none none [] s /\ keys s = []).
    assert (Hgood : good g w F K) by (apply good_and; [apply good_ends| intros s0 t H; cbn; rewrite (er_keys _ _ _ (apply_moves_rel _ _)); exact H]).
    assert (Hset : forall b s0, K s0 -> K (upd (set_kconverged b) s0)) by (intros b s0 [H1 H2]; split; [apply G_mod; auto| exact H2]).
    assert (Hpre : K (snd (pre (fresh true)))).
    { assert (H0 : K (fresh true)) by (split; [apply ends_fresh| reflexivity]). revert H0. generalize (fresh true). intros s0 H0.
      unfold pre, try_except, checker_call, bind.
      assert (Ht : K (snd (tick w limit s0))).
      { unfold tick. destruct (Nat.leb _ _); [exact H0|]. pose proof (proj2 Hgood s0 (k_tick (st_core s0)) H0). destruct (w_intr w _); exact H. }
      destruct (tick w limit s0) as [[t|e] s1]; cbn in Ht.
      - cbn. destruct (w_check w t (st_core s1)) as [b|e]; cbn; [apply (Hset _ s1 Ht)|].
        destruct (is_exception e); cbn; [apply (Hset _ s1 Ht)| exact Ht].
      - destruct (is_exception e); cbn; [apply (Hset _ s1 Ht)| exact Ht]. }
    unfold bind at 1. destruct (pre (fresh true)) as [[o|e] s1]; [|discriminate]. cbn [snd] in Hpre.
    intros E Hu.
    assert (Hgo : forall r0, r0 = RDead \/ r0 = RNone -> (ext w limit ;;; fun s => match run_body g w limit r0 s with
                 | (Ok r, s1) => finish r s1
                 | (Err OutOfFuel, s1) => (Err OutOfFuel, s1)
                 | (Err e, s1) =>
                     match stop_all_children w limit (Some (crash_text e)) s1 with
                     | (Err OutOfFuel, s2) => (Err OutOfFuel, s2)
                     | (_, s2) => finish (match e with KeyboardInterrupt => RInterrupt | _ => RCrash e end) s2
                     end
                 end) s1 = (Ok (Some r, res), s) ->
      exists r0 s2 s3, ends g w F none none [] s2 /\ keys s2 = [] /\ run_body g w limit r0 s2 = (Ok r, s3) /\ log s = log s3 /\
      kills (st_hist s) = kills (st_hist s3)).
    { intros r0 Hr0 E0. unfold bind in E0.
      assert (Hx : V g w F false K (ext w limit) (fun _ => K)) by (apply V_ext; [exact Hgood| intros s' e [H _]; eapply left_G; exact H]).
      specialize (Hx s1 Hpre). destruct (ext w limit s1) as [[u|e] s2]; [|discriminate].
      pose proof (V_body F s2 r0 (proj1 Hx) (proj2 Hx)) as Hb.
      destruct (run_body g w limit r0 s2) as [[r1|e] s3] eqn:Er.
      - pose proof (finish_reason _ _ _ _ _ E0) as ->. exists r0, s2, s3. destruct Hx as [X1 X2].
        assert (Htr : l_traj (log s3) = true).
        { pose proof (body_W (fun _ => True) s2 r0 (ends_F _ _ _ _ _ _ (fun _ _ => I) X1) X2 I) as Hw. rewrite Er in Hw. apply (e_traj _ _ _ _ _ _ _ Hw). }
        unfold finish, bind, act in E0. cbn in E0. unfold logm, log_close, clear_cache in E0. cbn in E0. rewrite Htr in E0. cbn in E0.
        injection E0 as _ <-. splits; auto.
      - exfalso. destruct (exn_fuel e) as [->|He]; [discriminate|].
        assert (E1 : match stop_all_children w limit (Some (crash_text e)) s3 with
           | (Err OutOfFuel, s4) => (Err OutOfFuel, s4)
           | (_, s4) => finish (match e with KeyboardInterrupt => RInterrupt | _ => RCrash e end) s4 end = (Ok (Some r, res), s)) by (destruct e; try exact E0; contradiction).
        assert (Hr : r = match e with KeyboardInterrupt => RInterrupt | _ => RCrash e end).
        { destruct (stop_all_children w limit (Some (crash_text e)) s3) as [[u1|e1] s4]; [|destruct e1; try discriminate]; eapply finish_reason; exact E1. }
        rewrite Hr in Hu. unfold undisturbed in Hu. destruct e; destruct Hu as [|[|]]; discriminate. }
    destruct o as [[|]|]; [cbn in E; discriminate| eapply Hgo; [|exact E]; auto| eapply Hgo; [|exact E]; auto].
  Qed.
End Run.
