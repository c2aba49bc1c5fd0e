(** * When checkpoints are made: proofs *)
From Verif Require Import Prelude Prelude_Proofs Logger_Model Manager_Model Manager_Spec Manager_Proofs Manager_Trace Due_Spec.
From Coq Require Import Lia.
Open Scope nat_scope.

(** Events of the methods other than checkpoint and the loop. *)
Definition plain_ev (e : event) : bool := match e with EvIter => false | _ => negb (of_checkpoint e) end.
(** Events within a checkpoint. *)
Definition inner_ev (e : event) : bool := match e with EvIter | EvSaveLog => false | _ => true end.
Definition not_iter (e : event) : bool := match e with EvIter => false | _ => true end.

Definition b2n (b : bool) : nat := if b then 1 else 0.

Section Due.
  Context (g : config) (w : world) (limit : nat).

  Record rl (P : event -> bool) (s s' : mstate) : Prop := mkRl {
    r_last : k_last_iter (st_core s') = k_last_iter (st_core s);
    r_f : k_f (st_core s) <= k_f (st_core s');
    r_conv : k_converged (st_core s') = k_converged (st_core s);
    r_keep : k_chkpt (st_core s) = true -> k_chkpt (st_core s') = true;
    r_asked : b2n (k_chkpt (st_core s')) + asked w (k_tick (st_core s)) <= b2n (k_chkpt (st_core s)) + asked w (k_tick (st_core s'));
    r_hist : exists new, st_hist s' = new ++ st_hist s /\ forall p, In p new -> P (snd p) = true;
    r_stay : forall new, st_hist s' = new ++ st_hist s -> forall p, In p new -> k_last_iter (fst p) = k_last_iter (st_core s) }.

  Lemma no_more (h new : hist) : h = new ++ h -> new = [].
  Proof. intro E. apply (f_equal (@length _)) in E. rewrite app_length in E. destruct new; [reflexivity| cbn in E; lia]. Qed.
  Lemma rl_refl P s : rl P s s.
  Proof. split; auto; [exists []; split; [reflexivity| intros p []]|]. intros new E. apply no_more in E as ->. intros p []. Qed.
  Lemma rl_trans P a b c : rl P a b -> rl P b c -> rl P a c.
  Proof.
    intros [A1 A2 A3 A4 A5 (n1 & A6 & A7) A8] [B1 B2 B3 B4 B5 (n2 & B6 & B7) B8]. split; try congruence; auto; try lia.
    - exists (n2 ++ n1). split; [rewrite B6, A6, app_assoc; reflexivity|]. intros p Hp. apply in_app_iff in Hp as [|]; auto.
    - intros new E p Hp. rewrite B6, A6, app_assoc in E. apply app_inv_tail in E as <-. apply in_app_iff in Hp as [Hp|Hp].
      + rewrite <- A1. apply (B8 n2); auto.
      + apply (A8 n1); auto.
  Qed.
  Lemma rl_weak (P P' : event -> bool) s s' : (forall e, P e = true -> P' e = true) -> rl P s s' -> rl P' s s'.
  Proof. intros H [A1 A2 A3 A4 A5 (n1 & A6 & A7) A8]. split; auto. exists n1. auto. Qed.
  (** Updates of other attributes. *)
  Lemma rl_upd P s c' h : k_last_iter c' = k_last_iter (st_core s) -> k_f (st_core s) <= k_f c' -> k_converged c' = k_converged (st_core s) ->
    k_chkpt c' = k_chkpt (st_core s) -> k_tick c' = k_tick (st_core s) -> h = st_hist s \/ (exists e, P e = true /\ h = (st_core s, e) :: st_hist s) -> rl P s (mkMS c' h).
  Proof.
    intros H1 H2 H3 H4 H6 H5. split; cbn; auto; try congruence; [rewrite H4, H6; lia| |].
    - destruct H5 as [->|(e & He & ->)].
      + exists []. split; [reflexivity| intros p []].
      + exists [(st_core s, e)]. split; [reflexivity|]. intros p [<-|[]]. exact He.
    - intros new E p Hp. destruct H5 as [->|(e & He & ->)].
      + apply no_more in E as ->. destruct Hp.
      + change ((st_core s, e) :: st_hist s) with ([(st_core s, e)] ++ st_hist s) in E. apply app_inv_tail in E as <-.
        destruct Hp as [<-|[]]. reflexivity.
  Qed.

  Definition Rl (P : event -> bool) {A} (m : M mstate A) : Prop := forall s, rl P s (snd (m s)).
  Lemma Rl_weak (P P' : event -> bool) {A} (m : M mstate A) : (forall e, P e = true -> P' e = true) -> Rl P m -> Rl P' m.
  Proof. intros H Hm s. eapply rl_weak; [exact H| apply Hm]. Qed.
  Section Rules.
    Context (P : event -> bool).
    Notation R := (Rl P).
    Lemma R_ret {A} (a : A) : R (ret a).
    Proof. intro s. apply rl_refl. Qed.
    Lemma R_raise {A} e : R (@raise mstate A e).
    Proof. intro s. apply rl_refl. Qed.
    Lemma R_lift {A} (r : res A) : R (lift r).
    Proof. intro s. apply rl_refl. Qed.
    Lemma R_getc {A} (f : core -> A) : R (getc f).
    Proof. intro s. apply rl_refl. Qed.
    Lemma R_fun {A} (f : core -> res A) : R (fun s => (f (st_core s), s)).
    Proof. intro s. apply rl_refl. Qed.
    Lemma R_logm {A} (m : M logger A) : R (logm m).
    Proof. intro s. unfold logm. destruct (m _) as [r l]. apply rl_upd; auto. Qed.
    Lemma R_modc f : (forall c, k_last_iter (f c) = k_last_iter c /\ k_f c <= k_f (f c) /\ k_converged (f c) = k_converged c /\ k_chkpt (f c) = k_chkpt c /\ k_tick (f c) = k_tick c) -> R (modc f).
    Proof. intros H s. destruct (H (st_core s)) as (A & B & C & D & E). apply rl_upd; auto. Qed.
    Lemma R_act e f : P e = true -> (forall c, k_last_iter (f c) = k_last_iter c /\ k_f c <= k_f (f c) /\ k_converged (f c) = k_converged c /\ k_chkpt (f c) = k_chkpt c /\ k_tick (f c) = k_tick c) -> R (act e f).
    Proof. intros He H s. destruct (H (st_core s)) as (A & B & C & D & E). apply rl_upd; eauto. Qed.
    Lemma R_bind {A B} (m : M mstate A) (f : A -> M mstate B) : R m -> (forall a, R (f a)) -> R (bind m f).
    Proof.
      intros Hm Hf s. unfold bind. specialize (Hm s). destruct (m s) as [[a|e] s']; [|exact Hm]. eapply rl_trans; [exact Hm| apply Hf].
    Qed.
    Lemma R_for_each {A} (l : list A) f : (forall a, R (f a)) -> R (for_each l f).
    Proof. intros H. induction l as [|a l IH]; cbn; [apply R_ret|]. apply R_bind; auto. Qed.
    Lemma R_try {A} (m : M mstate A) f h : R m -> (forall e, R (h e)) -> R (try_except m f h).
    Proof.
      intros Hm Hh s. unfold try_except. specialize (Hm s). destruct (m s) as [[a|e] s']; [exact Hm|].
      destruct (f e); [|exact Hm]. eapply rl_trans; [exact Hm| apply Hh].
    Qed.
    Lemma R_tick : R (tick w limit).
    Proof.
      intro s. unfold tick. destruct (Nat.leb _ _); [apply rl_refl|].
      set (t := k_tick (st_core s)). pose proof (apply_moves_rel (w_moves w t) (st_core s)) as E.
      assert (Hk : forall l c, k_chkpt c = true -> k_chkpt (apply_moves l c) = true).
      { unfold apply_moves. induction l as [|m l IH]; intros c Hc; cbn; [exact Hc|]. apply IH.
        destruct m; cbn; auto; try (unfold on_child; destruct (nget _ _) as [h|]; [destruct (c_alive h)|]; exact Hc). destruct (forallb _ _); exact Hc. }
      assert (H : rl P s (mkMS (set_ktick (S t) (apply_moves (w_moves w t) (st_core s))) (st_hist s))).
      { split; cbn; try apply E.
        - rewrite (er_f _ _ _ E). apply le_n.
        - apply Hk.
        - fold t. enough (b2n (k_chkpt (apply_moves (w_moves w t) (st_core s))) <= b2n (k_chkpt (st_core s)) + length (filter is_chkpt_file (w_moves w t))) by lia.
          destruct (k_chkpt (apply_moves (w_moves w t) (st_core s))) eqn:Ec; cbn; [|lia].
          destruct (er_chkpt _ _ _ E Ec) as [Hc|Hf]; [rewrite Hc; cbn; lia|].
          assert (Hi : In MCheckpointFile (filter is_chkpt_file (w_moves w t))) by (apply filter_In; auto).
          destruct (filter _ _); [destruct Hi| cbn; lia].
        - exists []. split; [reflexivity| intros p []].
        - intros new Eh. apply no_more in Eh as ->. intros p []. }
      destruct (w_intr w t); exact H.
    Qed.
  End Rules.

  Create HintDb rlb.
  Hint Resolve R_tick : rlb.
  Ltac rt := intros; try (match goal with |- context [match ?x with _ => _ end] => destruct x end); cbn; splits; auto; lia.
  Ltac rl := repeat first
    [ apply R_ret | apply R_raise | apply R_lift | apply R_getc | apply R_logm | apply R_fun
    | apply (R_fun _ (fun c => get_best_iter None (k_log c)))
    | solve [auto with rlb]
    | apply R_act; [reflexivity|rt] | apply R_modc; rt
    | apply R_for_each; intros | apply R_try; [|intros] | apply R_bind; [|intros]
    | match goal with |- Rl _ (match ?x with _ => _ end) => destruct x end
    | match goal with |- Rl _ (if ?x then _ else _) => destruct x end
    | match goal with |- Rl _ (let '_ := ?x in _) => destruct x end ].

  Lemma R_ext P : Rl P (ext w limit).
  Proof. unfold ext. rl. Qed.
  Hint Resolve R_ext : rlb.
  Lemma R_alive P i : Rl P (is_alive w limit i).
  Proof. unfold is_alive. rl. Qed.
  Hint Resolve R_alive : rlb.
  Lemma R_send (P : event -> bool) i m : P (EvSend i m) = true -> Rl P (send w limit i m).
  Proof. intro H. unfold send, note. rl. apply R_act; [exact H|]. rt. Qed.
  Lemma R_send_stop i : Rl plain_ev (send w limit i OStop).
  Proof. apply R_send. reflexivity. Qed.
  Lemma R_send_crash i : Rl plain_ev (send w limit i OCrash).
  Proof. apply R_send. reflexivity. Qed.
  Lemma R_send_best i x fx : Rl plain_ev (send w limit i (OBest x fx)).
  Proof. apply R_send. reflexivity. Qed.
  Lemma R_send_inner i m : Rl inner_ev (send w limit i m).
  Proof. apply R_send. reflexivity. Qed.
  Hint Resolve R_send_stop R_send_crash R_send_best R_send_inner : rlb.
  Lemma R_living P ids : Rl P (living w limit ids).
  Proof. induction ids; cbn; rl. Qed.
  Hint Resolve R_living : rlb.
  Lemma R_signals P i : Rl P (check_signals w limit i).
  Proof. unfold check_signals, in_grave, put_end. rl. Qed.
  Hint Resolve R_signals : rlb.
  Lemma R_inspect P : Rl P (inspect_children g w limit).
  Proof. unfold inspect_children, inspect_child, inspect_dead, inspect_hang, inspect_zombie, pack_ids, in_grave, put_end. rl. Qed.
  Hint Resolve R_inspect : rlb.
  Lemma R_shutdown i h : Rl plain_ev (shutdown_job g w limit i h).
  Proof. unfold shutdown_job, put_end. rl. Qed.
  Hint Resolve R_shutdown : rlb.
  Lemma R_hunt_loop h ids : Rl plain_ev (hunt_loop g w limit h ids).
  Proof. induction ids; cbn [hunt_loop]; unfold in_grave; rl. Qed.
  Hint Resolve R_hunt_loop : rlb.
  Lemma R_item q : Rl plain_ev (process_item g w limit q).
  Proof. unfold process_item, accept, update_best, share_loop, start_hunt, pack_ids. rl. Qed.
  Hint Resolve R_item : rlb.
  Lemma R_chunk l : forall acc, Rl plain_ev (process_chunk g w limit l acc).
  Proof. induction l as [|q l IH]; intros acc; cbn [process_chunk]; rl. Qed.
  Hint Resolve R_chunk : rlb.
  Lemma R_get P : Rl P (queue_get w limit).
  Proof. unfold queue_get. rl. Qed.
  Hint Resolve R_get : rlb.
  Lemma R_loop fuel : forall max acc, Rl plain_ev (process_loop g w limit fuel max acc).
  Proof. induction fuel as [|fuel IH]; intros max acc; cbn [process_loop]; rl. Qed.
  Hint Resolve R_loop : rlb.
  Lemma R_results max : Rl plain_ev (process_results g w limit max).
  Proof. unfold process_results. rl. Qed.
  Lemma R_results_inner max : Rl inner_ev (process_results g w limit max).
  Proof. eapply Rl_weak; [|apply R_results]. intros []; cbn; try discriminate; reflexivity. Qed.
  Hint Resolve R_results R_results_inner : rlb.
  Lemma R_shutdowns : Rl plain_ev (manual_shutdowns g w limit).
  Proof. unfold manual_shutdowns, manual_shutdown. rl. Qed.
  Lemma R_fill_loop fuel : forall n b, Rl plain_ev (fill_loop g w limit fuel n b).
  Proof. induction fuel as [|fuel IH]; intros n b; cbn [fill_loop]; unfold setup_new_optimizer, add_to_log, start_new_job, note; rl. Qed.
  Hint Resolve R_shutdowns R_fill_loop : rlb.
  Lemma R_fill : Rl plain_ev (fill_slots g w limit).
  Proof. unfold fill_slots, pack_ids. rl. Qed.
  Lemma R_drain P fuel : Rl P (drain_loop w limit fuel).
  Proof. induction fuel; cbn [drain_loop]; rl. Qed.
  Lemma R_checker P : Rl P (checker_call w limit).
  Proof. unfold checker_call. rl. Qed.
  Lemma R_purge P i : Rl P (purge_one w limit i).
  Proof. unfold purge_one, in_grave. rl. Qed.
  Lemma R_restart P i : Rl P (restart_one w limit i).
  Proof. unfold restart_one. rl. Qed.
  Hint Resolve R_fill R_drain R_checker R_purge R_restart : rlb.
  Lemma R_stop_all b : Rl plain_ev (stop_all_children w limit b).
  Proof. destruct b; unfold stop_all_children, stop_one, put_end, pack_ids; rl. Qed.

  (** *** Within a checkpoint *)
  Lemma R_pause ids : Rl inner_ev (pause_all w limit ids).
  Proof. induction ids; cbn [pause_all]; rl. Qed.
  Hint Resolve R_pause : rlb.
  Lemma R_sync_one i x : Rl inner_ev (sync_one w limit i x).
  Proof. unfold sync_one, put_end, note. rl. Qed.
  Hint Resolve R_sync_one : rlb.
  Lemma R_round ids : forall x, Rl inner_ev (sync_round w limit ids x).
  Proof. induction ids as [|i ids IH]; intros x; cbn [sync_round]; rl. Qed.
  Hint Resolve R_round : rlb.
  Lemma R_sync fuel : forall n x, Rl inner_ev (sync_loop g w limit fuel n x).
  Proof. induction fuel as [|fuel IH]; intros n x; cbn [sync_loop]; rl. Qed.
  Hint Resolve R_sync : rlb.
  Lemma R_hold_round ids : Rl inner_ev (hold_round w limit ids).
  Proof. induction ids; cbn [hold_round]; rl. Qed.
  Hint Resolve R_hold_round : rlb.
  Lemma R_hold fuel : forall ids, Rl inner_ev (hold_loop w limit fuel ids).
  Proof. induction fuel as [|fuel IH]; intros ids; cbn [hold_loop]; rl. Qed.
  Hint Resolve R_hold : rlb.
  Lemma R_optimizers : Rl inner_ev (checkpoint_optimizers g w limit).
  Proof. unfold checkpoint_optimizers, confirm_one, save_one, pack_ids. rl. Qed.

  Lemma saves_app a b : saves (a ++ b) = saves a ++ saves b.
  Proof. unfold saves. now rewrite filter_app, map_app. Qed.
  Lemma begins_app a b : begins (a ++ b) = begins a ++ begins b.
  Proof. unfold begins. now rewrite filter_app, map_app. Qed.
  Lemma saves_none (h : hist) : (forall p, In p h -> inner_ev (snd p) = true) -> saves h = [].
  Proof.
    induction h as [|[c e] h IH]; intro H; [reflexivity|]. pose proof (H _ (or_introl eq_refl)) as He. cbn in He.
    destruct e; try discriminate He; cbn; apply IH; intros p Hp; apply H; right; exact Hp.
  Qed.
  Lemma begins_none (h : hist) : (forall p, In p h -> not_iter (snd p) = true) -> begins h = [].
  Proof.
    induction h as [|[c e] h IH]; intro H; [reflexivity|]. pose proof (H _ (or_introl eq_refl)) as He. cbn in He.
    destruct e; try discriminate He; cbn; apply IH; intros p Hp; apply H; right; exact Hp.
  Qed.
  Lemma plain_inner e : plain_ev e = true -> inner_ev e = true.
  Proof. destruct e; cbn; auto. Qed.
  Lemma inner_not_iter e : inner_ev e = true -> not_iter e = true.
  Proof. destruct e; cbn; auto. Qed.
  Lemma inner_saves s s' : rl inner_ev s s' -> saves (st_hist s') = saves (st_hist s) /\ begins (st_hist s') = begins (st_hist s).
  Proof.
    intros [_ _ _ _ _ (new & H1 & H2) _]. rewrite H1, saves_app, begins_app, saves_none, begins_none; auto.
    intros p Hp. apply inner_not_iter. auto.
  Qed.
  Lemma plain_saves s s' : rl plain_ev s s' -> saves (st_hist s') = saves (st_hist s) /\ begins (st_hist s') = begins (st_hist s).
  Proof. intro H. apply inner_saves. eapply rl_weak; [exact plain_inner| exact H]. Qed.

  (** A checkpoint: nothing is written, or the log is written once, before anything else. *)
  Definition begun (s : mstate) : mstate := mkMS (st_core s) ((st_core s, EvSaveLog) :: st_hist s).
  Lemma ext_f s : k_f (st_core (snd (ext w limit s))) = k_f (st_core s).
  Proof.
    unfold ext, bind, tick. destruct (Nat.leb _ _); [reflexivity|]. pose proof (apply_moves_rel (w_moves w (k_tick (st_core s))) (st_core s)) as E.
    destruct (w_intr w _); [exact (er_f _ _ _ E)|]. destruct (w_err w _); exact (er_f _ _ _ E).
  Qed.
  Lemma ext_raises s e : fst (ext w limit s) = Err e -> (forall t, w_err w t <> Some CheckpointingError) -> e <> CheckpointingError.
  Proof.
    unfold ext, bind, tick. destruct (Nat.leb _ _); cbn; [intros [= <-]; discriminate|].
    destruct (w_intr w _); cbn; [intros [= <-]; discriminate|]. destruct (w_err w _) eqn:E; cbn; [|discriminate].
    intros [= <-] H ->. exact (H _ E).
  Qed.
  Lemma checkpoint_cases s : let s' := snd (checkpoint g w limit s) in
    (exists s1, rl inner_ev s s1 /\ k_f (st_core s1) = k_f (st_core s) /\ rl inner_ev (begun s1) s') \/
    (rl inner_ev s s' /\ ((forall t, w_err w t <> Some CheckpointingError) -> fst (checkpoint g w limit s) <> Ok tt)).
  Proof.
    cbv zeta. remember (checkpoint g w limit s) as r eqn:Er.
    unfold checkpoint in Er. set (tail := (conv <- getc k_converged ;; _)) in Er.
    assert (Ht : Rl inner_ev tail) by (unfold tail, pack_ids, toggle_one; rl).
    unfold bind at 1 in Er.
    pose proof (R_ext inner_ev s) as H0. pose proof (ext_f s) as F0.
    destruct (ext w limit s) as [[[]|e] s1] eqn:E0; cbn [snd] in H0, F0; [|subst r; right; split; [exact H0| discriminate]].
    unfold bind at 1 in Er. set (hd := fun e : exn => if g_raise_fail g then raise e else ret tt) in Er. set (post := (note EvSaveLog ;;; _)) in Er.
    assert (Hpost : forall s2, rl inner_ev (begun s2) (snd (post s2))).
    { intro s2. unfold post. set (rest := (checkpoint_optimizers g w limit ;;; _)).
      assert (Hr : Rl inner_ev rest) by (unfold rest, note; pose proof R_optimizers; rl).
      apply (Hr (begun s2)). }
    assert (Hhd : forall e, Rl inner_ev (hd e)) by (intro e; unfold hd; rl).
    unfold try_except in Er. unfold bind at 1 in Er.
    pose proof (R_ext inner_ev s1) as H1. pose proof (ext_f s1) as F1. pose proof (ext_raises s1) as X1.
    destruct (ext w limit s1) as [[[]|e] s2] eqn:E1; cbn [snd fst] in H1, F1, X1.
    - left. exists s2. split; [eapply rl_trans; eassumption|]. split; [congruence|].
      specialize (Hpost s2). destruct (post s2) as [[[]|e] s3]; cbn [snd] in Hpost.
      + subst r. eapply rl_trans; [exact Hpost|]. apply Ht.
      + destruct e; subst r; try exact Hpost. specialize (Hhd CheckpointingError s3). destruct (hd CheckpointingError s3) as [[[]|e] s4]; cbn [snd] in Hhd.
        * eapply rl_trans; [exact Hpost|]. eapply rl_trans; [exact Hhd|]. apply Ht.
        * eapply rl_trans; [exact Hpost| exact Hhd].
    - right. assert (H2 : rl inner_ev s s2) by (eapply rl_trans; eassumption).
      destruct e; subst r; try (split; [exact H2| discriminate]).
      split; [|intros Hn; destruct (X1 _ eq_refl Hn eq_refl)].
      specialize (Hhd CheckpointingError s2). destruct (hd CheckpointingError s2) as [[[]|e] s4]; cbn [snd] in Hhd.
      + eapply rl_trans; [exact H2|]. eapply rl_trans; [exact Hhd|]. apply Ht.
      + eapply rl_trans; [exact H2| exact Hhd].
  Qed.

  (** *** Whole runs *)
  Definition judged (b : bool) (e : event) (s : mstate) : mstate :=
    mkMS (set_kconverged b (st_core s)) ((st_core s, e) :: st_hist s).
  Definition turned (s : mstate) : mstate := mkMS (st_core s) ((st_core s, EvIter) :: st_hist s).
  Section Inv.
    Context (I : mstate -> Prop).
    Hypothesis I_plain : forall s s', rl plain_ev s s' -> I s -> I s'.
    Hypothesis I_conv : forall s b, I s -> I (mkMS (set_kconverged b (st_core s)) (st_hist s)).
    Hypothesis I_turn : forall s, I s -> I (turned s).
    Definition Pv {A} (m : M mstate A) : Prop := forall s, I s -> I (snd (m s)).
    Hypothesis I_manual : Pv (manual_checkpoints g w limit).
    Hypothesis I_periodic : Pv (periodic_checkpoint g w limit).
    Hypothesis I_final : Pv (if g_chk g && g_at_conv g then checkpoint g w limit else ret tt).
    Lemma Pv_of {A} (m : M mstate A) : Rl plain_ev m -> Pv m.
    Proof. intros H s Hs. exact (I_plain _ _ (H s) Hs). Qed.
    Lemma Pv_bind {A B} (m : M mstate A) (f : A -> M mstate B) : Pv m -> (forall a, Pv (f a)) -> Pv (bind m f).
    Proof. intros Hm Hf s Hs. unfold bind. specialize (Hm s Hs). destruct (m s) as [[a|e] s']; [apply Hf|]; exact Hm. Qed.
    Lemma Pv_conv b e : plain_ev e = true -> Pv (act e (fun c => set_kconverged (b c) c)).
    Proof.
      intros He s Hs. cbn.
      assert (H : I (mkMS (st_core s) ((st_core s, e) :: st_hist s))) by (eapply I_plain; [|exact Hs]; apply rl_upd; eauto).
      exact (I_conv _ _ H).
    Qed.
    Lemma Pv_setconv b : Pv (modc (set_kconverged b)).
    Proof. intros s Hs. exact (I_conv _ _ Hs). Qed.
    Lemma Pv_note : Pv (note EvIter).
    Proof. intros s Hs. exact (I_turn _ Hs). Qed.
    Lemma Pv_iteration : Pv (iteration g w limit).
    Proof.
      unfold iteration, pack_ids.
      repeat first [ apply Pv_note | exact I_manual | exact I_periodic | apply Pv_conv; reflexivity
                   | apply Pv_of; solve [rl] | apply Pv_bind; [|intros] ].
    Qed.
    Lemma Pv_main fuel : forall r, Pv (main_loop g w limit fuel r).
    Proof.
      induction fuel as [|fuel IH]; intros r; cbn [main_loop]; [apply Pv_of; rl|].
      apply Pv_bind; [apply Pv_of; rl|]. intros []; [apply Pv_of; rl|]. apply Pv_bind; [exact Pv_iteration| intros; apply IH].
    Qed.
    Lemma Pv_body r : Pv (run_body g w limit r).
    Proof.
      unfold run_body, pack_ids. pose proof R_stop_all.
      repeat first [ exact I_final | apply Pv_main | apply Pv_of; solve [rl] | apply Pv_bind; [|intros] ].
    Qed.
    Lemma R_finish r : Rl plain_ev (finish r).
    Proof. unfold finish. rl. Qed.
    Lemma Pv_start : Pv (start_manager g w limit).
    Proof.
      unfold start_manager. apply Pv_bind.
      - intros s Hs. unfold try_except. set (m := (chk <- _ ;; _)).
        assert (Hm : Pv m).
        { unfold m. repeat first [ apply Pv_setconv | apply Pv_of; solve [rl] | apply Pv_bind; [|intros] ]. }
        specialize (Hm s Hs). destruct (m s) as [[a|e] s']; [exact Hm|]. destruct (is_exception e); [|exact Hm].
        cbn. exact (I_conv _ _ Hm).
      - intros pre. assert (HB : forall r, Pv (fun s => match run_body g w limit r s with
                 | (Ok r, s1) => finish r s1
                 | (Err OutOfFuel, s1) => (Err OutOfFuel, s1)
                 | (Err e, s1) =>
                     match stop_all_children w limit (Some (crash_text e)) s1 with
                     | (Err OutOfFuel, s2) => (Err OutOfFuel, s2)
                     | (_, s2) => finish (match e with KeyboardInterrupt => RInterrupt | _ => RCrash e end) s2
                     end
                 end)).
        { intros r s Hs. pose proof (Pv_body r s Hs) as Hb. destruct (run_body g w limit r s) as [[r'|e] s1]; cbn [snd] in Hb.
          - apply (Pv_of _ (R_finish r')). exact Hb.
          - pose proof (Pv_of _ (R_stop_all (Some (crash_text e))) s1 Hb) as Hc.
            destruct e; try exact Hb; (destruct (stop_all_children _ _ _ s1) as [[[]|e'] s2]; cbn [snd] in Hc;
              [apply (Pv_of _ (R_finish _)); exact Hc | destruct e'; first [exact Hc | apply (Pv_of _ (R_finish _)); exact Hc]]). }
        destruct pre as [[]|]; [apply Pv_of; rl| |]; (apply Pv_bind; [apply Pv_of; rl| intros _; apply HB]).
    Qed.
  End Inv.

  (** *** None asked for, none made *)
  Lemma asked_none t : (forall t, ~ In MCheckpointFile (w_moves w t)) -> asked w t = 0.
  Proof.
    intro H. induction t as [|t IH]; [reflexivity|]. cbn. rewrite IH. specialize (H t).
    destruct (filter is_chkpt_file (w_moves w t)) as [|m l] eqn:E; [reflexivity|]. exfalso. apply H.
    assert (Hm : In m (filter is_chkpt_file (w_moves w t))) by (rewrite E; left; reflexivity).
    apply filter_In in Hm as [Hm Hx]. destruct m; try discriminate Hx. exact Hm.
  Qed.
  Lemma no_request P s s' : (forall t, ~ In MCheckpointFile (w_moves w t)) -> rl P s s' -> k_chkpt (st_core s) = false -> k_chkpt (st_core s') = false.
  Proof.
    intros H [_ _ _ _ R _ _] Hc. rewrite !asked_none in R by exact H. rewrite Hc in R. destruct (k_chkpt (st_core s')); [cbn in R; lia| reflexivity].
  Qed.
  Definition none (s : mstate) : Prop := k_chkpt (st_core s) = false /\ forall p, In p (st_hist s) -> of_checkpoint (snd p) = false.
  Lemma none_run : no_checkpoints g w -> forall s, none s -> none (snd (start_manager g w limit s)).
  Proof.
    intros [Hg Hf]. apply Pv_start.
    - intros s s' H [H1 H2]. split; [eapply no_request; eassumption|]. destruct H as [_ _ _ _ _ (new & -> & Hn) _]. intros p Hp.
      apply in_app_iff in Hp as [Hp|Hp]; [|auto]. specialize (Hn p Hp). destruct (snd p); cbn in *; try reflexivity; try discriminate.
      destruct m; try discriminate; reflexivity.
    - intros s b [H1 H2]. split; assumption.
    - intros s [H1 H2]. split; [exact H1|]. intros p [<-|Hp]; [reflexivity| auto].
    - intros s [H1 H2]. unfold manual_checkpoints, bind. pose proof (R_tick plain_ev s) as Ht.
      assert (Hn : none (snd (tick w limit s))).
      { split; [eapply no_request; eassumption|]. unfold tick. destruct (Nat.leb _ _); [exact H2|]. destruct (w_intr w _); exact H2. }
      destruct (tick w limit s) as [[t|e] s1]; cbn [snd] in *; [|exact Hn]. cbn. rewrite (proj1 Hn). exact Hn.
    - unfold periodic_checkpoint. rewrite Hg. intros s Hs. exact Hs.
    - rewrite Hg. intros s Hs. exact Hs.
  Qed.

  (** *** Requests are answered once *)
  Definition answered (s : mstate) : Prop := length (saves (st_hist s)) + b2n (k_chkpt (st_core s)) <= asked w (k_tick (st_core s)).
  Lemma answered_inner s s' : rl inner_ev s s' -> answered s -> answered s'.
  Proof. intros H. unfold answered. rewrite (proj1 (inner_saves _ _ H)). pose proof (r_asked _ _ _ H). lia. Qed.
  Lemma answered_run : g_chk g = false -> forall s, answered s -> answered (snd (start_manager g w limit s)).
  Proof.
    intros Hg. apply Pv_start.
    - intros s s' H. apply answered_inner. eapply rl_weak; [exact plain_inner| exact H].
    - intros s b H. exact H.
    - intros s H. exact H.
    - intros s H. unfold manual_checkpoints, bind. pose proof (R_tick inner_ev s) as Ht. apply answered_inner in Ht; [|exact H].
      destruct (tick w limit s) as [[t|e] s1]; cbn [snd] in *; [|exact Ht]. cbn. destruct (k_chkpt (st_core s1)) eqn:Ec; [|exact Ht].
      set (s2 := mkMS (set_kchkpt false (st_core s1)) (st_hist s1)).
      assert (H2 : S (length (saves (st_hist s2))) + b2n (k_chkpt (st_core s2)) <= asked w (k_tick (st_core s2))).
      { unfold answered in Ht. rewrite Ec in Ht. cbn [b2n] in Ht.
        change (S (length (saves (st_hist s1))) + 0 <= asked w (k_tick (st_core s1))). lia. }
      destruct (checkpoint_cases s2) as [(s3 & R1 & _ & R2)|[R1 _]].
      + eapply answered_inner; [exact R2|]. unfold answered. pose proof (r_asked _ _ _ R1). cbn [begun st_hist st_core].
        change (saves ((st_core s3, EvSaveLog) :: st_hist s3)) with (st_core s3 :: saves (st_hist s3)).
        rewrite (proj1 (inner_saves _ _ R1)). cbn [length]. lia.
      + eapply answered_inner; [exact R1|]. unfold answered. lia.
    - unfold periodic_checkpoint. rewrite Hg. intros s Hs. exact Hs.
    - rewrite Hg. intros s Hs. exact Hs.
  Qed.

  (** *** Spaced *)
  Lemma next_to_cons {A} (a b : A) l : next_to (a :: b :: l) a b.
  Proof. exists [], l. reflexivity. Qed.
  Lemma next_to_inv {A} (x : A) l a b : next_to (x :: l) a b -> (a = x /\ exists l', l = b :: l') \/ next_to l a b.
  Proof.
    intros ([|y l1] & l2 & E); cbn in E; injection E as -> ->; [left; eauto| right; exists l1, l2; reflexivity].
  Qed.
  Record spaced (n : nat) (s : mstate) : Prop := mkSp {
    sp_f : forall c, In c (saves (st_hist s)) -> k_last_iter c = k_f c;
    sp_next : forall a b, next_to (saves (st_hist s)) a b -> k_f b + n < k_f a;
    sp_top : forall c l, saves (st_hist s) = c :: l -> k_f c <= k_last_iter (st_core s);
    sp_ask : k_chkpt (st_core s) = false;
    sp_ck : forall h1 c h2, st_hist s = h1 ++ (c, EvSaveManager) :: h2 -> forall c' l, saves h2 = c' :: l -> k_f c' <= k_last_iter c }.
  Lemma split_app {A} (a : A) new : forall old h1 h2, new ++ old = h1 ++ a :: h2 ->
    (exists n2, new = h1 ++ a :: n2 /\ h2 = n2 ++ old) \/ exists o1, h1 = new ++ o1 /\ old = o1 ++ a :: h2.
  Proof.
    induction new as [|x new IH]; intros old h1 h2 E; cbn in E; [right; exists h1; auto|].
    destruct h1 as [|y h1]; cbn [app] in E; [injection E as <- <-; left; exists new; auto| injection E as <- E].
    destruct (IH _ _ _ E) as [(n2 & -> & ->)|(o1 & -> & ->)]; [left; exists n2; auto| right; exists o1; auto].
  Qed.
  Lemma spaced_inner n s s' : (forall t, ~ In MCheckpointFile (w_moves w t)) -> rl inner_ev s s' -> spaced n s -> spaced n s'.
  Proof.
    intros Hf H [A B C D F]. pose proof (proj1 (inner_saves _ _ H)) as E. split; rewrite ?E; auto.
    - intros c l Hc. rewrite (r_last _ _ _ H). eauto.
    - eapply no_request; eassumption.
    - destruct (r_hist _ _ _ H) as (new & Eh & Hn). pose proof (r_stay _ _ _ H new Eh) as Hl. intros h1 c h2 Es c' l Hc.
      rewrite Eh in Es. destruct (split_app _ _ _ _ _ Es) as [(n2 & -> & ->)|(o1 & -> & Eo)]; [|eauto].
      rewrite saves_app, (saves_none n2) in Hc.
      + assert (K : k_last_iter c = k_last_iter (st_core s)) by (apply (Hl (c, EvSaveManager)), in_app_iff; right; left; reflexivity).
        rewrite K. eauto.
      + intros p Hp. apply Hn. apply in_app_iff. right. right. exact Hp.
  Qed.
  Lemma spaced_run n : by_count g w n -> forall s, spaced n s -> spaced n (snd (start_manager g w limit s)).
  Proof.
    intros (Hn & Ha & Ht & Hf). apply Pv_start.
    - intros s s' H. apply spaced_inner; [exact Hf|]. eapply rl_weak; [exact plain_inner| exact H].
    - intros s b [A B C D F]. split; assumption.
    - intros s [A B C D F]. split; try assumption. intros [|x h1] c h2 E; [discriminate E|]. injection E as _ E. eauto.
    - intros s H. unfold manual_checkpoints, bind. pose proof (R_tick inner_ev s) as Hs. apply (spaced_inner n) in Hs; [|exact Hf|exact H].
      destruct (tick w limit s) as [[t|e] s1]; cbn [snd] in *; [|exact Hs]. cbn. rewrite (sp_ask _ _ Hs). exact Hs.
    - intros s H. unfold periodic_checkpoint. destruct (g_chk g); [|exact H]. unfold bind at 1.
      pose proof (R_tick inner_ev s) as Hs. apply (spaced_inner n) in Hs; [|exact Hf|exact H].
      destruct (tick w limit s) as [[t|e] s1]; cbn [snd] in *; [|exact Hs]. unfold bind at 1. unfold getc, gets. rewrite Ht, Hn.
      destruct (n <? k_f (st_core s1) - k_last_iter (st_core s1)) eqn:E; [|exact Hs]. apply Nat.ltb_lt in E. unfold bind. cbn [modc].
      set (s2 := mkMS (set_klast_iter (k_f (st_core s1)) (st_core s1)) (st_hist s1)). change (modc _ s1) with (Ok tt, s2). cbv iota beta.
      destruct Hs as [A B C D F].
      assert (H2 : spaced n s2). { split; auto. intros c l Hc. specialize (C c l Hc). cbn. lia. }
      destruct (checkpoint_cases s2) as [(s3 & R1 & F1 & R2)|[R1 _]].
      + eapply spaced_inner; [exact Hf| exact R2|]. pose proof (spaced_inner n _ _ Hf R1 H2) as [A3 B3 C3 D3 F3].
        pose proof (r_last _ _ _ R1) as L1. pose proof (proj1 (inner_saves _ _ R1)) as S1. cbn in L1, F1, S1.
        split; cbn [begun st_core st_hist]; change (saves ((st_core s3, EvSaveLog) :: st_hist s3)) with (st_core s3 :: saves (st_hist s3)).
        * intros c [<-|Hc]; [congruence| auto].
        * intros a b Hab. apply next_to_inv in Hab as [[-> [l' Hl]]|Hab]; [|auto]. rewrite S1 in Hl. specialize (C _ _ Hl). lia.
        * intros c l [= <- _]. lia.
        * exact D3.
        * intros [|x h1] c h2 E2; [discriminate E2|]. injection E2 as _ E2. eauto.
      + eapply spaced_inner; eassumption.
    - rewrite Ha, andb_false_r. intros s Hs. exact Hs.
  Qed.

  (** *** From one iteration to the next *)
  Record gr (s s' : mstate) : Prop := mkGr {
    gr_last : k_last_iter (st_core s') = k_last_iter (st_core s);
    gr_hist : exists new, st_hist s' = new ++ st_hist s /\ forall p, In p new -> not_iter (snd p) = true }.
  Lemma gr_refl s : gr s s.
  Proof. split; [reflexivity|]. exists []. split; [reflexivity| intros p []]. Qed.
  Lemma gr_trans a b c : gr a b -> gr b c -> gr a c.
  Proof.
    intros [A1 (n1 & A6 & A7)] [B1 (n2 & B6 & B7)]. split; [congruence|].
    exists (n2 ++ n1). split; [rewrite B6, A6, app_assoc; reflexivity|]. intros p Hp. apply in_app_iff in Hp as [|]; auto.
  Qed.
  Lemma gr_inner s s' : rl inner_ev s s' -> gr s s'.
  Proof. intros [A _ _ _ _ (n1 & B & C) _]. split; [exact A|]. exists n1. split; [exact B|]. intros p Hp. apply inner_not_iter. auto. Qed.
  Lemma gr_plain s s' : rl plain_ev s s' -> gr s s'.
  Proof. intro H. apply gr_inner. eapply rl_weak; [exact plain_inner| exact H]. Qed.
  Lemma gr_begun s : gr s (begun s).
  Proof. split; [reflexivity|]. exists [(st_core s, EvSaveLog)]. split; [reflexivity|]. intros p [<-|[]]. reflexivity. Qed.
  Lemma gr_checkpoint s : gr s (snd (checkpoint g w limit s)).
  Proof.
    destruct (checkpoint_cases s) as [(s1 & R1 & _ & R2)|[R1 _]]; [|apply gr_inner; exact R1].
    eapply gr_trans; [apply gr_inner; exact R1|]. eapply gr_trans; [apply gr_begun| apply gr_inner; exact R2].
  Qed.
  Lemma gr_saves s s' : (exists new, st_hist s' = new ++ st_hist s /\ forall p, In p new -> not_iter (snd p) = true) ->
    length (saves (st_hist s)) <= length (saves (st_hist s')) /\ begins (st_hist s') = begins (st_hist s).
  Proof.
    intros (new & E & H). rewrite E, saves_app, begins_app, app_length, (begins_none new H). split; [lia| reflexivity].
  Qed.
  Definition HT (P : mstate -> Prop) {A} (m : M mstate A) (Q : A -> mstate -> Prop) : Prop :=
    forall s, P s -> match m s with (Ok a, s') => Q a s' | _ => True end.
  Lemma HT_bind (P : mstate -> Prop) {A B} (m : M mstate A) (f : A -> M mstate B) R Q : HT P m R -> (forall a, HT (R a) (f a) Q) -> HT P (bind m f) Q.
  Proof. intros Hm Hf s Hs. unfold bind. specialize (Hm s Hs). destruct (m s) as [[a|e] s']; [apply Hf; exact Hm| exact I]. Qed.
  Lemma HT_post (P : mstate -> Prop) {A} (m : M mstate A) (Q : A -> mstate -> Prop) : (forall s, P s -> forall a, Q a (snd (m s))) -> HT P m Q.
  Proof. intros H s Hs. specialize (H s Hs). destruct (m s) as [[a|e] s']; [apply H| exact I]. Qed.

  Definition Gr {A} (m : M mstate A) : Prop := forall s, gr s (snd (m s)).
  Lemma Gr_plain {A} (m : M mstate A) : Rl plain_ev m -> Gr m.
  Proof. intros H s. apply gr_plain. apply H. Qed.
  Lemma Gr_bind {A B} (m : M mstate A) (f : A -> M mstate B) : Gr m -> (forall a, Gr (f a)) -> Gr (bind m f).
  Proof.
    intros Hm Hf s. unfold bind. specialize (Hm s). destruct (m s) as [[a|e] s']; [|exact Hm]. eapply gr_trans; [exact Hm| apply Hf].
  Qed.
  Lemma Gr_manual : Gr (manual_checkpoints g w limit).
  Proof.
    unfold manual_checkpoints. apply Gr_bind; [apply Gr_plain; rl|]. intros _. apply Gr_bind; [apply Gr_plain; rl|].
    intros []; [|apply Gr_plain; rl]. apply Gr_bind; [|intros _ s; apply gr_checkpoint]. intros s. split; [reflexivity|].
    exists []. split; [reflexivity| intros p []].
  Qed.
  Lemma Gr_judge e b : not_iter e = true -> Gr (act e (fun c => set_kconverged (b c) c)).
  Proof. intros He s. split; [reflexivity|]. exists [(st_core s, e)]. split; [reflexivity|]. intros p [<-|[]]. exact He. Qed.

  (** After an iteration no checkpoint is overdue. *)
  Record cnt (s : mstate) : Prop := mkCnt { cnt_last : k_last_iter (st_core s) = last_saved (st_hist s); cnt_ask : k_chkpt (st_core s) = false }.
  Lemma cnt_inner s s' : (forall t, ~ In MCheckpointFile (w_moves w t)) -> rl inner_ev s s' -> cnt s -> cnt s'.
  Proof.
    intros Hf H [A B]. split; [|eapply no_request; eassumption]. rewrite (r_last _ _ _ H), A. unfold last_saved.
    rewrite (proj1 (inner_saves _ _ H)). reflexivity.
  Qed.
  Lemma iteration_due n s0 : g_chk g = true -> by_count g w n -> (forall t, w_err w t <> Some CheckpointingError) -> cnt s0 ->
    HT (fun s => s = s0) (iteration g w limit)
      (fun _ s => cnt s /\ (saves (st_hist s) <> saves (st_hist s0) \/ k_f (st_core s) <= last_saved (st_hist s0) + n)).
  Proof.
    intros Hg (Hn & _ & Ht & Hf) Hw H0. unfold iteration, pack_ids.
    set (P := fun s => cnt s /\ saves (st_hist s) = saves (st_hist s0)).
    set (Q := fun s => cnt s /\ (saves (st_hist s) <> saves (st_hist s0) \/ k_f (st_core s) <= last_saved (st_hist s0) + n)).
    assert (HG : forall {A} (m : M mstate A), Rl plain_ev m -> HT P m (fun _ => P)).
    { intros A m Hm. apply HT_post. intros s [Hs Es] _. pose proof (rl_weak _ _ _ _ plain_inner (Hm s)) as Hi.
      split; [eapply cnt_inner; eassumption|]. rewrite (proj1 (inner_saves _ _ Hi)). exact Es. }
    assert (HM : HT P (manual_checkpoints g w limit) (fun _ => P)).
    { unfold manual_checkpoints. apply HT_bind with (R := fun _ => P); [apply HG; rl|]. intros _ s Hs.
      unfold bind, getc, gets. rewrite (cnt_ask _ (proj1 Hs)). exact Hs. }
    assert (HJ : forall x y b, HT P (act (EvJudge x y) (fun c => set_kconverged (b c) c)) (fun _ => P)).
    { intros x y b s [[A B] C]. cbn. split; [split|]; assumption. }
    assert (HP : HT P (periodic_checkpoint g w limit) (fun _ => Q)).
    { unfold periodic_checkpoint. rewrite Hg. apply HT_bind with (R := fun _ => P); [apply HG; rl|]. intros t s [Hs Es].
      unfold bind at 1. unfold getc, gets. rewrite Ht, Hn.
      destruct (n <? k_f (st_core s) - k_last_iter (st_core s)) eqn:E; [apply Nat.ltb_lt in E| apply Nat.ltb_ge in E].
      2:{ cbn. split; [exact Hs|]. right. unfold last_saved. rewrite <- Es. fold (last_saved (st_hist s)). rewrite <- (cnt_last _ Hs). lia. }
      unfold bind. set (s2 := mkMS (set_klast_iter (k_f (st_core s)) (st_core s)) (st_hist s)). change (modc _ s) with (Ok tt, s2). cbv iota beta.
      destruct (checkpoint_cases s2) as [(s3 & R1 & F1 & R2)|[_ R]].
      - destruct (checkpoint g w limit s2) as [[[]|e] s4]; [|exact I]. cbn [snd] in R2.
        assert (H3 : cnt (begun s3)).
        { split; [|exact (no_request _ _ _ Hf R1 (cnt_ask _ Hs))]. change (k_last_iter (st_core s3) = k_f (st_core s3)).
          rewrite (r_last _ _ _ R1), F1. reflexivity. }
        split; [eapply cnt_inner; eassumption|]. left. rewrite (proj1 (inner_saves _ _ R2)).
        change (saves (st_hist (begun s3))) with (st_core s3 :: saves (st_hist s3)). rewrite (proj1 (inner_saves _ _ R1)).
        change (st_hist s2) with (st_hist s). rewrite Es. intro X. apply (f_equal (@length core)) in X. cbn in X. lia.
      - specialize (R Hw). destruct (checkpoint g w limit s2) as [[[]|e] s4]; [|exact I]. destruct (R eq_refl). }
    apply HT_bind with (R := fun _ => P). { intros s ->. destruct H0 as [A B]. split; [split; assumption| reflexivity]. } intros _.
    repeat first
      [ apply HT_bind with (R := fun _ => Q); [exact HP| intros ? s Hs; exact Hs]
      | apply HT_bind with (R := fun _ => P); [first [exact HM | apply HJ | apply HG; solve [rl]] | intros] ].
  Qed.

  (** A request found at the beginning of an iteration is answered in it. *)
  Lemma iteration_request s0 : (forall t, w_err w t <> Some CheckpointingError) -> k_chkpt (st_core s0) = true ->
    HT (fun s => s = s0) (iteration g w limit) (fun _ s => length (saves (st_hist s0)) < length (saves (st_hist s))).
  Proof.
    intros Hw Hk. unfold iteration, pack_ids.
    set (P1 := fun s => k_chkpt (st_core s) = true /\ length (saves (st_hist s0)) <= length (saves (st_hist s))).
    set (P2 := fun s => length (saves (st_hist s0)) < length (saves (st_hist s))).
    assert (H1 : forall {A} (m : M mstate A), Rl plain_ev m -> HT P1 m (fun _ => P1)).
    { intros A m Hm. apply HT_post. intros s [Ha Hb] _. split; [exact (r_keep _ _ _ (Hm s) Ha)|].
      rewrite (proj1 (plain_saves _ _ (Hm s))). exact Hb. }
    assert (H2 : forall {A} (m : M mstate A), (forall s, exists new, st_hist (snd (m s)) = new ++ st_hist s /\ forall p, In p new -> not_iter (snd p) = true) ->
      HT P2 m (fun _ => P2)).
    { intros A m Hm. apply HT_post. intros s Ha _. unfold P2 in *. pose proof (proj1 (gr_saves _ _ (Hm s))). lia. }
    assert (HG : forall {A} (m : M mstate A), Gr m -> forall s, exists new, st_hist (snd (m s)) = new ++ st_hist s /\ forall p, In p new -> not_iter (snd p) = true).
    { intros A m Hm s. apply gr_hist, Hm. }
    assert (HM : HT P1 (manual_checkpoints g w limit) (fun _ => P2)).
    { unfold manual_checkpoints. apply HT_bind with (R := fun _ => P1); [apply H1; rl|]. intros _ s [Ha Hb].
      unfold bind at 1. unfold getc, gets. rewrite Ha. unfold bind.
      set (s2 := mkMS (set_kchkpt false (st_core s)) (st_hist s)). change (modc _ s) with (Ok tt, s2). cbv iota beta.
      destruct (checkpoint_cases s2) as [(s3 & R1 & _ & R2)|[_ R]].
      - destruct (checkpoint g w limit s2) as [[[]|e] s4]; [|exact I]. cbn [snd] in R2. unfold P2. rewrite (proj1 (inner_saves _ _ R2)).
        change (saves (st_hist (begun s3))) with (st_core s3 :: saves (st_hist s3)). cbn [length]. rewrite (proj1 (inner_saves _ _ R1)).
        change (st_hist s2) with (st_hist s). lia.
      - specialize (R Hw). destruct (checkpoint g w limit s2) as [[[]|e] s4]; [|exact I]. destruct (R eq_refl). }
    assert (HP : forall s, exists new, st_hist (snd (periodic_checkpoint g w limit s)) = new ++ st_hist s /\ forall p, In p new -> not_iter (snd p) = true).
    { unfold periodic_checkpoint. destruct (g_chk g); [|intro s; apply gr_hist, gr_refl].
      intro s. unfold bind at 1. pose proof (R_tick plain_ev s) as Ht. apply gr_plain in Ht. destruct (tick w limit s) as [[t|e] s1]; cbn [snd] in *; [|apply Ht].
      unfold bind at 1. unfold getc, gets. destruct (w_time_chk w t); [eapply gr_trans; [exact Ht| apply gr_checkpoint]|].
      destruct (g_iter_freq g) as [n|]; [|apply Ht]. destruct (n <? _); [|apply Ht]. unfold bind.
      set (s2 := mkMS (set_klast_iter (k_f (st_core s1)) (st_core s1)) (st_hist s1)). change (modc _ s1) with (Ok tt, s2). cbv iota beta.
      destruct (gr_hist _ _ Ht) as (n1 & E1 & N1). destruct (gr_hist _ _ (gr_checkpoint s2)) as (n2 & E2 & N2). exists (n2 ++ n1).
      split; [rewrite E2; cbn; rewrite E1, app_assoc; reflexivity|]. intros p Hp. apply in_app_iff in Hp as [|]; auto. }
    apply HT_bind with (R := fun _ => P1). { intros s ->. split; [exact Hk| apply le_n]. } intros _.
    repeat first
      [ apply HT_bind with (R := fun _ => P1); [apply H1; solve [rl]| intros]
      | apply HT_bind with (R := fun _ => P2); [exact HM| intros]
      | apply HT_bind with (R := fun _ => P2); [apply H2; first [exact HP | apply HG, Gr_judge; reflexivity | apply HG, Gr_plain; solve [rl]] | intros] ].
    intros s Hs. exact Hs.
  Qed.

  (** The history of an iteration. *)
  Definition adds (s s' : mstate) : Prop := exists new, st_hist s' = new ++ st_hist s /\ forall p, In p new -> not_iter (snd p) = true.
  Lemma adds_same s s' : st_hist s' = st_hist s -> adds s s'.
  Proof. intro E. exists []. split; [exact E| intros p []]. Qed.
  Lemma adds_trans a b c : adds a b -> adds b c -> adds a c.
  Proof.
    intros (n1 & A6 & A7) (n2 & B6 & B7). exists (n2 ++ n1). split; [rewrite B6, A6, app_assoc; reflexivity|].
    intros p Hp. apply in_app_iff in Hp as [|]; auto.
  Qed.
  Definition Ad {A} (m : M mstate A) : Prop := forall s, adds s (snd (m s)).
  Lemma Ad_gr {A} (m : M mstate A) : Gr m -> Ad m.
  Proof. intros H s. apply gr_hist, H. Qed.
  Lemma Ad_plain {A} (m : M mstate A) : Rl plain_ev m -> Ad m.
  Proof. intro H. apply Ad_gr, Gr_plain, H. Qed.
  Lemma Ad_bind {A B} (m : M mstate A) (f : A -> M mstate B) : Ad m -> (forall a, Ad (f a)) -> Ad (bind m f).
  Proof.
    intros Hm Hf s. unfold bind. specialize (Hm s). destruct (m s) as [[a|e] s']; [|exact Hm]. eapply adds_trans; [exact Hm| apply Hf].
  Qed.
  Lemma Ad_checkpoint : Ad (checkpoint g w limit).
  Proof. apply Ad_gr. intro s. apply gr_checkpoint. Qed.
  Lemma Ad_periodic : Ad (periodic_checkpoint g w limit).
  Proof.
    unfold periodic_checkpoint. destruct (g_chk g); [|intro s; apply adds_same; reflexivity].
    apply Ad_bind; [apply Ad_plain; rl|]. intros t. apply Ad_bind; [apply Ad_plain; rl|]. intros c.
    destruct (w_time_chk w t); [apply Ad_checkpoint|]. destruct (g_iter_freq g) as [n|]; [|intro s; apply adds_same; reflexivity].
    destruct (n <? _); [|intro s; apply adds_same; reflexivity]. apply Ad_bind; [|intros _; apply Ad_checkpoint]. intro s. apply adds_same; reflexivity.
  Qed.
  Lemma iteration_adds s : adds (turned s) (snd (iteration g w limit s)).
  Proof.
    unfold iteration, pack_ids. set (rest := (fill_slots g w limit ;;; _)).
    assert (H : Ad rest).
    { unfold rest. repeat first [ apply Ad_periodic | apply Ad_gr, Gr_manual | apply Ad_gr, Gr_judge; reflexivity
                                | apply Ad_plain; solve [rl] | apply Ad_bind; [|intros] ]. }
    apply (H (turned s)).
  Qed.

  Section Turns.
    Context (Q : core -> hist -> core -> hist -> Prop).
    Context (J : mstate -> Prop).
    Hypothesis J_plain : forall s s', rl plain_ev s s' -> J s -> J s'.
    Hypothesis J_conv : forall s b, J s -> J (mkMS (set_kconverged b (st_core s)) (st_hist s)).
    Hypothesis J_iter : forall s b s', J s -> iteration g w limit s = (Ok b, s') -> J s'.
    Hypothesis HQ : forall s b s' new, J s -> iteration g w limit s = (Ok b, s') -> st_hist s' = new ++ st_hist (turned s) ->
      Q (st_core s') new (st_core s) (st_hist s).
    Definition turns (s : mstate) : Prop := forall c1 mid c0 h0, one_turn (st_hist s) c1 mid c0 h0 -> Q c1 mid c0 h0.
    Definition head (s : mstate) : Prop :=
      turns s /\ J s /\ forall mid c0 h0, st_hist s = mid ++ (c0, EvIter) :: h0 -> begins mid = [] -> Q (st_core s) mid c0 h0.
    Lemma split_iter (new : hist) h h1 c1 h2 : begins new = [] -> new ++ h = h1 ++ (c1, EvIter) :: h2 -> exists h3, h1 = new ++ h3 /\ h = h3 ++ (c1, EvIter) :: h2.
    Proof.
      revert h1. induction new as [|[c e] new IH]; intros h1 Hn E; [exists h1; auto|]. cbn in E.
      destruct h1 as [|p h1]; cbn in E; inversion E; subst.
      - discriminate Hn.
      - rename H1 into E2. destruct (IH h1) as (h3 & -> & ->); [destruct e; try exact Hn; discriminate Hn| exact E2|]. exists h3. auto.
    Qed.
    Lemma turns_adds s s' : adds s s' -> turns s -> turns s'.
    Proof.
      intros (new & E & Hn) H c1 mid c0 h0 (h1 & E1 & Hm). rewrite E in E1.
      destruct (split_iter new _ _ _ _ (begins_none _ Hn) E1) as (h3 & -> & E2). apply H. exists h3. auto.
    Qed.
    Lemma turns_turned s : head s -> turns (turned s).
    Proof.
      intros (H1 & _ & H2) c1 mid c0 h0 ([|p h1] & E & Hm); cbn in E.
      - injection E as <- E. eapply H2; eassumption.
      - injection E as _ E. apply H1. exists h1. auto.
    Qed.
    Lemma iteration_turns s : head s -> turns (snd (iteration g w limit s)) /\ match iteration g w limit s with (Ok _, s') => head s' | _ => True end.
    Proof.
      intros H. pose proof (iteration_adds s) as Ha. assert (Ht : turns (snd (iteration g w limit s))).
      { eapply turns_adds; [exact Ha| apply turns_turned, H]. }
      split; [exact Ht|]. destruct (iteration g w limit s) as [[b|e] s'] eqn:E; [|exact I]. split; [exact Ht|]. destruct H as (_ & HJ & _). split; [eapply J_iter; eassumption|]. cbn [snd] in *.
      intros mid c0 h0 E0 Hm. destruct Ha as (new & En & Hn). rewrite E0 in En.
      assert (Hx : mid = new /\ c0 = st_core s /\ h0 = st_hist s).
      { symmetry in En. destruct (split_iter new _ _ _ _ (begins_none _ Hn) En) as ([|p h3] & Ep & E2); cbn in E2.
        - injection E2 as <- <-. rewrite app_nil_r in Ep. auto.
        - injection E2 as <- _. rewrite Ep, begins_app in Hm. apply app_eq_nil in Hm as [_ Hm]. discriminate Hm. }
      destruct Hx as (-> & -> & ->). eapply HQ; [exact HJ| exact E|]. rewrite E0. exact En.
    Qed.
    Lemma main_turns fuel : forall r s, head s -> turns (snd (main_loop g w limit fuel r s)).
    Proof.
      induction fuel as [|fuel IH]; intros r s H; cbn [main_loop]; [apply H|]. unfold bind at 1, getc, gets.
      destruct (k_converged (st_core s)); [apply H|]. unfold bind. pose proof (iteration_turns s H) as [Ha Hb].
      destruct (iteration g w limit s) as [[b|e] s']; [apply IH; exact Hb| exact Ha].
    Qed.
    (** Histories without iterations before the loop. *)
    Lemma begins_turns s : begins (st_hist s) = [] -> turns s.
    Proof. intros H c1 mid c0 h0 (h1 & E & _). rewrite E, begins_app in H. apply app_eq_nil in H as [_ H]. discriminate H. Qed.
    Lemma begins_head s : J s -> begins (st_hist s) = [] -> head s.
    Proof.
      intros Hj H. split; [apply begins_turns, H|]. split; [exact Hj|]. intros mid c0 h0 E _. rewrite E, begins_app in H. apply app_eq_nil in H as [_ H]. discriminate H.
    Qed.
    Lemma adds_begins s s' : adds s s' -> begins (st_hist s) = [] -> begins (st_hist s') = [].
    Proof. intros H E. rewrite (proj2 (gr_saves _ _ H)). exact E. Qed.
    Lemma body_turns r s : J s -> begins (st_hist s) = [] -> turns (snd (run_body g w limit r s)).
    Proof.
      intros Hj Hs. unfold run_body, pack_ids. unfold bind at 1, getc at 1, gets at 1.
      set (pre := for_each _ _). assert (Hr : Rl plain_ev pre) by (unfold pre; rl). pose proof (J_plain _ _ (Hr s) Hj) as Hj1. pose proof (Ad_plain _ Hr s) as Hp.
      unfold bind at 1. destruct (pre s) as [[[]|e] s1]; cbn [snd] in *; [|apply begins_turns; eapply adds_begins; eassumption].
      pose proof (main_turns (S limit) r s1 (begins_head _ Hj1 (adds_begins _ _ Hp Hs))) as Hm.
      unfold bind at 1. destruct (main_loop g w limit (S limit) r s1) as [[r'|e] s2]; cbn [snd] in *; [|exact Hm].
      match goal with |- turns (snd (?m s2)) => set (post := m) end. assert (Hq : Ad post).
      { unfold post. apply Ad_bind; [destruct (_ && _); [apply Ad_checkpoint| intro; apply adds_same; reflexivity]|]. intros _.
        apply Ad_bind; [apply Ad_plain, R_stop_all| intros _ x; apply adds_same; reflexivity]. }
      eapply turns_adds; [apply Hq| exact Hm].
    Qed.
    Lemma start_turns s : J s -> begins (st_hist s) = [] -> turns (snd (start_manager g w limit s)).
    Proof.
      intros Hj Hs. unfold start_manager. unfold bind at 1. set (pre := try_except _ _ _).
      assert (Hj1 : J (snd (pre s))).
      { unfold pre, try_except. set (m := (chk <- _ ;; _)).
        assert (Hm : Pv J m).
        { unfold m. repeat first [ apply Pv_setconv; exact J_conv | apply Pv_of; [exact J_plain| solve [rl]] | apply Pv_bind; [|intros] ]. }
        specialize (Hm s Hj). destruct (m s) as [[a|e] s']; [exact Hm|]. destruct (is_exception e); [|exact Hm].
        cbn. exact (J_conv _ _ Hm). }
      assert (Hp : Ad pre).
      { intro x. unfold pre, try_except. set (m := (chk <- _ ;; _)).
        assert (Hm : Ad m).
        { unfold m. repeat first [ apply Ad_plain; solve [rl] | apply Ad_bind; [|intros] | intro; apply adds_same; reflexivity ]. }
        specialize (Hm x). destruct (m x) as [[a|e] s']; [exact Hm|]. destruct (is_exception e); exact Hm. }
      specialize (Hp s). destruct (pre s) as [[o|e] s1]; cbn [snd] in *; [|apply begins_turns; eapply adds_begins; eassumption].
      apply adds_begins in Hp; [|exact Hs]. clear Hs.
      assert (HB : forall r s2, J s2 -> begins (st_hist s2) = [] -> turns (snd (match run_body g w limit r s2 with
                 | (Ok r, s1) => finish r s1
                 | (Err OutOfFuel, s1) => (Err OutOfFuel, s1)
                 | (Err e, s1) =>
                     match stop_all_children w limit (Some (crash_text e)) s1 with
                     | (Err OutOfFuel, s2) => (Err OutOfFuel, s2)
                     | (_, s2) => finish (match e with KeyboardInterrupt => RInterrupt | _ => RCrash e end) s2
                     end
                 end))).
      { intros r s2 Hj2 H2. pose proof (body_turns r s2 Hj2 H2) as Hb. destruct (run_body g w limit r s2) as [[r'|e] s3]; cbn [snd] in Hb.
        - eapply turns_adds; [apply (Ad_plain _ (R_finish r'))| exact Hb].
        - pose proof (turns_adds _ _ (Ad_plain _ (R_stop_all (Some (crash_text e))) s3) Hb) as Hc.
          assert (Hf : forall r s4, turns s4 -> turns (snd (finish r s4))) by (intros r4 s4; apply turns_adds, (Ad_plain _ (R_finish r4))).
          destruct e; try exact Hb; (destruct (stop_all_children _ _ _ s3) as [[[]|e'] s4]; cbn [snd] in Hc;
              [apply Hf; exact Hc | destruct e'; first [exact Hc | apply Hf; exact Hc]]). }
      pose proof (Ad_plain _ (R_ext plain_ev) s1) as He. pose proof (J_plain _ _ (R_ext plain_ev s1) Hj1) as Hj2. unfold bind.
      destruct o as [[]|]; [apply begins_turns, Hp| |];
        (destruct (ext w limit s1) as [[[]|e] s2]; cbn [snd] in He; apply adds_begins in He; try exact Hp; [apply HB; assumption| apply begins_turns; exact He]).
    Qed.
  End Turns.

  (** *** The checkpoint at the end *)
  Lemma main_converged fuel : forall r s, match main_loop g w limit fuel r s with (Ok _, s') => k_converged (st_core s') = true | _ => True end.
  Proof.
    induction fuel as [|fuel IH]; intros r s; cbn [main_loop]; [exact I|]. unfold bind at 1, getc, gets.
    destruct (k_converged (st_core s)) eqn:E; [exact E|]. unfold bind. destruct (iteration g w limit s) as [[b|e] s']; [apply IH| exact I].
  Qed.
  Definition final_save (s : mstate) : Prop :=
    exists h1 c h0, st_hist s = h1 ++ (c, EvSaveLog) :: h0 /\ k_converged c = true /\ begins h1 = [].
  Lemma final_adds s s' : adds s s' -> final_save s -> final_save s'.
  Proof.
    intros (new & E & Hn) (h1 & c & h0 & E1 & Hc & Hb). exists (new ++ h1), c, h0. rewrite E, E1, app_assoc.
    split; [reflexivity|]. split; [exact Hc|]. rewrite begins_app, (begins_none new Hn), Hb. reflexivity.
  Qed.
  Lemma body_final r s : g_chk g = true -> g_at_conv g = true -> (forall t, w_err w t <> Some CheckpointingError) ->
    match run_body g w limit r s with (Ok _, s') => final_save s' | _ => True end.
  Proof.
    intros Hg Ha Hw. unfold run_body, pack_ids. unfold bind at 1, getc at 1, gets at 1. unfold bind at 1.
    destruct (for_each _ _ s) as [[[]|e] s1]; [|exact I]. unfold bind at 1. pose proof (main_converged (S limit) r s1) as Hm.
    destruct (main_loop g w limit (S limit) r s1) as [[r'|e] s2]; [|exact I]. rewrite Hg, Ha. cbn [andb]. unfold bind at 1.
    destruct (checkpoint_cases s2) as [(s3 & R1 & _ & R2)|[_ R]].
    - destruct (checkpoint g w limit s2) as [[[]|e] s4]; [|exact I]. cbn [snd] in R2.
      assert (Hf : final_save s4).
      { eapply final_adds; [apply gr_hist, gr_inner; exact R2|]. exists [], (st_core s3), (st_hist s3). splits; auto.
        rewrite (r_conv _ _ _ R1). exact Hm. }
      unfold bind. pose proof (Ad_plain _ (R_stop_all None) s4) as Hs. destruct (stop_all_children w limit None s4) as [[[]|e] s5]; [|exact I].
      eapply final_adds; [exact Hs| exact Hf].
    - specialize (R Hw). destruct (checkpoint g w limit s2) as [[[]|e] s4]; [|exact I]. destruct (R eq_refl).
  Qed.
  Lemma start_final s0 r x s : g_chk g = true -> g_at_conv g = true -> (forall t, w_err w t <> Some CheckpointingError) ->
    start_manager g w limit s0 = (Ok (Some r, x), s) -> r <> RInterrupt -> (forall e, r <> RCrash e) -> final_save s.
  Proof.
    intros Hg Ha Hw. unfold start_manager. unfold bind at 1. set (pre := try_except _ _ _). destruct (pre s0) as [[o|e] s1]; [|discriminate].
    assert (HB : forall r0 s2, (match run_body g w limit r0 s2 with
                 | (Ok r, s1) => finish r s1
                 | (Err OutOfFuel, s1) => (Err OutOfFuel, s1)
                 | (Err e, s1) =>
                     match stop_all_children w limit (Some (crash_text e)) s1 with
                     | (Err OutOfFuel, s2) => (Err OutOfFuel, s2)
                     | (_, s2) => finish (match e with KeyboardInterrupt => RInterrupt | _ => RCrash e end) s2
                     end
                 end) = (Ok (Some r, x), s) -> r <> RInterrupt -> (forall e, r <> RCrash e) -> final_save s).
    { intros r0 s2 E Hi Hc. pose proof (body_final r0 s2 Hg Ha Hw) as Hb. destruct (run_body g w limit r0 s2) as [[r'|e] s3].
      - pose proof (Ad_plain _ (R_finish r') s3) as Hf. rewrite E in Hf. eapply final_adds; [exact Hf| exact Hb].
      - exfalso. assert (Hx : forall r1 s4, finish r1 s4 = (Ok (Some r, x), s) -> r = r1).
        { intros r1 s4. unfold finish, bind, act, modify, logm. match goal with |- context [log_close ?l] => destruct (log_close l) as [[[]|] l1] end; cbn; intro E1; inversion E1; reflexivity. }
        destruct e; try discriminate E; (destruct (stop_all_children _ _ _ s3) as [[[]|e'] s4];
          [apply Hx in E | destruct e'; try discriminate E; apply Hx in E]; first [exact (Hi E) | exact (Hc _ E)]). }
    destruct o as [[]|]; [discriminate| |]; unfold bind; (destruct (ext w limit s1) as [[[]|e] s2]; [apply HB| discriminate]).
  Qed.
End Due.
