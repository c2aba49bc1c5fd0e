(** * Where KeyboardInterrupt comes from *)
From Verif Require Import Prelude Prelude_Proofs Logger_Model Manager_Model Manager_Spec Manager_Proofs Manager_Trace Ends_Spec.
From Coq Require Import Lia.
Open Scope nat_scope.

Section Intr.
  Context (g : config) (w : world) (limit : nat) (Hw : one_interrupt w).

  (** An interrupt that leaves a method came at a tick of this method. *)
  Definition B {A} (m : M mstate A) : Prop := forall s, k_tick (st_core s) <= k_tick (st_core (snd (m s))) /\
    (fst (m s) = Err KeyboardInterrupt -> exists t, k_tick (st_core s) <= t < k_tick (st_core (snd (m s))) /\ w_intr w t = true).

  Lemma B_ret {A} (a : A) : B (ret a).
  Proof. intro s. split; [apply le_n| discriminate]. Qed.
  Lemma B_raise {A} e : e <> KeyboardInterrupt -> B (@raise mstate A e).
  Proof. intros He s. split; [apply le_n|]. cbn. intros [= ->]. contradiction. Qed.
  Lemma B_lift {A} (r : res A) : r <> Err KeyboardInterrupt -> B (lift r).
  Proof. intros He s. split; [apply le_n|]. cbn. intros ->. contradiction. Qed.
  Lemma B_bind {A C} (m : M mstate A) (f : A -> M mstate C) : B m -> (forall a, B (f a)) -> B (bind m f).
  Proof.
    intros Hm Hf s. unfold bind. specialize (Hm s). destruct (m s) as [[a|e] s']; cbn [fst snd] in *; destruct Hm as [H1 H2].
    - destruct (Hf a s') as [H3 H4]. split; [lia|]. intro E. destruct (H4 E) as (t & ? & ?). exists t. split; [lia|assumption].
    - split; [exact H1|]. intros [= ->]. apply H2. reflexivity.
  Qed.
  Lemma B_getc {A} (f : core -> A) : B (getc f).
  Proof. intro s. split; [apply le_n| discriminate]. Qed.
  Lemma B_modc f : (forall c, k_tick (f c) = k_tick c) -> B (modc f).
  Proof. intros H s. split; [cbn; rewrite H; apply le_n| discriminate]. Qed.
  Lemma B_act e f : (forall c, k_tick (f c) = k_tick c) -> B (act e f).
  Proof. intros H s. split; [cbn; rewrite H; apply le_n| discriminate]. Qed.
  Lemma B_logm {A} (m : M logger A) : (forall l, fst (m l) <> Err KeyboardInterrupt) -> B (logm m).
  Proof. intros H s. unfold logm. specialize (H (k_log (st_core s))). destruct (m _) as [r l]. split; [apply le_n|]. cbn in *. intros ->. contradiction. Qed.
  Lemma B_for_each {A} (l : list A) f : (forall a, B (f a)) -> B (for_each l f).
  Proof. intros H. induction l as [|a l IH]; cbn; [apply B_ret|]. apply B_bind; auto. Qed.
  Lemma B_try {A} (m : M mstate A) f h : B m -> (forall e, B (h e)) -> B (try_except m f h).
  Proof.
    intros Hm Hh s. unfold try_except. specialize (Hm s). destruct (m s) as [[a|e] s']; cbn [fst snd] in *; [exact Hm|].
    destruct (f e); [|exact Hm]. destruct (Hh e s') as [H1 H2], Hm as [H3 H4]. split; [lia|].
    intro E. destruct (H2 E) as (t & ? & ?). exists t. split; [lia|assumption].
  Qed.
  Lemma B_best : B (fun s => (get_best_iter None (k_log (st_core s)), s)).
  Proof. intro s. split; [apply le_n|]. cbn [fst]. unfold get_best_iter. match goal with |- context [match ?x with _ => _ end] => destruct x end; discriminate. Qed.
  Lemma B_tick : B (tick w limit).
  Proof.
    intro s. unfold tick. destruct (Nat.leb _ _); [split; [apply le_n| discriminate]|].
    destruct (w_intr w _) eqn:E; (split; [cbn; lia|]); [|discriminate]. intros _. exists (k_tick (st_core s)). cbn. split; [lia| exact E].
  Qed.

  Lemma nk_meta i k v l : fst (put_metadata i k v l) <> Err KeyboardInterrupt.
  Proof. unfold put_metadata. destruct (nget _ _); discriminate. Qed.
  Lemma nk_msg i m l : fst (put_message i m l) <> Err KeyboardInterrupt.
  Proof. unfold put_message. destruct (nget _ _); discriminate. Qed.
  Lemma nk_add i a b l : fst (add_optimizer i a b l) <> Err KeyboardInterrupt.
  Proof. discriminate. Qed.
  Lemma nk_hist i h l : fst (add_iter_history i h l) <> Err KeyboardInterrupt.
  Proof. unfold add_iter_history. destruct (nget _ _); discriminate. Qed.
  Lemma nk_clear i l : fst (clear_cache i l) <> Err KeyboardInterrupt.
  Proof. unfold clear_cache. destruct (l_traj l); [discriminate|]. destruct i as [[|k]|]; try discriminate. destruct (nmemd _ _); discriminate. Qed.
  Lemma nk_bind {A C} (m : M logger A) (f : A -> M logger C) : (forall l, fst (m l) <> Err KeyboardInterrupt) ->
    (forall a l, fst (f a l) <> Err KeyboardInterrupt) -> forall l, fst (bind m f l) <> Err KeyboardInterrupt.
  Proof. intros H1 H2 l. unfold bind. specialize (H1 l). destruct (m l) as [[a|e] l']; [apply H2|]. cbn in *. intros [= ->]. apply H1. reflexivity. Qed.
  Lemma nk_iter r l : fst (put_iteration r l) <> Err KeyboardInterrupt.
  Proof.
    revert l. unfold put_iteration. apply nk_bind; [intro; discriminate|]. intros []. apply nk_bind.
    { intro l. unfold put_best. destruct (nget _ _) as [a|]; [|discriminate].
      destruct (nth_error (l_heap l) a); [|discriminate]. destruct (nlt _ _); [|discriminate]. cbn [l_heap set_heap l_best].
      match goal with |- context [nth_error ?x ?y] => destruct (nth_error x y) end; discriminate. }
    intros []. apply nk_bind; [intro; discriminate|]. intros [] l. unfold put_row. destruct (nget _ _); discriminate.
  Qed.

  Create HintDb bd.
  Hint Resolve B_tick B_best nk_meta nk_msg nk_add nk_hist nk_clear nk_iter : bd.
  Ltac tk := intros; try (match goal with |- context [match ?x with _ => _ end] => destruct x end); reflexivity.
  Ltac bd := repeat first
    [ apply B_ret | apply B_raise; discriminate | apply B_getc | apply B_best
    | solve [auto with bd]
    | apply B_logm; solve [intros; auto with bd] | apply B_lift; solve [apply Hw]
    | apply B_act; tk | apply B_modc; tk
    | apply B_for_each; intros | apply B_try; [|intros] | apply B_bind; [|intros]
    | match goal with |- B (match ?x with _ => _ end) => destruct x end
    | match goal with |- B (if ?x then _ else _) => destruct x end
    | match goal with |- B (let '_ := ?x in _) => destruct x end ].

  Lemma B_ext : B (ext w limit).
  Proof.
    unfold ext. apply B_bind; [apply B_tick|]. intro t. destruct (w_err w t) eqn:E; [|apply B_ret]. apply B_raise.
    intros ->. exact (oi_err _ Hw t E).
  Qed.
  Hint Resolve B_ext : bd.
  Lemma B_alive i : B (is_alive w limit i).
  Proof. unfold is_alive. bd. Qed.
  Hint Resolve B_alive : bd.
  Lemma B_send i m : B (send w limit i m).
  Proof. unfold send, note. bd. Qed.
  Hint Resolve B_send : bd.
  Lemma B_living ids : B (living w limit ids).
  Proof. induction ids; cbn; bd. Qed.
  Hint Resolve B_living : bd.
  Lemma B_signals i : B (check_signals w limit i).
  Proof. unfold check_signals, in_grave, put_end. bd. Qed.
  Hint Resolve B_signals : bd.
  Lemma B_inspect : B (inspect_children g w limit).
  Proof. unfold inspect_children, inspect_child, inspect_dead, inspect_hang, inspect_zombie, pack_ids, in_grave, put_end. bd. Qed.
  Hint Resolve B_inspect : bd.
  Lemma B_shutdown i h : B (shutdown_job g w limit i h).
  Proof. unfold shutdown_job, put_end. bd. Qed.
  Hint Resolve B_shutdown : bd.
  Lemma B_hunt_loop h ids : B (hunt_loop g w limit h ids).
  Proof. induction ids; cbn [hunt_loop]; unfold in_grave; bd. Qed.
  Hint Resolve B_hunt_loop : bd.
  Lemma B_item q : B (process_item g w limit q).
  Proof. unfold process_item, accept, update_best, share_loop, start_hunt, pack_ids. bd. Qed.
  Hint Resolve B_item : bd.
  Lemma B_chunk l : forall acc, B (process_chunk g w limit l acc).
  Proof. induction l as [|q l IH]; intros acc; cbn [process_chunk]; bd. Qed.
  Hint Resolve B_chunk : bd.
  Lemma B_get : B (queue_get w limit).
  Proof. unfold queue_get. bd. Qed.
  Hint Resolve B_get : bd.
  Lemma B_loop fuel : forall max acc, B (process_loop g w limit fuel max acc).
  Proof. induction fuel as [|fuel IH]; intros max acc; cbn [process_loop]; bd. Qed.
  Hint Resolve B_loop : bd.
  Lemma B_results max : B (process_results g w limit max).
  Proof. unfold process_results. bd. Qed.
  Hint Resolve B_results : bd.
  Lemma B_shutdowns : B (manual_shutdowns g w limit).
  Proof. unfold manual_shutdowns, manual_shutdown. bd. Qed.
  Hint Resolve B_shutdowns : bd.
  Lemma B_pause ids : B (pause_all w limit ids).
  Proof. induction ids; cbn [pause_all]; bd. Qed.
  Hint Resolve B_pause : bd.
  Lemma B_sync_one i x : B (sync_one w limit i x).
  Proof. unfold sync_one, put_end, note. bd. Qed.
  Hint Resolve B_sync_one : bd.
  Lemma B_round ids : forall x, B (sync_round w limit ids x).
  Proof. induction ids as [|i ids IH]; intros x; cbn [sync_round]; bd. Qed.
  Hint Resolve B_round : bd.
  Lemma B_sync fuel : forall n x, B (sync_loop g w limit fuel n x).
  Proof. induction fuel as [|fuel IH]; intros n x; cbn [sync_loop]; bd. Qed.
  Hint Resolve B_sync : bd.
  Lemma B_hold_round ids : B (hold_round w limit ids).
  Proof. induction ids; cbn [hold_round]; bd. Qed.
  Hint Resolve B_hold_round : bd.
  Lemma B_hold fuel : forall ids, B (hold_loop w limit fuel ids).
  Proof. induction fuel as [|fuel IH]; intros ids; cbn [hold_loop]; bd. Qed.
  Hint Resolve B_hold : bd.
  (** A handler that raises what it caught. *)
  Lemma B_retry m b : B m -> B (try_except m (fun e => match e with CheckpointingError => true | _ => false end)
      (fun e => if b : bool then raise e else ret tt)).
  Proof.
    intros Hm s. unfold try_except. specialize (Hm s). destruct (m s) as [[a|e] s']; [exact Hm|].
    destruct e; try exact Hm. destruct b; (split; [apply Hm| discriminate]).
  Qed.
  Lemma B_checkpoint : B (checkpoint g w limit).
  Proof.
    unfold checkpoint, checkpoint_optimizers, confirm_one, save_one, toggle_one, pack_ids, note.
    apply B_bind; [bd|]. intros []. apply B_bind; [apply B_retry; bd|]. intros []. bd.
  Qed.
  Hint Resolve B_checkpoint : bd.
  Lemma B_manual : B (manual_checkpoints g w limit).
  Proof. unfold manual_checkpoints. bd. Qed.
  Lemma B_periodic : B (periodic_checkpoint g w limit).
  Proof. unfold periodic_checkpoint. bd. Qed.
  Lemma B_checker : B (checker_call w limit).
  Proof. unfold checker_call. bd. Qed.
  Lemma B_drain fuel : B (drain_loop w limit fuel).
  Proof. induction fuel; cbn [drain_loop]; bd. Qed.
  Hint Resolve B_manual B_periodic B_checker B_drain : bd.
  Lemma B_stop_all b : B (stop_all_children w limit b).
  Proof. unfold stop_all_children, stop_one, put_end, pack_ids. bd. Qed.
  Hint Resolve B_stop_all : bd.
  Lemma B_restart i : B (restart_one w limit i).
  Proof. unfold restart_one. bd. Qed.
  Lemma B_fill_loop fuel : forall n b, B (fill_loop g w limit fuel n b).
  Proof. induction fuel as [|fuel IH]; intros n b; cbn [fill_loop]; unfold setup_new_optimizer, add_to_log, start_new_job, note; bd. Qed.
  Hint Resolve B_restart B_fill_loop : bd.
  Lemma B_fill : B (fill_slots g w limit).
  Proof. unfold fill_slots, pack_ids. bd. Qed.
  Hint Resolve B_fill : bd.
  Lemma B_iteration : B (iteration g w limit).
  Proof. unfold iteration, pack_ids, purge_one, in_grave, note. bd. Qed.
  Hint Resolve B_iteration : bd.
  Lemma B_main fuel : forall r, B (main_loop g w limit fuel r).
  Proof. induction fuel as [|fuel IH]; intro r; cbn [main_loop]; bd. Qed.
  Hint Resolve B_main : bd.
  Lemma B_body r : B (run_body g w limit r).
  Proof. unfold run_body, pack_ids. bd. Qed.
End Intr.
