(** * Whoever is hunted has evaluations in the log *)
From Coq Require Import Lia.
From Verif Require Import Prelude Prelude_Proofs Logger_Model Logger_Spec Logger_Proofs Logged_Proofs Manager_Model Manager_Spec Manager_Proofs
  Restart_Model Resumed_Model Resumed_Spec Resumed_Proofs NoCrash_Spec.
Open Scope nat_scope.

(** ** The log *)
Definition some (e : entry) : Prop :=
  e_cols e = [] \/ exists ids xs c cs rest, e_cols e = (("call_id", ids) :: ("x", xs) :: ("fx", c :: cs) :: rest)%string.
(** The least of the recorded values, NaN left out. *)
Definition lower (m : num) (c : cell) : num := match c with CF f => if nlt f m then f else m | _ => m end.
Definition low (e : entry) : num := fold_left lower (match sget "fx" (e_cols e) with Some cs => cs | None => [] end) PInf.
Definition at_best (l : logger) (i : nat) (f : num) : Prop :=
  exists a b, nget i (l_bests l) = Some a /\ nth_error (l_heap l) a = Some b /\ b_fx b = f.
Definition apart (l : logger) : Prop := forall i j a, nget i (l_bests l) = Some a -> nget j (l_bests l) = Some a -> i = j.
Record G (l : logger) : Prop := mkG {
  g_addr : addr_ok l;
  g_nodup : NoDup (dkeys (l_store l));
  g_apart : apart l;
  g_best : forall i e, nget i (l_store l) = Some e -> at_best l i (low e);
  g_some : forall i e, nget i (l_store l) = Some e -> some e }.

Lemma G_core l l' : same_core l l' -> G l -> NoDup (dkeys (l_store l')) ->
  (forall i e', nget i (l_store l') = Some e' -> exists e, nget i (l_store l) = Some e /\ e_cols e' = e_cols e) -> G l'.
Proof.
  intros Hc [] Hn H. pose proof Hc as (_ & Hp & Hb & _ & _). split; auto; [eapply addr_ok_core; eassumption|unfold apart; rewrite <- Hb; assumption| |].
  - intros i e' He. destruct (H _ _ He) as (e & He1 & E1). unfold at_best, low. rewrite <- Hb, <- Hp, E1. apply (g_best0 _ _ He1).
  - intros i e' He. destruct (H _ _ He) as (e & He1 & E1). unfold some. rewrite E1. apply (g_some0 _ _ He1).
Qed.
Definition calm {A} (m : M logger A) : Prop := forall l, G l -> G (snd (m l)).
Lemma calm_meta i k v : calm (put_metadata i k v).
Proof.
  intros l H. eapply G_core; [apply core_meta|exact H| |]; unfold put_metadata; destruct (nget i (l_store l)) as [e|] eqn:E; cbn; eauto; try apply H.
  - apply NoDup_nset, H.
  - intros j e'. destruct (Nat.eq_dec j i) as [->|Hn]; [rewrite nget_nset_same; intros [= <-]; eauto|]. rewrite nget_nset_other by exact Hn. eauto.
Qed.
Lemma calm_msg i m : calm (put_message i m).
Proof.
  intros l H. eapply G_core; [apply core_msg|exact H| |]; unfold put_message; destruct (nget i (l_store l)) as [e|] eqn:E; cbn; eauto; try apply H.
  - apply NoDup_nset, H.
  - intros j e'. destruct (Nat.eq_dec j i) as [->|Hn]; [rewrite nget_nset_same; intros [= <-]; eauto|]. rewrite nget_nset_other by exact Hn. eauto.
Qed.
Lemma calm_clear o : calm (clear_cache o).
Proof.
  intros l H. eapply G_core; [apply core_clear|exact H| |]; unfold clear_cache; destruct (l_traj l); cbn; eauto; try apply H.
  - destruct o as [[|k]|]; cbn; try constructor. destruct (nget (S k) (l_store l)); unfold nmemd; destruct (nget _ _); cbn; try apply NoDup_ndel; apply H.
  - destruct o as [[|k]|]; cbn; try discriminate. destruct (nmemd (S k) (l_store l)); cbn; eauto.
    intros j e' He. destruct (Nat.eq_dec j (S k)) as [->|Hn].
    + rewrite nget_ndel_same in He by apply H. discriminate.
    + rewrite nget_ndel_other in He by exact Hn. eauto.
Qed.
Lemma calm_close : calm log_close.
Proof. apply calm_clear. Qed.
Lemma calm_add i ty t : calm (add_optimizer i ty t).
Proof.
  intros l H. split; cbn.
  - apply (addr_ok_step (AddOpt i ty t)), H.
  - apply NoDup_nset, H.
  - pose proof (g_addr _ H) as [_ Ha]. intros j k a. cbn. destruct (Nat.eq_dec j i) as [->|Hj], (Nat.eq_dec k i) as [->|Hk]; auto;
      rewrite ?nget_nset_same, ?nget_nset_other by assumption.
    + intros [= <-] Hk'. apply Ha in Hk'. lia.
    + intros Hj' [= <-]. apply Ha in Hj'. lia.
    + apply (g_apart _ H).
  - intros j e. destruct (Nat.eq_dec j i) as [->|Hn].
    + rewrite nget_nset_same. intros [= <-]. unfold at_best. cbn. rewrite nget_nset_same. eexists _, _. split; [reflexivity|].
      rewrite nth_error_app2, Nat.sub_diag by lia. split; reflexivity.
    + rewrite nget_nset_other by exact Hn. intro He. destruct (g_best _ H _ _ He) as (a & b & H1 & H2 & H3). unfold at_best. cbn.
      rewrite nget_nset_other by exact Hn. exists a, b. split; [exact H1|]. rewrite nth_error_app1 by (apply nth_error_Some; congruence). auto.
  - intros j e. destruct (Nat.eq_dec j i) as [->|Hn]; [rewrite nget_nset_same; intros [= <-]; left; reflexivity|].
    rewrite nget_nset_other by exact Hn. apply H.
Qed.
(** An evaluation is recorded, after the history was opened if there is none. *)
Definition ready (i : nat) (l : logger) : Prop :=
  addr_ok l /\ NoDup (dkeys (l_store l)) /\ apart l /\ (forall j e, nget j (l_store l) = Some e -> at_best l j (low e)) /\
  (forall j e, j <> i -> nget j (l_store l) = Some e -> some e) /\
  exists e ids xs fs rest, nget i (l_store l) = Some e /\ e_cols e = (("call_id", ids) :: ("x", xs) :: ("fx", fs) :: rest)%string.
Lemma ready_there i l : G l -> has_iter_history i l = true -> ready i l.
Proof.
  intros [] H. unfold has_iter_history in H. destruct (nget i (l_store l)) as [e|] eqn:E; [|discriminate]. unfold ready. splits; eauto.
  exists e. destruct (g_some0 _ _ E) as [H1|(ids & xs & c & cs & rest & H1)]; [rewrite H1 in H; discriminate|]. eexists _, _, _, _. split; [exact E|exact H1].
Qed.
Lemma ready_opened i hd l : G l -> has_iter_history i l = false ->
  match add_iter_history i hd l with (Ok _, l') => ready i l' | (Err _, l') => l' = l end.
Proof.
  intros [] H. unfold has_iter_history in H. unfold add_iter_history. destruct (nget i (l_store l)) as [e|] eqn:E; [|reflexivity].
  destruct (g_some0 _ _ E) as [H1|(ids & xs & c & cs & rest & H1)]; [|rewrite H1 in H; discriminate].
  rewrite H1. destruct (reset_new hd) as [rest ->]. unfold ready. cbn [l_store l_bests set_store]. splits.
  - exact g_addr0.
  - apply NoDup_nset. assumption.
  - assumption.
  - intros j e'. destruct (Nat.eq_dec j i) as [->|Hn]; [|rewrite nget_nset_other by exact Hn; apply g_best0].
    rewrite nget_nset_same. intros [= <-]. specialize (g_best0 _ _ E). unfold low in *. rewrite H1 in g_best0. exact g_best0.
  - intros j e' Hn. rewrite nget_nset_other by exact Hn. eauto.
  - rewrite nget_nset_same. eexists _, _, _, _, _. split; reflexivity.
Qed.
Lemma put_heap r l a b : addr_ok l -> nget (ir_opt r) (l_bests l) = Some a -> nth_error (l_heap l) a = Some b ->
  exists b', b_fx b' = ir_fx r /\ l_heap (snd (put_iteration r l)) = if nlt (ir_fx r) (b_fx b) then set_nth a b' (l_heap l) else l_heap l.
Proof.
  intros [Hl _] Ha Hb. exists (mkB (b_opt b) (ir_x r) (ir_fx r) (b_type b) (S (l_count l))). split; [reflexivity|].
  assert (Hrow : forall s, l_heap (snd ((put_max r ;;; put_row r) s)) = l_heap s).
  { intro s. unfold put_max, put_row, bind, modify. cbn [fst snd]. destruct (_ && _); cbn [l_store set_max]; destruct (nget _ (l_store s)); reflexivity. }
  unfold put_iteration, bind at 1, modify at 1. unfold bind at 1, put_best at 1. cbn [l_bests l_heap set_count]. rewrite Ha, Hb.
  destruct (nlt (ir_fx r) (b_fx b)); [|exact (Hrow _)]. cbn [l_best set_heap set_count l_heap l_count].
  destruct (nth_error (set_nth a _ (l_heap l)) (l_best l)) as [gb|] eqn:Eg.
  - rewrite Hrow. destruct (nlt _ _); reflexivity.
  - apply nth_error_None in Eg. rewrite length_set_nth in Eg. lia.
Qed.
Lemma put_ready r l : ready (ir_opt r) l -> G (snd (put_iteration r l)).
Proof.
  intros (A & N & P & B & O & e & ids & xs & fs & rest & E & H). destruct (B _ _ E) as (a & b & Ha & Hb & Hlow).
  destruct (put_heap r l a b A Ha Hb) as (b' & Hb' & Hheap). pose proof (put_iteration_bests r l) as Hbests. revert Hheap Hbests.
  destruct (put_iteration_parts r l a A Ha) as (l3 & -> & A1 & A2 & A3 & _ & _). unfold put_row. rewrite A3, E. cbn [snd l_heap l_bests set_store].
  intros Hheap _. split; cbn [l_store set_store l_bests].
  - exact A1.
  - apply NoDup_nset, N.
  - unfold apart. cbn. rewrite A2. exact P.
  - intros j e'. destruct (Nat.eq_dec j (ir_opt r)) as [->|Hn].
    + rewrite nget_nset_same. intros [= <-]. unfold at_best. cbn [l_bests set_store l_heap]. rewrite A2, Ha, Hheap.
      unfold low. cbn [e_cols]. unfold low in Hlow. rewrite H in *. cbn in Hlow |- *. rewrite fold_left_app. cbn [fold_left lower]. rewrite <- Hlow.
      destruct (nlt (ir_fx r) (b_fx b)); [exists a, b'|exists a, b]; splits; auto. exact (nth_error_set_nth_same _ _ _ _ Hb).
    + rewrite nget_nset_other by exact Hn. intro He. destruct (B _ _ He) as (a' & c & H1 & H2 & H3). unfold at_best. cbn [l_bests set_store l_heap].
      rewrite A2, Hheap. exists a', c. splits; auto. destruct (nlt _ _); [|exact H2]. rewrite nth_error_set_nth_other; [exact H2|].
      intros ->. apply Hn. exact (P _ _ _ H1 Ha).
  - intros j e'. destruct (Nat.eq_dec j (ir_opt r)) as [->|Hn]; [rewrite nget_nset_same; intros [= <-]|rewrite nget_nset_other by exact Hn; now apply O].
    right. cbn [e_cols]. rewrite H. cbn [zip_append]. destruct fs as [|c cs]; cbn [app]; eexists _, _, _, _, _; reflexivity.
Qed.
Lemma G_init traj : G (log_init traj).
Proof. split; cbn; [apply addr_ok_init|constructor| |discriminate|discriminate]. intros [|i] [|j] a; cbn; intros; try discriminate; reflexivity. Qed.
Lemma G_len i l : G l -> has_iter_history i l = true -> len_opt i l <> 0.
Proof.
  intros HG H. unfold len_opt. rewrite H. unfold has_iter_history in H. destruct (nget i (l_store l)) as [e|] eqn:E; [|discriminate].
  destruct (g_some _ HG _ _ E) as [H1|(ids & xs & c & cs & rest & H1)]; rewrite H1 in *; [discriminate|]. discriminate.
Qed.
Ltac calms := first [apply calm_msg | apply calm_clear | apply calm_close | apply calm_meta | apply calm_add].

(** ** The run *)
(** At every moment and at every event but the acceptance of an evaluation. *)
Definition FS (s : mstate) : Prop :=
  G (k_log (st_core s)) /\ forall c e, In (c, e) (st_hist s) -> (forall r, e <> EvAccept r) -> G (k_log c).

Section Filled.
  Context (g : config) (w : world) (limit : nat).
  Definition K {A} (m : M mstate A) : Prop := forall s, FS s -> FS (snd (m s)).
  Lemma K_ret {A} (x : A) : K (ret x). Proof. intros s H. exact H. Qed.
  Lemma K_raise {A} e : K (@raise mstate A e). Proof. intros s H. exact H. Qed.
  Lemma K_lift {A} (x : res A) : K (lift x). Proof. intros s H. exact H. Qed.
  Lemma K_getc {A} (f : core -> A) : K (getc f). Proof. intros s H. exact H. Qed.
  Lemma K_fun {A} (f : core -> res A) : K (fun s => (f (st_core s), s)). Proof. intros s H. exact H. Qed.
  Lemma K_logm {A} (m : M logger A) : calm m -> K (logm m).
  Proof. intros Hm s [H1 H2]. unfold logm. specialize (Hm _ H1). destruct (m _) as [r l]. split; [exact Hm|exact H2]. Qed.
  Lemma K_modc f : (forall c, k_log (f c) = k_log c) -> K (modc f).
  Proof. intros H s [H1 H2]. split; [cbn; rewrite H; exact H1|exact H2]. Qed.
  Lemma K_act e f : (forall c, k_log (f c) = k_log c) -> K (act e f).
  Proof. intros H s [H1 H2]. split; [cbn; rewrite H; exact H1|]. intros c e' [[= <- <-]|Hin]; [intros _; exact H1|apply H2; exact Hin]. Qed.
  Lemma K_note e : K (note e).
  Proof. apply K_act. reflexivity. Qed.
  Lemma K_bind {A B} (m : M mstate A) (f : A -> M mstate B) : K m -> (forall x, K (f x)) -> K (bind m f).
  Proof. intros Hm Hf s HJ. unfold bind. specialize (Hm s HJ). destruct (m s) as [[x|e] s1]; [|exact Hm]. now apply Hf. Qed.
  Lemma K_for_each {A} (l : list A) f : (forall x, K (f x)) -> K (for_each l f).
  Proof. intro H. induction l as [|x l IH]; cbn; [apply K_ret|]. apply K_bind; auto. Qed.
  Lemma K_try {A} (m : M mstate A) f h : K m -> (forall e, K (h e)) -> K (try_except m f h).
  Proof. intros Hm Hh s HJ. unfold try_except. specialize (Hm s HJ). destruct (m s) as [[x|e] s1]; [exact Hm|]. destruct (f e); [now apply Hh|exact Hm]. Qed.
  Lemma tick_same s : k_log (st_core (snd (tick w limit s))) = k_log (st_core s) /\ st_hist (snd (tick w limit s)) = st_hist s.
  Proof.
    unfold tick. destruct (Nat.leb _ _); [split; reflexivity|]. pose proof (er_log _ _ _ (apply_moves_rel (w_moves w (k_tick (st_core s))) (st_core s))) as H.
    destruct (w_intr w _); (split; [exact H|reflexivity]).
  Qed.
  Lemma K_tick : K (tick w limit).
  Proof. intros s H. destruct (tick_same s) as [E1 E2]. unfold FS. rewrite E1, E2. exact H. Qed.

  Create HintDb fb.
  Hint Resolve K_tick : fb.
  Ltac same := intros; repeat (match goal with |- context [match ?x with _ => _ end] => destruct x end); reflexivity.
  Ltac kk := repeat first
    [ apply K_ret | apply K_raise | apply K_lift | apply K_getc | apply K_logm; calms | apply K_fun
    | apply (K_fun (fun c => get_best_iter None (k_log c)))
    | solve [auto with fb]
    | apply K_note | apply K_act; same | apply K_modc; same
    | apply K_for_each; intros | apply K_try; [|intros] | apply K_bind; [|intros]
    | match goal with |- K (match ?x with _ => _ end) => destruct x end
    | match goal with |- K (if ?x then _ else _) => destruct x end
    | match goal with |- K (let '_ := ?x in _) => destruct x end ].

  Lemma K_ext : K (ext w limit).
  Proof. unfold ext. kk. Qed.
  Hint Resolve K_ext : fb.
  Lemma K_alive i : K (is_alive w limit i).
  Proof. unfold is_alive. kk. Qed.
  Hint Resolve K_alive : fb.
  Lemma K_send i m : K (send w limit i m).
  Proof. unfold send. kk. Qed.
  Hint Resolve K_send : fb.
  Lemma K_living ids : K (living w limit ids).
  Proof. induction ids; cbn; kk. Qed.
  Hint Resolve K_living : fb.
  Lemma K_fill fuel : forall count started, K (fill_loop g w limit fuel count started).
  Proof. induction fuel as [|fuel IH]; intros count started; cbn [fill_loop]; unfold setup_new_optimizer, add_to_log, start_new_job; kk. Qed.
  Hint Resolve K_fill : fb.
  Lemma K_slots : K (fill_slots g w limit).
  Proof. unfold fill_slots, pack_ids. kk. Qed.
  Lemma K_signals i : K (check_signals w limit i).
  Proof. unfold check_signals, in_grave, put_end, bury. kk. Qed.
  Hint Resolve K_signals K_slots : fb.
  Lemma K_inspect : K (inspect_children g w limit).
  Proof. unfold inspect_children, inspect_child, inspect_dead, inspect_hang, inspect_zombie, pack_ids, in_grave, put_end, bury. kk. Qed.
  Lemma K_shutdown i hn : K (shutdown_job g w limit i hn).
  Proof. unfold shutdown_job, put_end, bury. kk. Qed.
  Hint Resolve K_inspect K_shutdown : fb.
  Lemma K_share x : K (share_loop w limit x).
  Proof. unfold share_loop, pack_ids. kk. Qed.
  Hint Resolve K_share : fb.
  Lemma K_update : K (update_best g w limit).
  Proof. unfold update_best. kk. Qed.
  Lemma K_get : K (queue_get w limit).
  Proof. unfold queue_get. kk. Qed.
  Lemma K_shutdowns : K (manual_shutdowns g w limit).
  Proof. unfold manual_shutdowns, manual_shutdown, remove_file. kk. Qed.
  Hint Resolve K_update K_get K_shutdowns : fb.
  Lemma K_drain fuel : K (drain_loop w limit fuel).
  Proof. induction fuel; cbn [drain_loop]; kk. Qed.
  Lemma K_checker : K (checker_call w limit).
  Proof. unfold checker_call. kk. Qed.
  Lemma K_purge i : K (purge_one w limit i).
  Proof. unfold purge_one, in_grave. kk. Qed.
  Hint Resolve K_drain K_checker K_purge : fb.
  Lemma K_stop_all x : K (stop_all_children w limit x).
  Proof. destruct x; unfold stop_all_children, stop_one, put_end, pack_ids, bury; kk. Qed.
  Lemma K_finish r : K (finish r).
  Proof. unfold finish. kk. Qed.
  Lemma K_pause ids : K (pause_all w limit ids).
  Proof. induction ids; cbn [pause_all]; kk. Qed.
  Lemma K_sync_one i x : K (sync_one w limit i x).
  Proof. unfold sync_one, put_end, bury. kk. Qed.
  Hint Resolve K_stop_all K_finish K_pause K_sync_one : fb.
  Lemma K_round ids : forall x, K (sync_round w limit ids x).
  Proof. induction ids as [|i ids IH]; intros x; cbn [sync_round]; kk. Qed.
  Lemma K_hold_round ids : K (hold_round w limit ids).
  Proof. induction ids; cbn [hold_round]; kk. Qed.
  Hint Resolve K_round K_hold_round : fb.
  Lemma K_hold fuel : forall ids, K (hold_loop w limit fuel ids).
  Proof. induction fuel as [|fuel IH]; intros ids; cbn [hold_loop]; kk. Qed.
  Lemma K_toggle i : K (toggle_one w limit i).
  Proof. unfold toggle_one. kk. Qed.
  Lemma K_save no i : K (save_one w limit no i).
  Proof. unfold save_one. kk. Qed.
  Lemma K_confirm i : K (confirm_one w limit i).
  Proof. unfold confirm_one. kk. Qed.
  Lemma K_restart i : K (restart_one w limit i).
  Proof. unfold restart_one. kk. Qed.
  Hint Resolve K_hold K_toggle K_save K_confirm K_restart : fb.

  (** The methods do the same with hunters which agree on optimizers with evaluations. *)
  Context (kill : nat -> core -> nat -> nat -> res bool) (Hk : forall t c b v, len_opt v (k_log c) <> 0 -> kill t c b v = w_kill w t c b v).
  Notation w' := (with_hunters kill w).
  Definition E {A} (m m' : M mstate A) : Prop := forall s, FS s -> m s = m' s /\ FS (snd (m s)).
  Lemma E_K {A} (m : M mstate A) : K m -> E m m.
  Proof. intros H s Hs. split; [reflexivity|now apply H]. Qed.
  Lemma E_bind {A B} (m m' : M mstate A) (f f' : A -> M mstate B) : E m m' -> (forall x, E (f x) (f' x)) -> E (bind m f) (bind m' f').
  Proof.
    intros Hm Hf s Hs. unfold bind. destruct (Hm s Hs) as [<- H]. destruct (m s) as [[x|e] s1]; [now apply Hf|]. split; [reflexivity|exact H].
  Qed.
  Lemma E_try {A} (m m' : M mstate A) f h h' : E m m' -> (forall e, E (h e) (h' e)) -> E (try_except m f h) (try_except m' f h').
  Proof.
    intros Hm Hh s Hs. unfold try_except. destruct (Hm s Hs) as [<- H]. destruct (m s) as [[x|e] s1]; [split; [reflexivity|exact H]|].
    destruct (f e); [now apply Hh|split; [reflexivity|exact H]].
  Qed.
  Lemma E_then {A B} (m : M mstate A) (f f' : A -> M mstate B) s :
    match m s with (Ok x, s1) => f x s1 = f' x s1 /\ FS (snd (f x s1)) | (Err _, s1) => FS s1 end -> bind m f s = bind m f' s /\ FS (snd (bind m f s)).
  Proof. unfold bind. destruct (m s) as [[x|e] s1]; [auto|]. intro H. split; [reflexivity|exact H]. Qed.
  Lemma E_hunt_loop h ids : E (hunt_loop g w limit h ids) (hunt_loop g w' limit h ids).
  Proof.
    induction ids as [|v ids IH]; cbn [hunt_loop]; [apply E_K; kk|].
    apply E_bind; [apply E_K; unfold in_grave; kk|]. intros dd s Hs.
    match goal with |- bind (getc ?f) ?F s = bind _ ?F' s /\ FS (snd (bind (getc ?f) ?F s)) => change (F (f (st_core s)) s = F' (f (st_core s)) s /\ FS (snd (F (f (st_core s)) s))) end.
    cbv beta. destruct (negb dd && has_iter_history v (k_log (st_core s)) && negb (v =? h)) eqn:Ep; [|now apply IH].
    apply andb_true_iff in Ep as [Ep _]. apply andb_true_iff in Ep as [_ E2].
    change (tick w' limit) with (tick w limit). change (shutdown_job g w' limit) with (shutdown_job g w limit).
    destruct (tick_same s) as [T1 _]. pose proof (K_tick s Hs) as H1. rewrite <- T1 in E2. apply E_then. destruct (tick w limit s) as [[t|e] s1]; cbn [snd] in *; [|exact H1].
    match goal with |- bind (getc ?f) ?F s1 = bind _ ?F' s1 /\ FS (snd (bind (getc ?f) ?F s1)) => change (F (st_core s1) s1 = F' (st_core s1) s1 /\ FS (snd (F (st_core s1) s1))) end.
    cbv beta. change (w_kill w' t (st_core s1) h v) with (kill t (st_core s1) h v). rewrite (Hk t (st_core s1) h v (G_len v _ (proj1 H1) E2)). generalize (w_kill w t (st_core s1) h v). intro X. clear T1 E2. revert s1 H1.
    match goal with |- forall s1, FS s1 -> ?m s1 = ?m' s1 /\ _ => change (E m m') end.
    apply E_bind; [apply E_K; kk|]. intros k. apply E_bind; [apply E_K; unfold in_grave; kk|]. intros dead. destruct (k && negb dead); [|exact IH].
    apply E_bind; [apply E_K; kk|]. intros _. apply E_bind; [exact IH|]. intros l. apply E_K; kk.
  Qed.
  Lemma E_hunt h : E (start_hunt g w limit h) (start_hunt g w' limit h).
  Proof.
    unfold start_hunt. apply E_bind; [apply E_K; kk|]. intros _. apply E_bind; [apply E_K; unfold pack_ids; kk|]. intros ids. apply E_hunt_loop.
  Qed.
  Lemma E_item qi : E (process_item g w limit qi) (process_item g w' limit qi).
  Proof.
    destruct qi as [r|i]; cbn [process_item]; [|apply E_K; kk].
    apply E_bind; [apply E_K; kk|]. intros dead. destruct dead; [apply E_K; kk|]. intros s Hs.
    match goal with |- bind (getc ?f) ?F s = bind _ ?F' s /\ FS (snd (bind (getc ?f) ?F s)) => change (F (f (st_core s)) s = F' (f (st_core s)) s /\ FS (snd (F (f (st_core s)) s))) end.
    cbv beta. change (tick w' limit) with (tick w limit). change (w_heads w') with (w_heads w). change (update_best g w' limit) with (update_best g w limit).
    set (rest := fun w0 : world => (update_best g w limit ;;; c <- getc (fun c => c) ;;
             let best_id := match r_origin (k_result c) with Some (b, _) => b | None => 0 end in
             if (0 <? best_id) && g_killing g && (g_hunt_freq g <=? k_f c - k_last_hunt c) then
               vs <- start_hunt g w0 limit best_id ;; ret (1, [] : list nat, vs)
             else ret (1, [], []))).
    assert (Hrest : E (rest w) (rest w')).
    { unfold rest. apply E_bind; [apply E_K; kk|]. intros _. apply E_bind; [apply E_K; kk|]. intros c. cbv zeta.
      destruct (_ && _); [|apply E_K; kk]. apply E_bind; [apply E_hunt|]. intros; apply E_K; kk. }
    assert (Hafter : forall s, ready (ir_opt r) (k_log (st_core s)) -> (forall c e, In (c, e) (st_hist s) -> (forall r, e <> EvAccept r) -> G (k_log c)) ->
      (accept r ;;; rest w) s = (accept r ;;; rest w') s /\ FS (snd ((accept r ;;; rest w) s))).
    { clear s Hs. intros s H1 H2. pose proof (put_ready r _ H1) as Hput.
      assert (Ha : FS (snd (accept r s))).
      { unfold accept, act, modify, bind, logm. cbn [st_core st_hist k_log set_kf]. destruct (put_iteration r (k_log (st_core s))) as [x l]. cbn [snd] in *.
        split; [exact Hput|]. cbn. intros c e [[= <- <-]|Hin] Hne; [destruct (Hne r eq_refl)|exact (H2 _ _ Hin Hne)]. }
      apply E_then. destruct (accept r s) as [[x|e] s1]; cbn [snd] in Ha; [now apply Hrest|exact Ha]. }
    destruct (has_iter_history (ir_opt r) (k_log (st_core s))) eqn:Eh.
    { apply Hafter; [apply ready_there; [apply Hs|exact Eh]|apply Hs]. }
    match goal with |- context [bind ?m (fun x => logm (add_iter_history (ir_opt r) x))] => set (hs := m) end.
    assert (Hl : k_log (st_core (snd (hs s))) = k_log (st_core s) /\ st_hist (snd (hs s)) = st_hist s).
    { unfold hs. destruct (ir_extras r); [split; reflexivity|]. pose proof (tick_same s) as H. unfold bind. destruct (tick w limit s) as [[t|e] s1]; exact H. }
    destruct Hl as [Hl1 Hl2].
    apply (E_then (hd <- hs ;; logm (add_iter_history (ir_opt r) hd)) (fun _ => accept r ;;; rest w) (fun _ => accept r ;;; rest w')).
    unfold bind at 1. destruct Hs as [Hs1 Hs2]. destruct (hs s) as [[hd|e] s1]; cbn [snd] in *.
    - rewrite <- Hl1 in Hs1, Eh. rewrite <- Hl2 in Hs2. unfold logm. pose proof (ready_opened (ir_opt r) hd _ Hs1 Eh) as Ho.
      destruct (add_iter_history (ir_opt r) hd (k_log (st_core s1))) as [[[]|e] l].
      + apply Hafter; [exact Ho|exact Hs2].
      + subst l. split; [exact Hs1|exact Hs2].
    - unfold FS. rewrite Hl1, Hl2. auto.
  Qed.
  Lemma E_chunk l : forall acc, E (process_chunk g w limit l acc) (process_chunk g w' limit l acc).
  Proof.
    induction l as [|x l IH]; intros acc; cbn [process_chunk]; [apply E_K; kk|]. apply E_bind; [apply E_item|]. intros y.
    destruct acc as [[n cl] vs], y as [[n' cl'] vs']. apply IH.
  Qed.
  Lemma E_loop fuel : forall max acc, E (process_loop g w limit fuel max acc) (process_loop g w' limit fuel max acc).
  Proof.
    induction fuel as [|fuel IH]; intros max acc; cbn [process_loop]; [apply E_K; kk|].
    change (tick w' limit) with (tick w limit). change (queue_get w' limit) with (queue_get w limit).
    apply E_bind; [apply E_K; kk|]. intros go. destruct go; [|apply E_K; kk]. apply E_bind; [apply E_K; kk|]. intros [ch|]; [|apply E_K; kk].
    apply E_bind; [apply E_chunk|]. intros y. apply IH.
  Qed.
  Lemma E_results max : E (process_results g w limit max) (process_results g w' limit max).
  Proof. unfold process_results. apply E_bind; [apply E_loop|]. intros; apply E_K; kk. Qed.
  Lemma E_sync fuel : forall n x, E (sync_loop g w limit fuel n x) (sync_loop g w' limit fuel n x).
  Proof.
    induction fuel as [|fuel IH]; intros n x; cbn [sync_loop]; [apply E_K; kk|]. destruct x as [[no wait] live]. destruct wait as [|i wait]; [apply E_K; kk|].
    change (tick w' limit) with (tick w limit). change (w_full w') with (w_full w). change (sync_round w' limit) with (sync_round w limit).
    apply E_bind; [apply E_K; kk|]. intros t. apply E_bind.
    - destruct (w_full w t); [|apply E_K; kk]. apply E_bind; [apply E_results|]. intros; apply E_K; kk.
    - intros no'. apply E_bind; [apply E_K; kk|]. intros y. apply IH.
  Qed.
  Lemma E_optimizers : E (checkpoint_optimizers g w limit) (checkpoint_optimizers g w' limit).
  Proof.
    unfold checkpoint_optimizers. apply E_bind; [apply E_K; unfold pack_ids; kk|]. intros ids.
    apply E_bind; [exact (E_K _ (K_pause ids))|]. intros msg. apply E_bind; [apply E_sync|]. intros [[no wt] live]. apply E_bind; [apply E_results|]. intros p. cbv zeta.
    match goal with |- E ?m _ => change (E m m) end. apply E_K. kk.
  Qed.
  Lemma E_checkpoint : E (checkpoint g w limit) (checkpoint g w' limit).
  Proof.
    unfold checkpoint. change (ext w' limit) with (ext w limit). change (is_alive w' limit) with (is_alive w limit).
    change (send w' limit) with (send w limit). change (toggle_one w' limit) with (toggle_one w limit).
    apply E_bind; [apply E_K; kk|]. intros _. apply E_bind; [|intros _; unfold pack_ids; apply E_K; kk].
    apply E_try; [|intros; apply E_K; kk]. do 2 (apply E_bind; [apply E_K; kk|intros _]). apply E_bind; [apply E_optimizers|]. intros _. apply E_K; kk.
  Qed.
  Lemma E_manual : E (manual_checkpoints g w limit) (manual_checkpoints g w' limit).
  Proof.
    unfold manual_checkpoints. change (tick w' limit) with (tick w limit). do 2 (apply E_bind; [apply E_K; kk|intros]). destruct x0; [|apply E_K; kk].
    apply E_bind; [apply E_K; kk|]. intros _. apply E_checkpoint.
  Qed.
  Lemma E_periodic : E (periodic_checkpoint g w limit) (periodic_checkpoint g w' limit).
  Proof.
    unfold periodic_checkpoint. change (tick w' limit) with (tick w limit). change (w_time_chk w') with (w_time_chk w).
    destruct (g_chk g); [|apply E_K; kk]. apply E_bind; [apply E_K; kk|]. intros t. apply E_bind; [apply E_K; kk|]. intros c.
    destruct (w_time_chk w t); [apply E_checkpoint|]. destruct (g_iter_freq g); [|apply E_K; kk]. destruct (_ <? _); [|apply E_K; kk].
    apply E_bind; [apply E_K; kk|]. intros _. apply E_checkpoint.
  Qed.
  Lemma E_iteration : E (iteration g w limit) (iteration g w' limit).
  Proof.
    unfold iteration. change (fill_slots g w' limit) with (fill_slots g w limit). change (check_signals w' limit) with (check_signals w limit).
    change (manual_shutdowns g w' limit) with (manual_shutdowns g w limit). change (inspect_children g w' limit) with (inspect_children g w limit).
    change (purge_one w' limit) with (purge_one w limit). change (living w' limit) with (living w limit). change (checker_call w' limit) with (checker_call w limit).
    unfold pack_ids. do 4 (apply E_bind; [apply E_K; kk|intros]). apply E_bind; [apply E_results|intros]. apply E_bind; [apply E_K; kk|intros].
    apply E_bind; [apply E_manual|intros]. do 5 (apply E_bind; [apply E_K; kk|intros]). cbv zeta. do 2 (apply E_bind; [apply E_K; kk|intros]).
    apply E_bind; [apply E_periodic|intros]. apply E_K; kk.
  Qed.
  Lemma E_main fuel : forall r, E (main_loop g w limit fuel r) (main_loop g w' limit fuel r).
  Proof.
    induction fuel as [|fuel IH]; intro r; cbn [main_loop]; [apply E_K; kk|]. apply E_bind; [apply E_K; kk|]. intros conv. destruct conv; [apply E_K; kk|].
    apply E_bind; [apply E_iteration|]. intros chk. apply IH.
  Qed.
  Lemma E_body r : E (run_body g w limit r) (run_body g w' limit r).
  Proof.
    unfold run_body, pack_ids. change (restart_one w' limit) with (restart_one w limit). change (stop_all_children w' limit) with (stop_all_children w limit).
    do 2 (apply E_bind; [apply E_K; kk|intros]). apply E_bind; [apply E_main|]. intros r'. apply E_bind; [|intros; apply E_K; kk].
    destruct (_ && _); [apply E_checkpoint|apply E_K; kk].
  Qed.
  Lemma E_start : E (start_manager g w limit) (start_manager g w' limit).
  Proof.
    unfold start_manager. change (checker_call w' limit) with (checker_call w limit). change (ext w' limit) with (ext w limit).
    change (stop_all_children w' limit) with (stop_all_children w limit).
    apply E_bind; [apply E_K; kk|]. intros pre.
    assert (Hb : E (ext w limit ;;; (fun s => match run_body g w limit (match pre with Some _ => RDead | None => RNone end) s with
                 | (Ok r, s1) => finish r s1
                 | (Err OutOfFuel, s1) => (Err OutOfFuel, s1)
                 | (Err e, s1) =>
                     match stop_all_children w limit (Some (crash_text e)) s1 with
                     | (Err OutOfFuel, s2) => (Err OutOfFuel, s2)
                     | (_, s2) => finish (match e with KeyboardInterrupt => RInterrupt | _ => RCrash e end) s2
                     end
                 end))
      (ext w limit ;;; (fun s => match run_body g w' limit (match pre with Some _ => RDead | None => RNone end) s with
                 | (Ok r, s1) => finish r s1
                 | (Err OutOfFuel, s1) => (Err OutOfFuel, s1)
                 | (Err e, s1) =>
                     match stop_all_children w limit (Some (crash_text e)) s1 with
                     | (Err OutOfFuel, s2) => (Err OutOfFuel, s2)
                     | (_, s2) => finish (match e with KeyboardInterrupt => RInterrupt | _ => RCrash e end) s2
                     end
                 end))).
    { apply E_bind; [apply E_K; kk|]. intros _ s Hs. destruct (E_body (match pre with Some _ => RDead | None => RNone end) s Hs) as [<- H].
      split; [reflexivity|]. destruct (run_body g w limit _ s) as [[r|e] s1]; cbn [snd] in *; [now apply K_finish|].
      pose proof (K_stop_all (Some (crash_text e)) s1 H) as H2.
      destruct e; try (cbn [snd]; exact H); cbn [crash_text] in *;
        (match goal with |- context [stop_all_children w limit ?y s1] => destruct (stop_all_children w limit y s1) as [[x2|e2] s2] end; cbn [snd] in *;
         [now apply K_finish|destruct e2; first [exact H2|now apply K_finish]]). }
    destruct pre as [[|]|]; [apply E_K; kk|exact Hb|exact Hb].
  Qed.
End Filled.

Lemma FS_fresh traj : FS (fresh traj).
Proof. split; [apply G_init|intros c e []]. Qed.
Lemma loaded_FS s k late g builds conv c : FS s -> written s k late -> load g k builds conv = Ok c -> FS (begin k c).
Proof.
  intros [_ IH] (h1 & ha & cl & hb & E1 & E2 & _ & E3 & _) Hl.
  assert (Hlog : G (ck_log k)).
  { rewrite E3. apply (IH cl EvSaveLog); [|discriminate]. rewrite E1, E2. rewrite !in_app_iff. right. right. rewrite in_app_iff. right. left. reflexivity. }
  destruct (load_ok _ _ _ _ _ Hl) as (packs & -> & _). split; [exact Hlog|].
  intros c e [[= <- _]|[[= <- <-]|Hin]] He; [exact Hlog| |].
  - apply (IH (ck_core k) EvSaveManager); [|discriminate]. rewrite E1, in_app_iff. right. left. reflexivity.
  - apply (IH c e); [|exact He]. rewrite E1, in_app_iff. right. right. exact Hin.
Qed.
Lemma session_FS P g w s : session P g w s -> FS s.
Proof.
  induction 1 as [g w s (limit & traj & ->)|g w s k late builds conv c g' w' limit Hs IH Hw _ Hl].
  - exact (proj2 (E_start g w limit (w_kill w) (fun _ _ _ _ _ => eq_refl) _ (FS_fresh traj))).
  - exact (proj2 (E_start g' w' limit (w_kill w') (fun _ _ _ _ _ => eq_refl) _ (loaded_FS _ _ _ _ _ _ _ IH Hw Hl))).
Qed.
