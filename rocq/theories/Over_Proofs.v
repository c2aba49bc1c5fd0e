(** * How far the number of optimizers started exceeds MaxOptsStarted *)
From Coq Require Import Lia.
From Verif Require Import Prelude Prelude_Proofs Logger_Model Manager_Model Manager_Spec Manager_Proofs.
Open Scope nat_scope.

Section Over.
  Context (g : config) (w : world) (limit : nat).
  (** Methods which start no optimizer and leave converged alone. *)
  Definition K {A} (m : M mstate A) : Prop := forall s,
    k_o (st_core (snd (m s))) = k_o (st_core s) /\ k_converged (st_core (snd (m s))) = k_converged (st_core s).
  Lemma K_ret {A} (x : A) : K (ret x). Proof. intros s. split; reflexivity. Qed.
  Lemma K_raise {A} e : K (@raise mstate A e). Proof. intros s. split; reflexivity. Qed.
  Lemma K_lift {A} (x : res A) : K (lift x). Proof. intros s. split; reflexivity. Qed.
  Lemma K_getc {A} (f : core -> A) : K (getc f). Proof. intros s. split; reflexivity. Qed.
  Lemma K_fun {A} (f : core -> res A) : K (fun s => (f (st_core s), s)). Proof. intros s. split; reflexivity. Qed.
  Lemma K_logm {A} (m : M logger A) : K (logm m).
  Proof. intros s. unfold logm. destruct (m _) as [r l]. split; reflexivity. Qed.
  Lemma K_modc f : (forall c, k_o (f c) = k_o c /\ k_converged (f c) = k_converged c) -> K (modc f).
  Proof. intros H s. apply H. Qed.
  Lemma K_act e f : (forall c, k_o (f c) = k_o c /\ k_converged (f c) = k_converged c) -> K (act e f).
  Proof. intros H s. apply H. Qed.
  Lemma K_note e : K (note e).
  Proof. apply K_act. split; reflexivity. Qed.
  Lemma K_bind {A B} (m : M mstate A) (f : A -> M mstate B) : K m -> (forall x, K (f x)) -> K (bind m f).
  Proof.
    intros Hm Hf s. unfold bind. destruct (Hm s) as [H1 H2]. destruct (m s) as [[x|e] s1]; cbn [snd] in *; [|auto].
    destruct (Hf x s1) as [H3 H4]. split; congruence.
  Qed.
  Lemma K_for_each {A} (l : list A) f : (forall x, K (f x)) -> K (for_each l f).
  Proof. intro H. induction l as [|x l IH]; cbn; [apply K_ret|]. apply K_bind; auto. Qed.
  Lemma K_try {A} (m : M mstate A) f h : K m -> (forall e, K (h e)) -> K (try_except m f h).
  Proof.
    intros Hm Hh s. unfold try_except. destruct (Hm s) as [H1 H2]. destruct (m s) as [[x|e] s1]; cbn [snd] in *; [auto|].
    destruct (f e); [|auto]. destruct (Hh e s1) as [H3 H4]. split; congruence.
  Qed.
  Lemma K_tick : K (tick w limit).
  Proof.
    intros s. unfold tick. destruct (Nat.leb _ _); [split; reflexivity|].
    pose proof (apply_moves_rel (w_moves w (k_tick (st_core s))) (st_core s)) as H.
    destruct (w_intr w _); (split; [exact (er_o _ _ _ H)|exact (er_converged _ _ _ H)]).
  Qed.

  Create HintDb ob.
  Hint Resolve K_tick : ob.
  Ltac same := intros; repeat (match goal with |- context [match ?x with _ => _ end] => destruct x end); split; reflexivity.
  Ltac kk := repeat first
    [ apply K_ret | apply K_raise | apply K_lift | apply K_getc | apply K_logm
    | apply (K_fun (fun c => get_best_iter None (k_log c)))
    | solve [auto with ob]
    | apply K_note | apply K_act; same | apply K_modc; same
    | apply K_for_each; intros | apply K_try; [|intros] | apply K_bind; [|intros]
    | match goal with |- K (match ?x with _ => _ end) => destruct x end
    | match goal with |- K (if ?x then _ else _) => destruct x end
    | match goal with |- K (let '_ := ?x in _) => destruct x end ].

  Lemma K_ext : K (ext w limit).
  Proof. unfold ext. kk. Qed.
  Hint Resolve K_ext : ob.
  Lemma K_alive i : K (is_alive w limit i).
  Proof. unfold is_alive. kk. Qed.
  Hint Resolve K_alive : ob.
  Lemma K_send i m : K (send w limit i m).
  Proof. unfold send. kk. Qed.
  Hint Resolve K_send : ob.
  Lemma K_living ids : K (living w limit ids).
  Proof. induction ids; cbn; kk. Qed.
  Hint Resolve K_living : ob.
  Lemma K_signals i : K (check_signals w limit i).
  Proof. unfold check_signals, in_grave, put_end, bury. kk. Qed.
  Hint Resolve K_signals : ob.
  Lemma K_inspect : K (inspect_children g w limit).
  Proof. unfold inspect_children, inspect_child, inspect_dead, inspect_hang, inspect_zombie, pack_ids, in_grave, put_end, bury. kk. Qed.
  Lemma K_shutdown i hn : K (shutdown_job g w limit i hn).
  Proof. unfold shutdown_job, put_end, bury. kk. Qed.
  Hint Resolve K_inspect K_shutdown : ob.
  Lemma K_share x : K (share_loop w limit x).
  Proof. unfold share_loop, pack_ids. kk. Qed.
  Hint Resolve K_share : ob.
  Lemma K_update : K (update_best g w limit).
  Proof. unfold update_best. kk. Qed.
  Lemma K_get : K (queue_get w limit).
  Proof. unfold queue_get. kk. Qed.
  Lemma K_shutdowns : K (manual_shutdowns g w limit).
  Proof. unfold manual_shutdowns, manual_shutdown, remove_file. kk. Qed.
  Hint Resolve K_update K_get K_shutdowns : ob.
  Lemma K_drain fuel : K (drain_loop w limit fuel).
  Proof. induction fuel; cbn [drain_loop]; kk. Qed.
  Lemma K_checker : K (checker_call w limit).
  Proof. unfold checker_call. kk. Qed.
  Lemma K_purge i : K (purge_one w limit i).
  Proof. unfold purge_one, in_grave. kk. Qed.
  Hint Resolve K_drain K_checker K_purge : ob.
  Lemma K_stop_all x : K (stop_all_children w limit x).
  Proof. destruct x; unfold stop_all_children, stop_one, put_end, pack_ids, bury; kk. Qed.
  Lemma K_finish r : K (finish r).
  Proof. unfold finish. kk. Qed.
  Lemma K_pause ids : K (pause_all w limit ids).
  Proof. induction ids; cbn [pause_all]; kk. Qed.
  Lemma K_sync_one i x : K (sync_one w limit i x).
  Proof. unfold sync_one, put_end, bury. kk. Qed.
  Hint Resolve K_stop_all K_finish K_pause K_sync_one : ob.
  Lemma K_round ids : forall x, K (sync_round w limit ids x).
  Proof. induction ids as [|i ids IH]; intros x; cbn [sync_round]; kk. Qed.
  Lemma K_hold_round ids : K (hold_round w limit ids).
  Proof. induction ids; cbn [hold_round]; kk. Qed.
  Hint Resolve K_round K_hold_round : ob.
  Lemma K_hold fuel : forall ids, K (hold_loop w limit fuel ids).
  Proof. induction fuel as [|fuel IH]; intros ids; cbn [hold_loop]; kk. Qed.
  Lemma K_toggle i : K (toggle_one w limit i).
  Proof. unfold toggle_one. kk. Qed.
  Lemma K_save no i : K (save_one w limit no i).
  Proof. unfold save_one. kk. Qed.
  Lemma K_confirm i : K (confirm_one w limit i).
  Proof. unfold confirm_one. kk. Qed.
  Lemma K_restart i : K (restart_one w limit i).
  Proof. unfold restart_one. kk. Qed.
  Hint Resolve K_hold K_toggle K_save K_confirm K_restart : ob.

  Lemma K_hunt_loop hn ids : K (hunt_loop g w limit hn ids).
  Proof. induction ids as [|v ids IH]; cbn [hunt_loop]; unfold in_grave; kk. Qed.
  Hint Resolve K_hunt_loop : ob.
  Lemma K_hunt hn : K (start_hunt g w limit hn).
  Proof. unfold start_hunt, pack_ids. kk. Qed.
  Hint Resolve K_hunt : ob.
  Lemma K_accept r : K (accept r).
  Proof. unfold accept. kk. Qed.
  Hint Resolve K_accept : ob.
  Lemma K_item q : K (process_item g w limit q).
  Proof. destruct q; cbn [process_item]; unfold in_grave, put_end, bury; kk. Qed.
  Hint Resolve K_item : ob.
  Lemma K_chunk l : forall acc, K (process_chunk g w limit l acc).
  Proof. induction l as [|x l IH]; intros acc; cbn [process_chunk]; kk. Qed.
  Hint Resolve K_chunk : ob.
  Lemma K_loop fuel : forall max acc, K (process_loop g w limit fuel max acc).
  Proof. induction fuel as [|fuel IH]; intros max acc; cbn [process_loop]; kk. Qed.
  Hint Resolve K_loop : ob.
  Lemma K_results max : K (process_results g w limit max).
  Proof. unfold process_results. kk. Qed.
  Hint Resolve K_results : ob.
  Lemma K_sync fuel : forall n x, K (sync_loop g w limit fuel n x).
  Proof. induction fuel as [|fuel IH]; intros n x; cbn [sync_loop]; kk. Qed.
  Hint Resolve K_sync : ob.
  Lemma K_optimizers : K (checkpoint_optimizers g w limit).
  Proof. unfold checkpoint_optimizers, pack_ids. kk. Qed.
  Hint Resolve K_optimizers : ob.
  Lemma K_checkpoint : K (checkpoint g w limit).
  Proof. unfold checkpoint, pack_ids. kk. Qed.
  Hint Resolve K_checkpoint : ob.
  Lemma K_manual : K (manual_checkpoints g w limit).
  Proof. unfold manual_checkpoints. kk. Qed.
  Lemma K_periodic : K (periodic_checkpoint g w limit).
  Proof. unfold periodic_checkpoint. kk. Qed.
  Hint Resolve K_manual K_periodic : ob.

  (** ** What each method makes of a bound *)
  Definition H {A} (P : mstate -> Prop) (m : M mstate A) (R : A -> mstate -> Prop) (X : mstate -> Prop) : Prop :=
    forall s, P s -> match m s with (Ok x, s') => R x s' | (Err _, s') => X s' end.
  Lemma H_bind {A B} P (m : M mstate A) (f : A -> M mstate B) R R' X : H P m R X -> (forall x, H (R x) (f x) R' X) -> H P (bind m f) R' X.
  Proof. intros Hm Hf s Hs. unfold bind. specialize (Hm s Hs). destruct (m s) as [[x|e] s1]; [now apply Hf|exact Hm]. Qed.
  Definition upto (b : nat) (s : mstate) : Prop := k_o (st_core s) <= b.
  Lemma H_K {A} b (m : M mstate A) : K m -> H (upto b) m (fun _ => upto b) (upto b).
  Proof. intros Hm s Hs. destruct (Hm s) as [E _]. unfold upto in *. destruct (m s) as [[x|e] s1]; cbn [snd] in E; lia. Qed.

  Lemma H_weak {A} (P P' : mstate -> Prop) (m : M mstate A) (R R' : A -> mstate -> Prop) (X X' : mstate -> Prop) : H P m R X -> (forall s, P' s -> P s) ->
    (forall x s, R x s -> R' x s) -> (forall s, X s -> X' s) -> H P' m R' X'.
  Proof. intros Hm H1 H2 H3 s Hs. specialize (Hm s (H1 _ Hs)). destruct (m s) as [[x|e] s1]; auto. Qed.
  Lemma H_K_up {A} b b' (m : M mstate A) : b <= b' -> K m -> H (upto b) m (fun _ => upto b) (upto b').
  Proof. intros Hb Hm. eapply H_weak; [apply (H_K b m Hm)|auto|auto|]. unfold upto. intros; lia. Qed.

  Context (n : nat) (Hc : forall t c, exists b, w_check w t c = Ok b /\ (b = false -> k_o c < n)).
  Context (Hw : forall t c a cf, w_sel w t c a = Ok (SOpt cf) -> 1 <= cf_workers cf).

  Lemma H_setup avail b : H (upto b) (setup_new_optimizer w limit avail)
    (fun o s => match o with Some (_, _, slots) => upto (S b) s /\ 1 <= slots | None => upto b s end) (upto (S b)).
  Proof.
    unfold setup_new_optimizer. eapply H_bind; [apply (H_K_up b); [lia|kk]|intros t; cbv beta]. do 2 (eapply H_bind; [apply (H_K_up b); [lia|kk]|intros; cbv beta]).
    eapply (H_bind _ _ _ (fun sel s => upto b s /\ forall cf, sel = SOpt cf -> 1 <= cf_workers cf)).
    { intros s Hs. unfold lift. destruct (w_sel w t x0 avail) as [sel|e] eqn:Es; [|unfold upto in *; lia]. split; [exact Hs|]. intros cf ->. exact (Hw _ _ _ _ Es). }
    intros [| |cf]; try (intros s [Hs _]; exact Hs).
    eapply (H_bind _ _ _ (fun _ s => upto (S b) s /\ 1 <= cf_workers cf)).
    { intros s [Hs Hcf]. cbn. split; [unfold upto in *; cbn; lia|apply Hcf; reflexivity]. }
    intros _ s [Hs Hcf].
    assert (Hk : K (ext w limit ;;; i <- getc k_o ;; add_to_log i (cf_class cf) ;;; ret (Some (i, cf_class cf, cf_workers cf)))) by (unfold add_to_log; kk).
    pose proof (Hk s) as E. revert E.
    unfold bind. destruct (ext w limit s) as [[[]|e] s3]; [|cbn; unfold upto in *; intros [E _]; lia]. unfold getc.
    cbn. unfold upto in *. cbn. intros [E _]. lia.
  Qed.
  Lemma H_fill fuel : forall count started b, H (upto b) (fill_loop g w limit fuel count started)
    (fun _ => upto (b + (g_max_jobs g - count))) (upto (b + (g_max_jobs g - count))).
  Proof.
    induction fuel as [|fuel IH]; intros count started b; cbn [fill_loop]; [intros s Hs; unfold ret, raise; unfold upto in *; lia|].
    intros s Hs. match goal with |- context [bind (getc ?f) ?F s] => change (bind (getc f) F s) with (F (f (st_core s)) s) end. cbv beta.
    destruct (count <? g_max_jobs g) eqn:Ec; cbn [andb]; [|unfold ret, raise; unfold upto in *; lia]. apply Nat.ltb_lt in Ec.
    destruct (k_spawn (st_core s)); [|unfold ret, raise; unfold upto in *; lia].
    unfold bind at 1. pose proof (H_setup (g_max_jobs g - count) b s Hs) as H1.
    destruct (setup_new_optimizer w limit (g_max_jobs g - count) s) as [[[[[i cls] slots]|]|e] s1]; [|unfold ret, raise; unfold upto in *; lia|unfold upto in *; lia].
    destruct H1 as [H1 H2].
    assert (Hk : K (start_new_job w limit i cls slots)) by (unfold start_new_job; kk). unfold bind. destruct (Hk s1) as [E _].
    destruct (start_new_job w limit i cls slots s1) as [[[]|e] s2]; cbn [snd] in E; [|unfold upto in *; lia].
    assert (Hs2 : upto (S b) s2) by (unfold upto in *; lia). specialize (IH (count + slots) true (S b) s2 Hs2).
    destruct (fill_loop g w limit fuel (count + slots) true s2) as [[x|e] s3]; unfold upto in *; lia.
  Qed.
  Lemma H_slots b : H (upto b) (fill_slots g w limit) (fun _ => upto (b + g_max_jobs g)) (upto (b + g_max_jobs g)).
  Proof.
    unfold fill_slots, pack_ids. do 4 (eapply H_bind; [apply H_K_up; [lia|kk]|intros]; cbv beta). destruct x2; [intros s Hs; cbn; unfold upto in *; lia|].
    eapply H_bind; [eapply H_weak; [apply H_fill|intros s Hs; exact Hs| |]|]; cbv beta.
    - intros x2 s Hs. instantiate (1 := fun _ => upto (b + g_max_jobs g)). unfold upto in *. lia.
    - intros s Hs. unfold upto in *. lia.
    - intros st. apply H_K. kk.
  Qed.
  (** After a round of the loop: either converged, or the checker saw fewer than [n] optimizers. *)
  Definition open (b : nat) (s : mstate) : Prop := upto b s /\ (k_converged (st_core s) = false -> k_o (st_core s) < n).
  Lemma open_K {A} b (m : M mstate A) : K m -> H (open b) m (fun _ => open b) (upto b).
  Proof.
    intros Hm s [H1 H2]. destruct (Hm s) as [E1 E2]. unfold open, upto in *. destruct (m s) as [[x|e] s1]; cbn [snd] in *; rewrite E1; [rewrite E2|]; auto.
  Qed.
  Lemma H_checker b : H (upto b) (checker_call w limit) (fun chk s => upto b s /\ (chk = false -> k_o (st_core s) < n)) (upto b).
  Proof.
    intros s Hs. unfold checker_call, bind. destruct (K_tick s) as [E _]. destruct (tick w limit s) as [[t|e] s1]; cbn [snd] in E; [|unfold upto in *; lia].
    unfold getc, gets, lift. cbv beta iota. destruct (Hc t (st_core s1)) as (chk & -> & Hn). split; [unfold upto in *; lia|exact Hn].
  Qed.
  Lemma H_iteration b : H (upto b) (iteration g w limit) (fun _ => open (b + g_max_jobs g)) (upto (b + g_max_jobs g)).
  Proof.
    unfold iteration, pack_ids. eapply H_bind; [apply H_K_up; [lia|kk]|intros ?; cbv beta]. eapply H_bind; [apply H_slots|intros ?; cbv beta].
    do 10 (eapply H_bind; [apply H_K; kk|intros; cbv beta]). cbv zeta. eapply H_bind; [apply H_checker|intros chk; cbv beta].
    eapply H_bind; [|intros ?; cbv beta; eapply H_bind; [apply open_K; kk|intros; apply open_K; kk]].
    intros s [H1 H2]. cbn. split; [exact H1|]. cbn. intros E. apply Bool.orb_false_elim in E as [-> _]. apply H2. reflexivity.
  Qed.
  Lemma H_main b fuel : n + g_max_jobs g <= S b -> forall r, H (open b) (main_loop g w limit fuel r) (fun _ => upto b) (upto b).
  Proof.
    intros Hb. induction fuel as [|fuel IH]; intros r s Hs; cbn [main_loop]; [apply Hs|]. match goal with |- context [bind (getc ?f) ?F s] => change (bind (getc f) F s) with (F (f (st_core s)) s) end. cbv beta. destruct Hs as [H1 H2].
    destruct (k_converged (st_core s)) eqn:E; [exact H1|]. specialize (H2 eq_refl). unfold bind. assert (Hs : upto (n - 1) s) by (unfold upto; lia).
    pose proof (H_iteration (n - 1) s Hs) as Hi. destruct (iteration g w limit s) as [[chk|e] s1]; [|unfold upto in *; lia].
    apply IH. destruct Hi as [H3 H4]. split; [unfold upto in *; lia|exact H4].
  Qed.
  Lemma H_body b : n + g_max_jobs g <= S b -> forall r, H (open b) (run_body g w limit r) (fun _ => upto b) (upto b).
  Proof.
    intros Hb r. unfold run_body, pack_ids. do 2 (eapply H_bind; [apply open_K; kk|intros; cbv beta]). eapply H_bind; [apply H_main; exact Hb|intros; cbv beta].
    apply H_K. kk.
  Qed.
  Lemma over b s : n + g_max_jobs g <= S b -> upto b s -> upto b (snd (start_manager g w limit s)).
  Proof.
    intros Hb Hs. unfold start_manager.
    assert (Hpre : H (upto b) (try_except
             (chk <- checker_call w limit ;; c <- getc (fun c => c) ;;
              let conv := chk || (Nat.eqb (length (k_packs c)) 0 && negb (k_spawn c)) in modc (set_kconverged conv) ;;; ret (Some conv))
             is_exception (fun _ => modc (set_kconverged false) ;;; ret None)) (fun _ => open b) (upto b)).
    { clear s Hs. intros s Hs. pose proof (H_checker b s Hs) as H1. unfold try_except. unfold bind at 1. unfold checker_call in *. revert H1. unfold bind, getc, gets, lift.
      unfold tick. destruct (limit <=? k_tick (st_core s)); [intros H1; exact H1|]. destruct (w_intr w _); [intros H1; exact H1|].
      match goal with |- context [w_check w ?t ?c] => destruct (Hc t c) as (chk & -> & Hn) end. intros [H1 H2].
      split; [exact H1|]. cbn. intros E. apply Bool.orb_false_elim in E as [-> _]. apply H2. reflexivity. }
    unfold bind at 1. specialize (Hpre s Hs). destruct (try_except _ _ _ s) as [[pre|e] s1]; [|exact Hpre].
    assert (Hb' : upto b (snd ((ext w limit ;;; (fun s => match run_body g w limit (match pre with Some _ => RDead | None => RNone end) s with
                 | (Ok r, s1) => finish r s1
                 | (Err OutOfFuel, s1) => (Err OutOfFuel, s1)
                 | (Err e, s1) =>
                     match stop_all_children w limit (Some (crash_text e)) s1 with
                     | (Err OutOfFuel, s2) => (Err OutOfFuel, s2)
                     | (_, s2) => finish (match e with KeyboardInterrupt => RInterrupt | _ => RCrash e end) s2
                     end
                 end)) s1))).
    { unfold bind. pose proof (open_K b _ K_ext s1 Hpre) as H1. destruct (ext w limit s1) as [[[]|e] s2]; [|exact H1].
      pose proof (H_body b Hb (match pre with Some _ => RDead | None => RNone end) s2 H1) as H2.
      assert (Hfin : forall r s, upto b s -> upto b (snd (finish r s))).
      { intros r s3 H3. destruct (K_finish r s3) as [E _]. unfold upto in *. lia. }
      destruct (run_body _ _ _ _ s2) as [[r|e] s3]; [now apply Hfin|].
      destruct (K_stop_all (Some (crash_text e)) s3) as [E _]. destruct (stop_all_children w limit (Some (crash_text e)) s3) as [[u|e'] s4] eqn:Es; cbn [snd] in E;
        assert (H4 : upto b s4) by (unfold upto in *; lia); destruct e; try exact H2; try (now apply Hfin); destruct e'; try exact H4; now apply Hfin. }
    destruct pre as [[|]|]; [apply Hpre|exact Hb'|exact Hb'].
  Qed.
End Over.

(** ** Optimizers without workers *)
Section Endless.
  Context (g : config) (w : world) (limit : nat).
  Definition D {A} (P : mstate -> Prop) (m : M mstate A) (R : A -> mstate -> Prop) : Prop :=
    forall s, P s -> match m s with (Ok x, s') => R x s' | (Err e, _) => e = OutOfFuel end.
  Lemma D_bind {A B} P (m : M mstate A) (f : A -> M mstate B) (R : A -> mstate -> Prop) (R' : B -> mstate -> Prop) :
    D P m R -> (forall x, D (R x) (f x) R') -> D P (bind m f) R'.
  Proof. intros Hm Hf s Hs. unfold bind. specialize (Hm s Hs). destruct (m s) as [[x|e] s1]; [now apply Hf|exact Hm]. Qed.
  Context (Hj : 1 <= g_max_jobs g).
  Context (Hs : forall t c n, exists cf, w_sel w t c n = Ok (SOpt cf) /\ cf_workers cf = 0).
  Context (Hx : forall t, w_err w t = None /\ w_intr w t = false).
  Context (Hc : forall t c, k_o c = 0 -> w_check w t c = Ok false).
  (** The manager has not started anything. *)
  Definition idle (s : mstate) : Prop := let c := st_core s in
    k_spawn c = true /\ k_crashed c = false /\ k_o c = 0 /\ dkeys (k_packs c) = [].
  Definition spawning (s : mstate) : Prop := k_spawn (st_core s) = true.
  Lemma D_tick_idle : D idle (tick w limit) (fun _ => idle).
  Proof.
    intros s H. unfold tick. destruct (Nat.leb _ _); [reflexivity|]. rewrite (proj2 (Hx _)).
    pose proof (apply_moves_rel (w_moves w (k_tick (st_core s))) (st_core s)) as E. unfold idle in *. cbn.
    rewrite (er_spawn _ _ _ E), (er_crashed _ _ _ E), (er_o _ _ _ E), (er_keys _ _ _ E). exact H.
  Qed.
  Lemma D_tick : D spawning (tick w limit) (fun _ => spawning).
  Proof.
    intros s H. unfold tick. destruct (Nat.leb _ _); [reflexivity|]. rewrite (proj2 (Hx _)).
    pose proof (apply_moves_rel (w_moves w (k_tick (st_core s))) (st_core s)) as E. unfold spawning in *. cbn. rewrite (er_spawn _ _ _ E). exact H.
  Qed.
  Lemma D_ext_idle : D idle (ext w limit) (fun _ => idle).
  Proof. unfold ext. eapply D_bind; [apply D_tick_idle|]. intros t s H. rewrite (proj1 (Hx _)). exact H. Qed.
  Lemma D_ext : D spawning (ext w limit) (fun _ => spawning).
  Proof. unfold ext. eapply D_bind; [apply D_tick|]. intros t s H. rewrite (proj1 (Hx _)). exact H. Qed.
  Lemma D_setup n : D spawning (setup_new_optimizer w limit n) (fun o s => spawning s /\ exists i cls, o = Some (i, cls, 0)).
  Proof.
    unfold setup_new_optimizer. eapply D_bind; [apply D_tick|intros t; cbv beta].
    eapply (D_bind _ _ _ (fun _ => spawning)); [intros s H; exact H|intros ?; cbv beta].
    eapply (D_bind _ _ _ (fun _ => spawning)); [intros s H; exact H|intros c; cbv beta].
    eapply (D_bind _ _ _ (fun sel s => spawning s /\ exists cf, sel = SOpt cf /\ cf_workers cf = 0)).
    { intros s H. unfold lift. destruct (Hs t c n) as (cf & -> & E). split; [exact H|eauto]. }
    intros sel s (H & cf & -> & E). revert s H.
    match goal with |- forall s, _ -> match ?m s with _ => _ end => change (D spawning m (fun o s => spawning s /\ exists i cls, o = Some (i, cls, 0))) end.
    eapply (D_bind _ _ _ (fun _ => spawning)); [intros s H; exact H|intros ?; cbv beta].
    eapply D_bind; [apply D_ext|intros ?; cbv beta].
    intros s H. cbn. split; [exact H|]. rewrite E. eauto.
  Qed.
  Lemma D_job i cls n : D spawning (start_new_job w limit i cls n) (fun _ => spawning).
  Proof.
    unfold start_new_job. eapply D_bind; [apply D_ext|intros ?; cbv beta].
    eapply (D_bind _ _ _ (fun _ => spawning)); [intros s H; exact H|intros ?; cbv beta].
    eapply D_bind; [apply D_ext|intros ?; cbv beta]. intros s H; exact H.
  Qed.
  Lemma D_fill fuel : forall started, D spawning (fill_loop g w limit fuel 0 started) (fun _ _ => False).
  Proof.
    induction fuel as [|fuel IH]; intros started; cbn [fill_loop]; [intros s _; reflexivity|].
    eapply (D_bind _ _ _ (fun sp s => spawning s /\ sp = true)); [intros s H; split; exact H|]. intros sp s [H ->].
    replace ((0 <? g_max_jobs g) && true) with true by (destruct (g_max_jobs g); [lia|reflexivity]). revert s H.
    match goal with |- forall s, _ -> match ?m s with _ => _ end => change (D spawning m (fun _ _ => False)) end.
    eapply D_bind; [apply D_setup|]. intros o s (H & i & cls & ->). revert s H.
    match goal with |- forall s, _ -> match ?m s with _ => _ end => change (D spawning m (fun _ _ => False)) end.
    eapply D_bind; [apply D_job|intros ?; cbv beta]. apply IH.
  Qed.
  Lemma D_iteration : D idle (iteration g w limit) (fun _ _ => False).
  Proof.
    unfold iteration. eapply (D_bind _ _ _ (fun _ => idle)); [intros s H; exact H|intros ?; cbv beta].
    eapply (D_bind _ _ _ (fun _ _ => False)); [|intros ? s []]. intros s H. unfold fill_slots, pack_ids.
    pose proof H as (H1 & H2 & H3 & H4). unfold bind at 1, getc, gets. rewrite H4. cbn [living].
    unfold bind, ret. rewrite H2, Bool.andb_false_r. change (slots_of [] (st_core s)) with 0. cbv beta iota.
    pose proof (D_fill (S limit) false s H1) as Hf. destruct (fill_loop g w limit (S limit) 0 false s) as [[y|e] s1]; [destruct Hf|exact Hf].
  Qed.
  Lemma endless s : idle s -> fst (start_manager g w limit s) = Err OutOfFuel.
  Proof.
    intros Hi. unfold start_manager.
    assert (Hpre : D idle (try_except
             (chk <- checker_call w limit ;; c <- getc (fun c => c) ;;
              let conv := chk || (Nat.eqb (length (k_packs c)) 0 && negb (k_spawn c)) in modc (set_kconverged conv) ;;; ret (Some conv))
             is_exception (fun _ => modc (set_kconverged false) ;;; ret None))
             (fun pre s => idle s /\ pre = Some false /\ k_converged (st_core s) = false)).
    { clear s Hi. intros s H. unfold try_except, checker_call. pose proof (D_tick_idle s H) as Ht. unfold bind.
      destruct (tick w limit s) as [[t|e] s1]; [|rewrite Ht; reflexivity]. unfold getc, gets, lift. pose proof Ht as (H1 & H2 & H3 & H4).
      rewrite (Hc t _ H3). cbn. rewrite H1, Bool.andb_false_r. cbn. splits; try reflexivity; assumption. }
    unfold bind at 1. specialize (Hpre s Hi). destruct (try_except _ _ _ s) as [[pre|e] s1]; [|rewrite Hpre; reflexivity].
    destruct Hpre as (Hi1 & -> & Hc1). unfold bind.
    assert (He : D (fun s => idle s /\ k_converged (st_core s) = false) (ext w limit) (fun _ s => idle s /\ k_converged (st_core s) = false)).
    { intros s2 [H1 H2]. pose proof (D_ext_idle s2 H1) as H3. destruct (K_ext w limit s2) as [_ E].
      destruct (ext w limit s2) as [[x|e] s3]; [split; [exact H3|cbn in E; congruence]|exact H3]. }
    specialize (He s1 (conj Hi1 Hc1)). destruct (ext w limit s1) as [[x|e] s2]; [|cbn; congruence]. destruct He as [Hi2 Hc2].
    assert (Hb : exists s3, run_body g w limit RDead s2 = (Err OutOfFuel, s3)).
    { unfold run_body, pack_ids. unfold bind at 1, getc at 1, gets. rewrite (proj2 (proj2 (proj2 Hi2))). cbn [for_each]. unfold bind at 1, ret at 1.
      unfold bind at 1. cbn [main_loop]. match goal with |- context [bind (getc ?f) ?F s2] => change (bind (getc f) F s2) with (F (f (st_core s2)) s2) end. cbv beta.
      rewrite Hc2. unfold bind at 1. pose proof (D_iteration s2 Hi2) as Hit. destruct (iteration g w limit s2) as [[chk|e] s3]; [destruct Hit|]. rewrite Hit. eauto. }
    destruct Hb as [s3 ->]. reflexivity.
  Qed.
End Endless.
