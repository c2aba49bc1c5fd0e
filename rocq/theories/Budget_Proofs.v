(** * How far the number of evaluations exceeds MaxFuncCalls, from any state *)
From Coq Require Import Lia.
From Verif Require Import Prelude Prelude_Proofs Logger_Model Manager_Model Manager_Spec Manager_Proofs.
Open Scope nat_scope.

Section Budget.
  Context (g : config) (w : world) (limit : nat) (n L : nat).
  Context (Hn : no_checkpoints g w) (HL : chunks_within w L).
  Context (Hc : forall t c, exists b, w_check w t c = Ok b /\ (b = false -> k_f c < n)).
  (** No chunk in the queue is too long and no checkpoint is asked for. *)
  Definition good (s : mstate) : Prop := (forall ch, In ch (k_queue (st_core s)) -> length ch <= L) /\ k_chkpt (st_core s) = false.
  (** Methods which accept no evaluation and leave converged alone. *)
  Definition K {A} (m : M mstate A) : Prop := forall s,
    k_f (st_core (snd (m s))) = k_f (st_core s) /\ k_converged (st_core (snd (m s))) = k_converged (st_core s) /\ (good s -> good (snd (m s))).
  Lemma K_ret {A} (x : A) : K (ret x). Proof. intros s. splits; auto. Qed.
  Lemma K_raise {A} e : K (@raise mstate A e). Proof. intros s. splits; auto. Qed.
  Lemma K_lift {A} (x : res A) : K (lift x). Proof. intros s. splits; auto. Qed.
  Lemma K_getc {A} (f : core -> A) : K (getc f). Proof. intros s. splits; auto. Qed.
  Lemma K_fun {A} (f : core -> res A) : K (fun s => (f (st_core s), s)). Proof. intros s. splits; auto. Qed.
  Lemma K_logm {A} (m : M logger A) : K (logm m).
  Proof. intros s. unfold logm. destruct (m _) as [r l]. splits; auto. Qed.
  Definition plain (f : core -> core) : Prop := forall c, k_f (f c) = k_f c /\ k_converged (f c) = k_converged c /\ k_queue (f c) = k_queue c /\ k_chkpt (f c) = k_chkpt c.
  Lemma K_modc f : plain f -> K (modc f).
  Proof. intros H s. destruct (H (st_core s)) as (H1 & H2 & H3 & H4). unfold good. cbn. rewrite H3, H4. auto. Qed.
  Lemma K_act e f : plain f -> K (act e f).
  Proof. intros H s. destruct (H (st_core s)) as (H1 & H2 & H3 & H4). unfold good. cbn. rewrite H3, H4. auto. Qed.
  Lemma K_note e : K (note e).
  Proof. apply K_act. intro c. auto. Qed.
  Lemma K_bind {A B} (m : M mstate A) (f : A -> M mstate B) : K m -> (forall x, K (f x)) -> K (bind m f).
  Proof.
    intros Hm Hf s. unfold bind. destruct (Hm s) as (H1 & H2 & H3). destruct (m s) as [[x|e] s1]; cbn [snd] in *; [|auto].
    destruct (Hf x s1) as (H4 & H5 & H6). splits; [congruence|congruence|auto].
  Qed.
  Lemma K_for_each {A} (l : list A) f : (forall x, K (f x)) -> K (for_each l f).
  Proof. intro H. induction l as [|x l IH]; cbn; [apply K_ret|]. apply K_bind; auto. Qed.
  Lemma K_try {A} (m : M mstate A) f h : K m -> (forall e, K (h e)) -> K (try_except m f h).
  Proof.
    intros Hm Hh s. unfold try_except. destruct (Hm s) as (H1 & H2 & H3). destruct (m s) as [[x|e] s1]; cbn [snd] in *; [auto|].
    destruct (f e); [|auto]. destruct (Hh e s1) as (H4 & H5 & H6). splits; [congruence|congruence|auto].
  Qed.
  Lemma K_tick : K (tick w limit).
  Proof.
    intros s. unfold tick. destruct (Nat.leb _ _); [splits; auto|].
    pose proof (apply_moves_rel (w_moves w (k_tick (st_core s))) (st_core s)) as H.
    assert (Hg : good s -> good (mkMS (set_ktick (S (k_tick (st_core s))) (apply_moves (w_moves w (k_tick (st_core s))) (st_core s))) (st_hist s))).
    { intros [H1 H2]. split; cbn.
      - intros ch Hin. apply (er_queue _ _ _ H) in Hin. destruct Hin as [Hin|[Hin _]]; [now apply H1|exact (HL _ _ Hin)].
      - destruct (k_chkpt (apply_moves _ _)) eqn:E; [|reflexivity]. apply (er_chkpt _ _ _ H) in E. destruct E as [E|E]; [congruence|]. destruct (proj2 Hn _ E). }
    destruct (w_intr w _); (splits; [exact (er_f _ _ _ H)|exact (er_converged _ _ _ H)|exact Hg]).
  Qed.

  Create HintDb ob.
  Hint Resolve K_tick : ob.
  Ltac same := unfold plain; intros; repeat (match goal with |- context [match ?x with _ => _ end] => destruct x end); splits; reflexivity.
  Ltac kk := repeat first
    [ apply K_ret | apply K_raise | apply K_lift | apply K_getc | apply K_logm
    | apply (K_fun (fun c => get_best_iter None (k_log c)))
    | solve [auto with ob]
    | apply K_note | apply K_act; same | apply K_modc; same
    | apply K_for_each; intros | apply K_try; [|intros] | apply K_bind; [|intros]
    | match goal with |- K (match ?x with _ => _ end) => destruct x end
    | match goal with |- K (if ?x then _ else _) => destruct x end
    | match goal with |- K (let '_ := ?x in _) => destruct x end ].

  Lemma K_ext : K (ext w limit).
  Proof. unfold ext. kk. Qed.
  Hint Resolve K_ext : ob.
  Lemma K_alive i : K (is_alive w limit i).
  Proof. unfold is_alive. kk. Qed.
  Hint Resolve K_alive : ob.
  Lemma K_send i m : K (send w limit i m).
  Proof. unfold send. kk. Qed.
  Hint Resolve K_send : ob.
  Lemma K_living ids : K (living w limit ids).
  Proof. induction ids; cbn; kk. Qed.
  Hint Resolve K_living : ob.
  Lemma K_fill fuel : forall count started, K (fill_loop g w limit fuel count started).
  Proof. induction fuel as [|fuel IH]; intros count started; cbn [fill_loop]; unfold setup_new_optimizer, add_to_log, start_new_job; kk. Qed.
  Hint Resolve K_fill : ob.
  Lemma K_slots : K (fill_slots g w limit).
  Proof. unfold fill_slots, pack_ids. kk. Qed.
  Hint Resolve K_slots : ob.
  Lemma K_signals i : K (check_signals w limit i).
  Proof. unfold check_signals, in_grave, put_end, bury. kk. Qed.
  Hint Resolve K_signals : ob.
  Lemma K_inspect : K (inspect_children g w limit).
  Proof. unfold inspect_children, inspect_child, inspect_dead, inspect_hang, inspect_zombie, pack_ids, in_grave, put_end, bury. kk. Qed.
  Lemma K_shutdown i hn : K (shutdown_job g w limit i hn).
  Proof. unfold shutdown_job, put_end, bury. kk. Qed.
  Hint Resolve K_inspect K_shutdown : ob.
  Lemma K_share x : K (share_loop w limit x).
  Proof. unfold share_loop, pack_ids. kk. Qed.
  Hint Resolve K_share : ob.
  Lemma K_update : K (update_best g w limit).
  Proof. unfold update_best. kk. Qed.
  Lemma K_get : K (queue_get w limit).
  Proof.
    intros s. unfold queue_get, bind. pose proof (K_tick s) as H. destruct (tick w limit s) as [[t|e] s1]; [|exact H]. unfold getc, gets.
    destruct (k_queue (st_core s1)) as [|ch q] eqn:E; [exact H|]. destruct H as (H1 & H2 & H3). splits; [exact H1|exact H2|].
    intro Hs. destruct (H3 Hs) as [H4 H5]. split; [|exact H5]. intros ch' Hin. apply H4. cbn in *. rewrite E. right. exact Hin.
  Qed.
  Lemma K_shutdowns : K (manual_shutdowns g w limit).
  Proof. unfold manual_shutdowns, manual_shutdown, remove_file. kk. Qed.
  Hint Resolve K_update K_get K_shutdowns : ob.
  Lemma K_drain fuel : K (drain_loop w limit fuel).
  Proof. induction fuel; cbn [drain_loop]; kk. Qed.
  Lemma K_checker : K (checker_call w limit).
  Proof. unfold checker_call. kk. Qed.
  Lemma K_purge i : K (purge_one w limit i).
  Proof. unfold purge_one, in_grave. kk. Qed.
  Hint Resolve K_drain K_checker K_purge : ob.
  Lemma K_stop_all x : K (stop_all_children w limit x).
  Proof. destruct x; unfold stop_all_children, stop_one, put_end, pack_ids, bury; kk. Qed.
  Lemma K_finish r : K (finish r).
  Proof. unfold finish. kk. Qed.
  Hint Resolve K_stop_all K_finish : ob.
  Lemma K_restart i : K (restart_one w limit i).
  Proof. unfold restart_one. kk. Qed.
  Hint Resolve K_restart : ob.

  Lemma K_hunt_loop hn ids : K (hunt_loop g w limit hn ids).
  Proof. induction ids as [|v ids IH]; cbn [hunt_loop]; unfold in_grave; kk. Qed.
  Hint Resolve K_hunt_loop : ob.
  Lemma K_hunt hn : K (start_hunt g w limit hn).
  Proof. unfold start_hunt, pack_ids. kk. Qed.
  Hint Resolve K_hunt : ob.
  Lemma K_manual s : good s -> manual_checkpoints g w limit s = (t <- tick w limit ;; ret tt) s.
  Proof.
    intros H. unfold manual_checkpoints, bind. pose proof (K_tick s) as (_ & _ & Hg). specialize (Hg H). destruct (tick w limit s) as [[t|e] s1]; [|reflexivity].
    unfold getc, gets. cbn [snd] in Hg. rewrite (proj2 Hg). reflexivity.
  Qed.

  (** ** What each method makes of a bound *)
  Definition H {A} (P : mstate -> Prop) (m : M mstate A) (R : A -> mstate -> Prop) (X : mstate -> Prop) : Prop :=
    forall s, P s -> match m s with (Ok x, s') => R x s' | (Err _, s') => X s' end.
  Lemma H_bind {A B} P (m : M mstate A) (f : A -> M mstate B) R R' X : H P m R X -> (forall x, H (R x) (f x) R' X) -> H P (bind m f) R' X.
  Proof. intros Hm Hf s Hs. unfold bind. specialize (Hm s Hs). destruct (m s) as [[x|e] s1]; [now apply Hf|exact Hm]. Qed.
  Definition upto (b : nat) (s : mstate) : Prop := k_f (st_core s) <= b.
  Definition at_ (f : nat) (s : mstate) : Prop := good s /\ k_f (st_core s) = f.
  Lemma H_at {A} f b (m : M mstate A) : f <= b -> K m -> H (at_ f) m (fun _ => at_ f) (upto b).
  Proof. intros Hb Hm s [H1 H2]. destruct (Hm s) as (E1 & E2 & E3). unfold at_, upto in *. destruct (m s) as [[x|e] s1]; cbn [snd] in *; [split; [auto|lia]|lia]. Qed.
  Definition below (b : nat) (s : mstate) : Prop := good s /\ upto b s.
  Lemma H_below {A} b (m : M mstate A) : K m -> H (below b) m (fun _ => below b) (upto b).
  Proof. intros Hm s [H1 H2]. destruct (Hm s) as (E1 & E2 & E3). unfold below, upto in *. destruct (m s) as [[x|e] s1]; cbn [snd] in *; [split; [auto|lia]|lia]. Qed.
  Notation num3 := (nat * list nat * list nat)%type.
  Definition cnt (x : num3) : nat := fst (fst x).

  Lemma H_item f q : H (at_ f) (process_item g w limit q) (fun x s => at_ (f + cnt x) s /\ cnt x <= 1) (upto (S f)).
  Proof.
    assert (Hret : forall cl vs, H (at_ f) (ret (0, cl, vs)) (fun x s => at_ (f + cnt x) s /\ cnt x <= 1) (upto (S f))).
    { intros cl vs s Hs. unfold ret, cnt. cbn. rewrite Nat.add_0_r. auto. }
    assert (Hret1 : forall cl vs, H (at_ (S f)) (ret (1, cl, vs)) (fun x s => at_ (f + cnt x) s /\ cnt x <= 1) (upto (S f))).
    { intros cl vs s Hs. unfold ret, cnt. cbn. rewrite Nat.add_1_r. auto. }
    destruct q as [r|i]; cbn [process_item].
    - eapply H_bind; [apply (H_at f); [lia|kk]|intros dead; cbv beta]. destruct dead; [apply Hret|].
      eapply H_bind; [apply (H_at f); [lia|kk]|intros has; cbv beta].
      eapply H_bind; [apply (H_at f); [lia|kk]|intros ?; cbv beta].
      eapply (H_bind _ _ _ (fun _ => at_ (S f))).
      { intros s [H1 H2]. unfold accept, act, modify, bind, logm. cbn [st_core st_hist k_log set_kf]. destruct (put_iteration r _) as [[y|e] l]; unfold at_, upto, good in *; cbn; [split; [exact H1|lia]|lia]. }
      intros ?. cbv beta. eapply H_bind; [apply (H_at (S f)); [lia|kk]|intros ?; cbv beta].
      eapply H_bind; [apply (H_at (S f)); [lia|kk]|intros c; cbv beta zeta].
      destruct (_ && _); [|apply Hret1]. eapply H_bind; [apply (H_at (S f)); [lia|kk]|intros vs; cbv beta]. apply Hret1.
    - eapply H_bind; [apply (H_at f); [lia|kk]|intros org; cbv beta]. destruct org as [[b ty]|]; [|apply Hret].
      destruct (Nat.eqb b i); [apply Hret|]. eapply H_bind; [apply (H_at f); [lia|kk]|intros ?; cbv beta]. apply Hret.
  Qed.
  Lemma H_chunk f l : forall acc, H (at_ (f + cnt acc)) (process_chunk g w limit l acc)
    (fun x s => at_ (f + cnt x) s /\ cnt x <= cnt acc + length l) (upto (f + cnt acc + length l)).
  Proof.
    induction l as [|q l IH]; intros acc; cbn [process_chunk].
    { intros s Hs. unfold ret. split; [exact Hs|]. cbn. lia. }
    intros s Hs. unfold bind. pose proof (H_item (f + cnt acc) q s Hs) as H1. destruct (process_item g w limit q s) as [[x|e] s1].
    - destruct H1 as [H1 H2]. destruct acc as [[a cl] vs], x as [[a' cl'] vs']. unfold cnt in *. cbn [fst] in *.
      specialize (IH (a + a', cl ++ cl', vs ++ vs')). unfold cnt in IH. cbn [fst] in IH. replace (f + a + a') with (f + (a + a')) in H1 by lia. specialize (IH s1 H1).
      destruct (process_chunk _ _ _ _ _ s1) as [[y|e] s2].
      + destruct IH as [I1 I2]. split; [exact I1|]. cbn [length]. lia.
      + unfold upto in *. cbn [length]. lia.
    - unfold upto in *. cbn [length]. lia.
  Qed.
  Lemma H_loop f fuel : forall acc, cnt acc <= 9 + L -> H (at_ (f + cnt acc)) (process_loop g w limit fuel (Some 10) acc)
    (fun _ => below (f + (9 + L))) (upto (f + (9 + L))).
  Proof.
    induction fuel as [|fuel IH]; intros acc Ha; cbn [process_loop]; [intros s [_ Hs]; cbn; unfold upto; lia|].
    intros s Hs. unfold bind at 1, ret at 1. fold (cnt acc).
    assert (Hb : forall s, at_ (f + cnt acc) s -> below (f + (9 + L)) s) by (intros s' [H1 H2]; split; [exact H1|unfold upto; lia]).
    destruct (cnt acc <? 10) eqn:E; [|apply Hb; exact Hs]. apply Nat.ltb_lt in E.
    assert (Hq : H (at_ (f + cnt acc)) (queue_get w limit) (fun o s => at_ (f + cnt acc) s /\ forall ch, o = Some ch -> length ch <= L) (upto (f + (9 + L)))).
    { clear s Hs. intros s Hs. pose proof (H_at (f + cnt acc) (f + (9 + L)) _ ltac:(lia) K_get s Hs) as H1. revert H1. unfold queue_get, bind.
      pose proof (H_at (f + cnt acc) (f + (9 + L)) _ ltac:(lia) K_tick s Hs) as H2. destruct (tick w limit s) as [[t|e] s1]; [|tauto]. unfold getc, gets.
      destruct (k_queue (st_core s1)) as [|ch q] eqn:Eq; cbn; intros H1; (split; [exact H1|]); [discriminate|].
      intros ch' [= <-]. apply (proj1 (proj1 H2)). rewrite Eq. left. reflexivity. }
    unfold bind at 1. specialize (Hq s Hs). destruct (queue_get w limit s) as [[[ch|]|e] s1]; [|apply Hb; apply Hq|exact Hq].
    destruct Hq as [Hs1 Hl]. specialize (Hl _ eq_refl). unfold bind. pose proof (H_chunk f ch acc s1 Hs1) as H1.
    destruct (process_chunk g w limit ch acc s1) as [[x|e] s2]; [|unfold upto in *; lia]. destruct H1 as [H1 H2]. apply IH; [lia|exact H1].
  Qed.
  Lemma H_results f : H (at_ f) (process_results g w limit (Some 10)) (fun _ => below (f + (9 + L))) (upto (f + (9 + L))).
  Proof.
    unfold process_results. eapply H_bind; [|intros ?; cbv beta; apply H_below; kk]. pose proof (H_loop f (S limit) (0, [], []) ltac:(cbn; lia)) as H1.
    unfold cnt in H1. cbn [fst] in H1. rewrite Nat.add_0_r in H1. exact H1.
  Qed.
  Lemma H_manual b : H (below b) (manual_checkpoints g w limit) (fun _ => below b) (upto b).
  Proof. intros s Hs. rewrite (K_manual s (proj1 Hs)). apply (H_below b (t <- tick w limit ;; ret tt)); [kk|exact Hs]. Qed.
  Definition open (b : nat) (s : mstate) : Prop := below b s /\ (k_converged (st_core s) = false -> k_f (st_core s) < n).
  Lemma open_K {A} b (m : M mstate A) : K m -> H (open b) m (fun _ => open b) (upto b).
  Proof.
    intros Hm s [[H1 H2] H3]. destruct (Hm s) as (E1 & E2 & E3). unfold open, below, upto in *. destruct (m s) as [[x|e] s1]; cbn [snd] in *; rewrite E1; [rewrite E2|]; auto.
  Qed.
  Lemma H_checker b : H (below b) (checker_call w limit) (fun chk s => below b s /\ (chk = false -> k_f (st_core s) < n)) (upto b).
  Proof.
    intros s Hs. unfold checker_call, bind. pose proof (H_below b _ K_tick s Hs) as E. destruct (tick w limit s) as [[t|e] s1]; [|exact E].
    unfold getc, gets, lift. cbv beta iota. destruct (Hc t (st_core s1)) as (chk & -> & Hb). split; [exact E|exact Hb].
  Qed.
  Lemma H_iteration f : H (at_ f) (iteration g w limit) (fun _ => open (f + (9 + L))) (upto (f + (9 + L))).
  Proof.
    unfold iteration, pack_ids. do 4 (eapply H_bind; [apply (H_at f); [lia|kk]|intros ?; cbv beta]). eapply H_bind; [apply H_results|intros ?; cbv beta].
    eapply H_bind; [apply H_below; kk|intros ?; cbv beta]. eapply H_bind; [apply H_manual|intros ?; cbv beta].
    do 5 (eapply H_bind; [apply H_below; kk|intros ?; cbv beta]). cbv zeta. eapply H_bind; [apply H_checker|intros chk; cbv beta].
    assert (Hp : K (periodic_checkpoint g w limit)) by (unfold periodic_checkpoint; rewrite (proj1 Hn); kk).
    eapply H_bind; [|intros ?; cbv beta; eapply H_bind; [apply open_K; exact Hp|intros; apply open_K; kk]].
    intros s [H1 H2]. cbn. split; [exact H1|]. cbn. intros E. apply Bool.orb_false_elim in E as [-> _]. apply H2. reflexivity.
  Qed.
  Lemma H_main b fuel : n + (9 + L) <= S b -> forall r, H (open b) (main_loop g w limit fuel r) (fun _ => below b) (upto b).
  Proof.
    intros Hb. induction fuel as [|fuel IH]; intros r s Hs; cbn [main_loop]; [apply Hs|].
    match goal with |- context [bind (getc ?f) ?F s] => change (bind (getc f) F s) with (F (f (st_core s)) s) end. cbv beta. destruct Hs as [H1 H2].
    destruct (k_converged (st_core s)) eqn:E; [exact H1|]. specialize (H2 eq_refl). unfold bind.
    pose proof (H_iteration (k_f (st_core s)) s (conj (proj1 H1) eq_refl)) as Hi. destruct (iteration g w limit s) as [[chk|e] s1]; [|unfold upto in *; lia].
    apply IH. destruct Hi as [[H3 H5] H4]. split; [split; [exact H3|unfold upto in *; lia]|exact H4].
  Qed.
  Lemma H_body b : n + (9 + L) <= S b -> forall r, H (open b) (run_body g w limit r) (fun _ => upto b) (upto b).
  Proof.
    intros Hb r. unfold run_body, pack_ids. rewrite (proj1 Hn). cbn [andb]. do 2 (eapply H_bind; [apply open_K; kk|intros ?; cbv beta]).
    eapply H_bind; [apply H_main; exact Hb|intros r'; cbv beta].
    intros s Hs. assert (Hk : K (ret tt ;;; stop_all_children w limit None ;;; ret r')) by kk. pose proof (H_below b _ Hk s Hs) as H1.
    match goal with |- match ?m with _ => _ end => destruct m as [[y|e] s1] end; [apply H1|exact H1].
  Qed.
  Lemma budget b s : n + (9 + L) <= S b -> below b s -> upto b (snd (start_manager g w limit s)).
  Proof.
    intros Hb Hs. unfold start_manager.
    assert (Hpre : H (below b) (try_except
             (chk <- checker_call w limit ;; c <- getc (fun c => c) ;;
              let conv := chk || (Nat.eqb (length (k_packs c)) 0 && negb (k_spawn c)) in modc (set_kconverged conv) ;;; ret (Some conv))
             is_exception (fun _ => modc (set_kconverged false) ;;; ret None)) (fun _ => open b) (upto b)).
    { clear s Hs. intros s Hs. pose proof (H_checker b s Hs) as H1. unfold try_except. unfold checker_call in *. revert H1. unfold bind, getc, gets, lift.
      unfold tick. destruct (limit <=? k_tick (st_core s)); [intros H1; exact H1|]. destruct (w_intr w _); [intros H1; exact H1|].
      match goal with |- context [w_check w ?t ?c] => destruct (Hc t c) as (chk & -> & Hk) end. intros [H1 H2].
      split; [exact H1|]. cbn. intros E. apply Bool.orb_false_elim in E as [-> _]. apply H2. reflexivity. }
    unfold bind at 1. specialize (Hpre s Hs). destruct (try_except _ _ _ s) as [[pre|e] s1]; [|exact Hpre].
    assert (Hb' : upto b (snd ((ext w limit ;;; (fun s => match run_body g w limit (match pre with Some _ => RDead | None => RNone end) s with
                 | (Ok r, s1) => finish r s1
                 | (Err OutOfFuel, s1) => (Err OutOfFuel, s1)
                 | (Err e, s1) =>
                     match stop_all_children w limit (Some (crash_text e)) s1 with
                     | (Err OutOfFuel, s2) => (Err OutOfFuel, s2)
                     | (_, s2) => finish (match e with KeyboardInterrupt => RInterrupt | _ => RCrash e end) s2
                     end
                 end)) s1))).
    { unfold bind. pose proof (open_K b _ K_ext s1 Hpre) as H1. destruct (ext w limit s1) as [[[]|e] s2]; [|exact H1].
      pose proof (H_body b Hb (match pre with Some _ => RDead | None => RNone end) s2 H1) as H2.
      assert (Hfin : forall r s, upto b s -> upto b (snd (finish r s))).
      { intros r s3 H3. destruct (K_finish r s3) as [E _]. unfold upto in *. lia. }
      destruct (run_body _ _ _ _ s2) as [[r|e] s3]; [now apply Hfin|].
      destruct (K_stop_all (Some (crash_text e)) s3) as [E _]. destruct (stop_all_children w limit (Some (crash_text e)) s3) as [[u|e'] s4] eqn:Es; cbn [snd] in E;
        assert (H4 : upto b s4) by (unfold upto in *; lia); destruct e; try exact H2; try (now apply Hfin); destruct e'; try exact H4; now apply Hfin. }
    destruct pre as [[|]|]; [apply Hpre|exact Hb'|exact Hb'].
  Qed.
End Budget.
