(** * C31, C32: the results queue *)
From Verif Require Import Prelude Prelude_Proofs Queue_Model Queue_Spec Queue_Proofs.

(** A queue of one place and chunks of two: producer 1 fills it, producer 2 meets it full and opens the cache, producer 1
    goes on through the cache, the consumer empties the queue, producer 1 ends with a blocking put. *)
Definition ex_run : list (action nat) :=
  [Call 1 (OPutNowait 10); Step 1 false; Step 1 false;                                       (* direct *)
   Call 2 (OPutNowait 20); Step 2 false; Step 2 false; Step 2 false; Step 2 false; Step 2 false;   (* full: cached *)
   Call 1 (OPutNowait 11); Step 1 false; Step 1 false; Step 1 false; Step 1 false;           (* fills the cache *)
   Step 1 false; Get; Read; Step 1 false; Step 1 false;                                      (* waits until there is room *)
   Call 1 (OPut Block 19); Step 1 false; Step 1 false; Step 1 false; Get; Read; Step 1 false; Step 1 false; Get; Read].

Example ex_run_out : q_out (qrun nat 1 2 ex_run) = [(0, 10); (1, 20); (2, 11); (3, 19)] /\ q_done (qrun nat 1 2 ex_run) = [3; 2; 1; 0].
Proof. split; vm_compute; reflexivity. Qed.

(** C31: nothing is lost or duplicated.  Whatever is delivered or on its way was put; every put which has returned is
    delivered or on its way, once. *)
Theorem C31_exactly_once : forall I maxsize chunk (s : queue I), reachable maxsize chunk s ->
  NoDup (map fst (q_out s ++ underway s)) /\
  (forall n it, In (n, it) (q_out s ++ underway s) -> puts s n it) /\
  (forall n it, In n (q_done s) -> puts s n it -> In (n, it) (q_out s ++ underway s)).
Proof. intros I maxsize chunk s H. destruct (reachable_once _ _ s H) as [H1 H2 H3 _ _]. splits; assumption. Qed.
Print Assumptions C31_exactly_once.

Example C31_exactly_once_ex : let s := qrun nat 1 2 (firstn 15 ex_run) in
  q_out s = [] /\ on_queue s = [(0, 10)] /\ in_cache s = [(1, 20); (2, 11)] /\ q_done s = [1; 0] /\ puts s 1 20.
Proof. cbv zeta. splits; try (vm_compute; reflexivity). exists 2, (OPutNowait 20). split; vm_compute; reflexivity. Qed.

(** C31: only a put which is not to wait, or not for long, can raise. *)
Theorem C31_raises : forall I maxsize chunk (s : queue I) n, reachable maxsize chunk s -> In n (q_raised s) ->
  exists p o, nget n (q_calls s) = Some (p, o) /\ op_mode I o <> Block.
Proof. intros I maxsize chunk s n H. apply (bk_raised _ (reachable_book _ _ s H)). Qed.
Print Assumptions C31_raises.

Example C31_raises_ex : q_raised (qrun nat 1 2 [Call 1 (OPut NoBlock 5); Step 1 false; Step 1 false; Call 1 (OPut NoBlock 6); Step 1 false; Step 1 false]) = [1].
Proof. vm_compute. reflexivity. Qed.

(** C31: items arrive in the order of the calls which put them, as far as that order is defined: if one call had
    returned when the other was made. *)
Theorem C31_order : forall I maxsize chunk (s : queue I), reachable maxsize chunk s ->
  forall l1 b it l2 a i, q_out s ++ underway s = l1 ++ (b, it) :: l2 -> before s a b -> puts s a i -> In (a, i) l1.
Proof.
  intros I maxsize chunk s H l1 b it l2 a i Hs Hb Hp.
  pose proof (or_order _ (reachable_ordered _ _ s H) l1 b it l2 a Hs Hb (ex_intro _ i Hp)) as Hin.
  apply in_map_iff in Hin as [[a' i'] [Hx Hin]]. cbn in Hx. subst a'.
  assert (Hp' : puts s a i') by (apply (on_puts _ (reachable_once _ _ s H)); unfold all; rewrite Hs; apply in_app_iff; auto).
  rewrite (puts_fun _ _ _ _ Hp Hp'). exact Hin.
Qed.
Print Assumptions C31_order.

Example C31_order_ex : let s := qrun nat 1 2 ex_run in before s 1 3 /\ before s 2 3 /\ before s 0 2 /\ puts s 2 11.
Proof.
  cbv zeta. splits; try (eexists; split; [vm_compute; reflexivity|cbn; auto]).
  exists 1, (OPutNowait 11). split; vm_compute; reflexivity.
Qed.

(** C31: in particular the items of one producer arrive in the order it put them, none missing in between (those refused
    with an exception excepted). *)
Theorem C31_producer_order : forall I maxsize chunk (s : queue I), reachable maxsize chunk s ->
  forall l1 b it l2 a i p, q_out s = l1 ++ (b, it) :: l2 -> made_by s a p -> made_by s b p -> a < b ->
  puts s a i -> ~ In a (q_raised s) -> In (a, i) l1.
Proof.
  intros I maxsize chunk s H l1 b it l2 a i p Hs [o Ha] [o' Hb] Hlt Hp Hr.
  apply (C31_order I maxsize chunk s H l1 b it (l2 ++ underway s)); auto.
  - rewrite Hs, <- app_assoc. reflexivity.
  - destruct (bk_seq _ (reachable_book _ _ s H) a b p o o' Ha Hb Hlt); [assumption|contradiction].
Qed.
Print Assumptions C31_producer_order.

Example C31_producer_order_ex : let s := qrun nat 1 2 ex_run in
  q_out s = [(0, 10); (1, 20)] ++ (2, 11) :: [(3, 19)] /\ made_by s 0 1 /\ made_by s 2 1 /\ puts s 0 10 /\ q_raised s = [].
Proof.
  cbv zeta. splits; try (vm_compute; reflexivity); try (eexists; vm_compute; reflexivity).
  exists 1, (OPutNowait 10). split; vm_compute; reflexivity.
Qed.

(** C31: a put which has returned leaves nothing in the cache which was put before. *)
Theorem C31_put_pushes : forall I maxsize chunk (s : queue I), reachable maxsize chunk s ->
  forall b, is_put s b -> In b (q_done s) -> forall a i, a = b \/ before s a b -> puts s a i -> In (a, i) (q_out s ++ on_queue s).
Proof.
  intros I maxsize chunk s H b Hb Hd a i Ha Hp.
  pose proof (reachable_once _ _ s H) as O. pose proof (reachable_ordered _ _ s H) as Or.
  assert (Hbit : exists it, puts s b it) by (destruct Hb as [p [m [it Hb]]]; exists it, p, (OPut m it); auto).
  destruct Hbit as [it Hbit]. pose proof (on_done _ O b it Hd Hbit) as Hin. rewrite all_split in Hin. apply in_app_iff in Hin as [Hin|Hin].
  2: { exfalso. apply (or_put _ Or b Hd Hb). apply (in_map fst) in Hin. exact Hin. }
  destruct Ha as [->|Ha]; [rewrite (puts_fun _ _ _ _ Hp Hbit); exact Hin|].
  apply in_split in Hin as [l1 [l2 Hs]]. fold (front s). rewrite Hs. apply in_app_iff. left.
  apply (C31_order I maxsize chunk s H l1 b it (l2 ++ in_cache s)); auto. fold (all s). rewrite all_split, Hs, <- app_assoc. reflexivity.
Qed.
Print Assumptions C31_put_pushes.

Example C31_put_pushes_ex : let s := qrun nat 1 2 ex_run in is_put s 3 /\ In 3 (q_done s) /\ before s 1 3.
Proof.
  cbv zeta. splits; [exists 1, Block, 19; vm_compute; reflexivity|vm_compute; auto|]. eexists; split; [vm_compute; reflexivity|cbn; auto].
Qed.

(** C31: so when every producer has ended with a put and the consumer has emptied the queue, everything was delivered:
    the items of each producer are exactly those delivered. *)
Theorem C31_all_delivered : forall I maxsize chunk (s : queue I), reachable maxsize chunk s ->
  q_chunks s = [] -> q_got s = None ->
  forall p b, made_by s b p -> is_put s b -> In b (q_done s) ->
  forall a i, made_by s a p -> a <= b -> puts s a i -> ~ In a (q_raised s) -> In (a, i) (q_out s).
Proof.
  intros I maxsize chunk s H Hq Hg p b [o' Hb] Hput Hd a i [o Ha] Hle Hp Hr.
  assert (Hin : In (a, i) (q_out s ++ on_queue s)).
  { eapply C31_put_pushes; eauto. destruct (Nat.eq_dec a b) as [->|Hne]; [auto|]. right.
    destruct (bk_seq _ (reachable_book _ _ s H) a b p o o' Ha Hb ltac:(lia)); [assumption|contradiction]. }
  unfold on_queue in Hin. rewrite Hq, Hg in Hin. cbn in Hin. rewrite app_nil_r in Hin. exact Hin.
Qed.
Print Assumptions C31_all_delivered.

Example C31_all_delivered_ex : let s := qrun nat 1 2 ex_run in q_chunks s = [] /\ q_got s = None /\ made_by s 3 1 /\ is_put s 3 /\ In 3 (q_done s).
Proof. cbv zeta. splits; try (vm_compute; auto; fail); [exists (OPut Block 19)|exists 1, Block, 19]; vm_compute; reflexivity. Qed.

(** C31: the calls cannot block each other for good: if there is room on the queue, one of the calls in progress can go on. *)
Theorem C31_no_deadlock : forall I maxsize chunk (s : queue I), reachable maxsize chunk s -> room I maxsize s = true ->
  (exists p, q_thr s p <> None) -> exists p, forall tmo, exists s', qstep I maxsize chunk (Step p tmo) s = Some s'.
Proof.
  intros I maxsize chunk s H Hroom [p0 Hp0]. pose proof (reachable_str _ _ s H) as S.
  assert (Hcase : exists p t, q_thr s p = Some t /\ (holds (t_pc t) = true \/ q_lock s = None)).
  { destruct (q_lock s) as [p|] eqn:El.
    - destruct (st_lock _ S p El) as [t [Ht Hh]]. eauto.
    - destruct (q_thr s p0) as [t|] eqn:Et; [eauto|congruence]. }
  destruct Hcase as [p [t [Ht Hc]]]. exists p. intro tmo. cbn. rewrite Ht. pose proof (st_fits _ S p t Ht) as Hf. unfold thread_step. rewrite Hroom.
  destruct (t_pc t); cbn in Hf, Hc.
  - destruct (t_op t); eauto. destruct (q_fast s); eauto.
  - destruct (t_op t); try contradiction; eauto.
  - destruct Hc as [Hc|Hc]; [discriminate|]. rewrite Hc. eauto.
  - eauto.
  - destruct (t_op t); try contradiction. cbn. eauto.
  - destruct Hc as [Hc|Hc]; [discriminate|]. rewrite Hc. eauto.
  - destruct (t_op t); try contradiction; cbn; eauto.
  - destruct (Nat.leb _ _); eauto.
  - eauto.
  - eauto.
Qed.
Print Assumptions C31_no_deadlock.

Example C31_no_deadlock_ex : let s := qrun nat 1 2 (firstn 16 ex_run) in
  room nat 1 s = true /\ q_lock s = Some 1 /\ q_thr s 1 = Some (mkT 2 (OPutNowait 11) PSend).
Proof. cbv zeta. splits; vm_compute; reflexivity. Qed.

(** A put with block=False may raise Full although its item is kept and delivered later: a caller who tries again
    delivers it twice.  (GloMPO itself only makes blocking puts.) *)
Theorem C31_full_kept_refuted : exists (s : queue nat) n it, reachable 1 2 s /\ In n (q_raised s) /\ puts s n it /\ In (n, it) (q_out s).
Proof.
  pose (l := [Call 1 (OPutInCache 1); Step 1 false; Step 1 false; Step 1 false; Call 1 (OFlush Block); Step 1 false; Step 1 false; Step 1 false; Step 1 false;
     Call 1 (OPut NoBlock 2); Step 1 false; Step 1 false; Step 1 false; Step 1 false; Get; Read;
     Call 1 (OFlush Block); Step 1 false; Step 1 false; Step 1 false; Step 1 false; Get; Read]).
  exists (qrun nat 1 2 l), 2, 2. splits.
  - exists l. reflexivity.
  - vm_compute. auto.
  - exists 1, (OPut NoBlock 2). split; vm_compute; reflexivity.
  - vm_compute. auto.
Qed.
Print Assumptions C31_full_kept_refuted.

(** C32: what an optimizer sends: evaluations with put_nowait (baseoptimizer.py 100), possibly from several worker
    threads, and last of all its number with put (465). *)
Inductive message := Evaluation (opt : nat) (fx : num) | EndOf (opt : nat).

(** C32: when the manager reads the end marker of an optimizer, it has read all its evaluations: those of the calls which
    had returned when the marker was put, and that is all of them if the optimizer puts the marker last. *)
Theorem C32_marker_last : forall maxsize chunk (s : queue message), reachable maxsize chunk s ->
  forall l1 b opt l2, q_out s = l1 ++ (b, EndOf opt) :: l2 ->
  (forall a fx, puts s a (Evaluation opt fx) -> before s a b) ->
  forall a fx, puts s a (Evaluation opt fx) -> In (a, Evaluation opt fx) l1 /\ ~ In (a, Evaluation opt fx) (l2 ++ underway s).
Proof.
  intros maxsize chunk s H l1 b opt l2 Hs Hlast a fx Hp.
  assert (Hin : In (a, Evaluation opt fx) l1).
  { apply (C31_order _ maxsize chunk s H l1 b (EndOf opt) (l2 ++ underway s)); eauto. rewrite Hs, <- app_assoc. reflexivity. }
  split; [exact Hin|]. intro Hin'. destruct (C31_exactly_once _ maxsize chunk s H) as [Hnd _]. rewrite Hs, <- app_assoc in Hnd. cbn in Hnd.
  apply in_split in Hin as [m1 [m2 ->]]. rewrite <- app_assoc, map_app in Hnd. cbn in Hnd. apply NoDup_remove_2 in Hnd. apply Hnd.
  apply in_app_iff. right. rewrite map_app. apply in_app_iff. right. cbn. right. apply (in_map fst) in Hin'. exact Hin'.
Qed.
Print Assumptions C32_marker_last.

(** C32 for an optimizer which is one producer: the marker is its last call. *)
Theorem C32_single : forall maxsize chunk (s : queue message), reachable maxsize chunk s ->
  forall l1 b opt p l2, q_out s = l1 ++ (b, EndOf opt) :: l2 -> made_by s b p ->
  (forall a fx, puts s a (Evaluation opt fx) -> a < b /\ exists o, nget a (q_calls s) = Some (p, OPutNowait o)) ->
  forall a fx, puts s a (Evaluation opt fx) -> In (a, Evaluation opt fx) l1.
Proof.
  intros maxsize chunk s H l1 b opt p l2 Hs Hb Hev a fx Hp. destruct (Hev a fx Hp) as [Hlt [o Ho]].
  apply (C31_producer_order _ maxsize chunk s H l1 b (EndOf opt) l2 a _ p); auto.
  - exists (OPutNowait o). exact Ho.
  - intro Hr. destruct (C31_raises _ maxsize chunk s a H Hr) as [q [o' [H1 H2]]]. rewrite Ho in H1. injection H1 as <- <-. apply H2. reflexivity.
Qed.
Print Assumptions C32_single.

Definition ex_run32 : list (action message) :=
  [Call 1 (OPutNowait (Evaluation 1 (Fin 4))); Step 1 false; Step 1 false; Call 2 (OPutNowait (Evaluation 2 NaN)); Step 2 false; Step 2 false; Step 2 false;
   Step 2 false; Step 2 false; Call 1 (OPutNowait (Evaluation 1 (Fin 3))); Step 1 false; Step 1 false; Step 1 false; Step 1 false; Step 1 false;
   Call 1 (OPut Block (EndOf 1)); Step 1 false; Step 1 false; Step 1 false; Get; Read; Step 1 false; Get; Read].

Example C32_ex : let s := qrun message 1 3 ex_run32 in
  map snd (q_out s) = [Evaluation 1 (Fin 4); Evaluation 2 NaN; Evaluation 1 (Fin 3); EndOf 1] /\ made_by s 3 1 /\
  (forall a fx, puts s a (Evaluation 1 fx) -> before s a 3 /\ a < 3 /\ exists o, nget a (q_calls s) = Some (1, OPutNowait o)).
Proof.
  cbv zeta. splits; [vm_compute; reflexivity|eexists; vm_compute; reflexivity|].
  intros a fx [p [o [H1 H2]]]. vm_compute in H1.
  destruct a as [|[|[|[|a]]]]; try discriminate; injection H1 as <- <-; try discriminate.
  - splits; [|lia|eexists; vm_compute; reflexivity]. eexists. split; [vm_compute; reflexivity|cbn; auto].
  - splits; [|lia|eexists; vm_compute; reflexivity]. eexists. split; [vm_compute; reflexivity|cbn; auto].
Qed.
