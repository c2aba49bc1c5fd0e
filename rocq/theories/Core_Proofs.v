(** * Proofs about combined conditions *)
From Verif Require Import Prelude Prelude_Proofs Core_Model Core_Spec.

Lemma upd_same {B} (f : nat -> B) i b : upd f i b i = b.
Proof. unfold upd. rewrite Nat.eqb_refl. reflexivity. Qed.

Lemma upd_other {B} (f : nat -> B) i b j : j <> i -> upd f i b j = f j.
Proof. intro H. unfold upd. apply Nat.eqb_neq in H. rewrite H. reflexivity. Qed.

Lemma members_objects c i : In i (members c) -> In i (objects c).
Proof.
  induction c as [j|j k c1 IH1 c2 IH2]; cbn; [auto|]. rewrite !in_app_iff. intuition.
Qed.

Lemma core_id_objects c : In (core_id c) (objects c).
Proof. destruct c; left; reflexivity. Qed.

Lemma asked_members f c i : In i (asked f c) -> In i (members c).
Proof.
  induction c as [j|j k c1 IH1 c2 IH2]; cbn; [auto|].
  destruct k, (formula f c1); rewrite ?in_app_iff; cbn; intuition.
Qed.

Lemma first_asked f c : In (first_member c) (asked f c).
Proof. induction c as [i|i k c1 IH1 c2 IH2]; cbn; [auto|]. destruct k; apply in_app_iff; auto. Qed.

Lemma first_in_members c : In (first_member c) (members c).
Proof. apply (asked_members (fun _ => true)), first_asked. Qed.

Lemma bases_members c : bases c = members c.
Proof.
  induction c as [i|i k c1 IH1 c2 IH2]; cbn; [reflexivity|]. rewrite <- IH1, <- IH2.
  destruct c1, c2; reflexivity.
Qed.

Lemma NoDup_app_inv {B} (l1 l2 : list B) : NoDup (l1 ++ l2) -> NoDup l1 /\ NoDup l2 /\ forall x, In x l1 -> ~ In x l2.
Proof.
  induction l1 as [|b l1 IH]; cbn; intro H.
  - split; [constructor|]. split; [exact H| intros x []].
  - inversion H as [|? ? Hn Hd]; subst. destruct (IH Hd) as [H1 [H2 H3]]. rewrite in_app_iff in Hn. split; [|split].
    + constructor; auto.
    + exact H2.
    + intros x [->|Hx]; auto.
Qed.

Section P.
Variables (A L : Type).
Variable behav : nat -> A -> L -> res bool * L.

Lemma reset_priv c : forall s : cstate L, c_priv (reset L c s) = c_priv s.
Proof. induction c as [i|i k c1 IH1 c2 IH2]; intro s; cbn; [reflexivity|]. rewrite IH2. cbn. rewrite IH1. reflexivity. Qed.

Lemma reset_out c : forall (s : cstate L) j, ~ In j (objects c) -> c_last (reset L c s) j = c_last s j.
Proof.
  induction c as [i|i k c1 IH1 c2 IH2]; intros s j Hj; cbn in *; [apply upd_other; intuition|].
  rewrite in_app_iff in Hj. rewrite IH2 by intuition. cbn.
  rewrite upd_other; [|intros ->; apply Hj; right; right; apply core_id_objects].
  rewrite IH1 by intuition. cbn. apply upd_other. intros ->. apply Hj. right. left. apply core_id_objects.
Qed.

Lemma reset_in c : forall (s : cstate L) j, In j (members c) -> c_last (reset L c s) j = None.
Proof.
  induction c as [i|i k c1 IH1 c2 IH2]; intros s j Hj; cbn in *.
  - destruct Hj as [->|[]]. apply upd_same.
  - destruct (in_dec Nat.eq_dec j (members c2)) as [Hin|Hin]; [apply IH2, Hin|].
    assert (H1 : In j (members c1)) by (apply in_app_iff in Hj; intuition).
    set (s1 := reset L c1 _). assert (Hs1 : c_last s1 j = None) by (apply IH1, H1). clearbody s1.
    assert (Hnone : forall c (s : cstate L) i, c_last s i = None -> c_last (reset L c s) i = None).
    { clear. induction c as [i|i k c1 IH1 c2 IH2]; intros s j Hj; cbn; unfold upd in *.
      - destruct (Nat.eqb j i); auto.
      - apply IH2. cbn. unfold upd. destruct (Nat.eqb j (core_id c2)); [reflexivity|]. apply IH1. cbn. unfold upd.
        destruct (Nat.eqb j (core_id c1)); auto. }
    apply Hnone. cbn. unfold upd. destruct (Nat.eqb j (core_id c2)); auto.
Qed.

(** What one evaluation does. *)
Record after (c : core) (a : A) (f : nat -> bool) (s s' : cstate L) : Prop := mkAfter {
  af_last : forall j, In j (members c) -> c_last s' j = if in_dec Nat.eq_dec j (asked f c) then Some (f j) else None;
  af_frame : forall j, ~ In j (objects c) -> c_last s' j = c_last s j;
  af_priv : forall j, c_priv s' j = if in_dec Nat.eq_dec j (asked f c) then snd (behav j a (c_priv s j)) else c_priv s j }.

Lemma call_after c : forall a f (s : cstate L), NoDup (objects c) ->
  (forall i, In i (members c) -> fst (behav i a (c_priv s i)) = Ok (f i)) ->
  exists s', call A L behav c a s = (Ok (formula f c), s') /\ after c a f s s'.
Proof.
  induction c as [i|i k c1 IH1 c2 IH2]; intros a f s Hnd Hf.
  - cbn. unfold call_leaf. specialize (Hf i (or_introl eq_refl)). destruct (behav i a (c_priv s i)) as [r l] eqn:E. cbn in Hf. subst r.
    eexists. split; [reflexivity|]. split; cbn.
    + intros j [->|[]]. rewrite upd_same. destruct (Nat.eq_dec j j); congruence.
    + intros j Hj. apply upd_other. intuition.
    + intro j. destruct (Nat.eq_dec i j) as [->|Hn]; [rewrite upd_same, E; reflexivity| apply upd_other; congruence].
  - assert (Hnd' := Hnd). cbn in Hnd'. apply NoDup_cons_iff in Hnd' as [Hi Hnd12].
    apply NoDup_app_inv in Hnd12 as [Hn1 [Hn2 Hdis]]. rewrite in_app_iff in Hi.
    cbn [call]. set (s0 := reset L (Comb i k c1 c2) s).
    assert (Hp0 : c_priv s0 = c_priv s) by apply reset_priv.
    assert (Hr0 : forall j, In j (members c1 ++ members c2) -> c_last s0 j = None) by (intros j Hj; apply (reset_in (Comb i k c1 c2)); exact Hj).
    assert (Ho0 : forall j, ~ In j (objects (Comb i k c1 c2)) -> c_last s0 j = c_last s j) by (intros j Hj; apply reset_out; exact Hj).
    clearbody s0.
    destruct (IH1 a f s0 Hn1) as [s1 [E1 [L1 F1 P1]]].
    { intros j Hj. rewrite Hp0. apply Hf. cbn. apply in_app_iff. auto. }
    rewrite E1.
    assert (Hm1 : forall j, In j (members c1) -> ~ In j (objects c2)) by (intros j Hj; apply Hdis, members_objects, Hj).
    assert (Hm2 : forall j, In j (members c2) -> ~ In j (objects c1)) by (intros j Hj H; exact (Hdis j H (members_objects c2 j Hj))).
    assert (Ha1 : forall j, In j (members c2) -> ~ In j (asked f c1)) by (intros j Hj H; apply (Hm2 j Hj), members_objects, (asked_members f), H).
    assert (Ha2 : forall j, In j (members c1) -> ~ In j (asked f c2)) by (intros j Hj H; apply (Hm1 j Hj), members_objects, (asked_members f), H).
    destruct (match k with JOr => formula f c1 | JAnd => negb (formula f c1) end) eqn:Estop.
    + (* the right hand side is not asked *)
      assert (Hask : asked f (Comb i k c1 c2) = asked f c1 /\ formula f (Comb i k c1 c2) = formula f c1).
      { cbn. destruct k; [rewrite Estop, app_nil_r; auto|]. apply negb_true_iff in Estop. rewrite Estop, app_nil_r. auto. }
      destruct Hask as [Hask Hfm]. rewrite Hfm. eexists. split; [reflexivity|]. split; rewrite ?Hask; cbn [c_last c_priv set_last].
      * intros j Hj. cbn in Hj. rewrite upd_other by (intros ->; apply in_app_iff in Hj; destruct Hj as [Hj|Hj]; apply members_objects in Hj; tauto).
        destruct (in_dec Nat.eq_dec j (members c1)) as [H1|H1]; [apply L1, H1|].
        assert (H2 : In j (members c2)) by (apply in_app_iff in Hj; tauto).
        rewrite F1 by (apply Hm2, H2). rewrite Hr0 by exact Hj.
        destruct (in_dec Nat.eq_dec j (asked f c1)) as [H|H]; [destruct (Ha1 j H2 H)| reflexivity].
      * intros j Hj. rewrite <- Ho0 by exact Hj. cbn in Hj. rewrite in_app_iff in Hj.
        rewrite upd_other by (intros ->; tauto). apply F1. tauto.
      * intro j. rewrite P1, Hp0. reflexivity.
    + destruct (IH2 a f s1 Hn2) as [s2 [E2 [L2 F2 P2]]].
      { intros j Hj. rewrite P1. destruct (in_dec Nat.eq_dec j (asked f c1)) as [H|H]; [destruct (Ha1 j Hj H)|].
        rewrite Hp0. apply Hf. cbn. apply in_app_iff. auto. }
      rewrite E2.
      assert (Hask : asked f (Comb i k c1 c2) = asked f c1 ++ asked f c2 /\ formula f (Comb i k c1 c2) = formula f c2).
      { cbn. destruct k; [rewrite Estop; auto|]. apply negb_false_iff in Estop. rewrite Estop. auto. }
      destruct Hask as [Hask Hfm]. rewrite Hfm. eexists. split; [reflexivity|]. split; rewrite ?Hask; cbn [c_last c_priv set_last].
      * intros j Hj. cbn in Hj. rewrite upd_other by (intros ->; apply in_app_iff in Hj; destruct Hj as [Hj|Hj]; apply members_objects in Hj; tauto).
        destruct (in_dec Nat.eq_dec j (members c2)) as [H2|H2].
        -- rewrite L2 by exact H2. pose proof (Ha1 j H2) as Hx.
           destruct (in_dec Nat.eq_dec j (asked f c2)), (in_dec Nat.eq_dec j (asked f c1 ++ asked f c2)) as [H|H]; rewrite ?in_app_iff in H; tauto || reflexivity.
        -- assert (H1 : In j (members c1)) by (apply in_app_iff in Hj; tauto).
           rewrite F2 by (apply Hm1, H1). rewrite L1 by exact H1. pose proof (Ha2 j H1) as Hx.
           destruct (in_dec Nat.eq_dec j (asked f c1)), (in_dec Nat.eq_dec j (asked f c1 ++ asked f c2)) as [H|H]; rewrite ?in_app_iff in H; tauto || reflexivity.
      * intros j Hj. rewrite <- Ho0 by exact Hj. cbn in Hj. rewrite in_app_iff in Hj.
        rewrite upd_other by (intros ->; tauto). rewrite F2 by tauto. apply F1. tauto.
      * intro j. rewrite P2, P1, Hp0.
        destruct (in_dec Nat.eq_dec j (asked f c2)) as [H2|H2], (in_dec Nat.eq_dec j (asked f c1)) as [H1|H1],
          (in_dec Nat.eq_dec j (asked f c1 ++ asked f c2)) as [H|H]; rewrite ?in_app_iff in H; try tauto; try reflexivity.
        destruct (Ha2 j (asked_members f c1 j H1) H2).
Qed.

Lemma report_eq (name : nat -> string) c (s : cstate L) ans : (forall j, In j (members c) -> c_last s j = ans j) ->
  str_with_result L name c s = report name ans c.
Proof.
  induction c as [i|i k c1 IH1 c2 IH2]; intro H; cbn in *.
  - rewrite H by auto. reflexivity.
  - rewrite IH1, IH2 by (intros j Hj; apply H, in_app_iff; auto). destruct k; reflexivity.
Qed.

(** Members whose answer does not depend on their private state may occur several times. *)
Lemma call_stateless c : forall a (f : nat -> bool) (s : cstate L),
  (forall i l, In i (members c) -> fst (behav i a l) = Ok (f i)) ->
  exists s', call A L behav c a s = (Ok (formula f c), s').
Proof.
  induction c as [i|i k c1 IH1 c2 IH2]; intros a f s Hf.
  - cbn. unfold call_leaf. specialize (Hf i (c_priv s i) (or_introl eq_refl)). destruct (behav i a (c_priv s i)) as [r l]. cbn in Hf. subst r. eauto.
  - cbn [call]. set (s0 := reset L _ s). clearbody s0.
    destruct (IH1 a f s0) as [s1 E1]; [intros j l Hj; apply Hf; cbn; apply in_app_iff; auto|]. rewrite E1.
    destruct (IH2 a f s1) as [s2 E2]; [intros j l Hj; apply Hf; cbn; apply in_app_iff; auto|].
    destruct k; cbn; destruct (formula f c1); cbn; rewrite ?E2; eauto.
Qed.

(** An exception of a member propagates. *)
Lemma call_raises c : forall a (s : cstate L) e s', call A L behav c a s = (Err e, s') ->
  exists i l, In i (members c) /\ fst (behav i a l) = Err e.
Proof.
  induction c as [i|i k c1 IH1 c2 IH2]; intros a s e s' H.
  - cbn in H. unfold call_leaf in H. destruct (behav i a (c_priv s i)) as [[b|e0] l] eqn:E; [discriminate|].
    exists i, (c_priv s i). rewrite E. injection H as -> _. cbn. auto.
  - cbn [call] in H. set (s0 := reset L _ s) in H. clearbody s0.
    destruct (call A L behav c1 a s0) as [[b1|e1] s1] eqn:E1.
    + destruct (match k with JOr => b1 | JAnd => negb b1 end); [discriminate|].
      destruct (call A L behav c2 a s1) as [[b2|e2] s2] eqn:E2; [discriminate|]. injection H as -> _.
      destruct (IH2 _ _ _ _ E2) as [j [l [H1 H2]]]. exists j, l. split; [cbn; apply in_app_iff; auto| exact H2].
    + injection H as -> _. destruct (IH1 _ _ _ _ E1) as [j [l [H1 H2]]]. exists j, l. split; [cbn; apply in_app_iff; auto| exact H2].
Qed.
End P.

Lemma formula_ext f g c : (forall i, In i (members c) -> f i = g i) -> formula f c = formula g c.
Proof.
  induction c as [i|i k c1 IH1 c2 IH2]; cbn; intro H; [apply H; auto|].
  rewrite IH1, IH2 by (intros j Hj; apply H, in_app_iff; auto). reflexivity.
Qed.
