(** * Lemmas about the shared vocabulary (no model content) *)
From Verif Require Export Prelude.
From Coq Require Import Lqa.

(** ** Numbers *)
Lemma Qle_bool_false_lt p q : Qle_bool p q = false <-> (q < p)%Q.
Proof.
  split; intro H.
  - apply Qnot_le_lt. intro Hle. apply Qle_bool_iff in Hle. congruence.
  - destruct (Qle_bool p q) eqn:E; [|reflexivity].
    apply Qle_bool_iff in E. exfalso. apply (Qlt_not_le _ _ H E).
Qed.

Ltac num_cases :=
  repeat match goal with
         | x : num |- _ => destruct x
         end; cbn [nlt nle neq nfinite nnan negb andb orb] in *.

Ltac qbool :=
  repeat match goal with
         | H : negb _ = true |- _ => apply negb_true_iff in H
         | H : negb _ = false |- _ => apply negb_false_iff in H
         | H : Qle_bool _ _ = true |- _ => apply Qle_bool_iff in H
         | H : Qle_bool _ _ = false |- _ => apply Qle_bool_false_lt in H
         | |- negb _ = true => apply negb_true_iff
         | |- negb _ = false => apply negb_false_iff
         | |- Qle_bool _ _ = true => apply Qle_bool_iff
         | |- Qle_bool _ _ = false => apply Qle_bool_false_lt
         end.

Ltac numsolve := num_cases; try discriminate; try reflexivity; try congruence; qbool; try lra; auto.

Lemma nlt_irrefl a : nlt a a = false.
Proof. destruct a; try reflexivity. cbn. apply negb_false_iff. apply Qle_bool_iff. apply Qle_refl. Qed.

Lemma nlt_trans a b c : nlt a b = true -> nlt b c = true -> nlt a c = true.
Proof. intros. numsolve. Qed.

Lemma nlt_nle a b : nlt a b = true -> nle a b = true.
Proof. intros. numsolve. Qed.

Lemma nle_trans a b c : nle a b = true -> nle b c = true -> nle a c = true.
Proof. intros. numsolve. Qed.

Lemma nlt_nle_trans a b c : nlt a b = true -> nle b c = true -> nlt a c = true.
Proof. intros. numsolve. Qed.

Lemma nle_nlt_trans a b c : nle a b = true -> nlt b c = true -> nlt a c = true.
Proof. intros. numsolve. Qed.

Lemma nle_refl a : nnan a = false -> nle a a = true.
Proof. intros. num_cases; try discriminate; try reflexivity. apply Qle_bool_iff, Qle_refl. Qed.

Lemma nlt_nle_false a b : nlt a b = true -> nle b a = false.
Proof. intros. numsolve. Qed.

Lemma nlt_false_nle a b : nnan a = false -> nnan b = false -> nlt a b = false -> nle b a = true.
Proof. intros. numsolve. Qed.

Lemma nlt_nan_l a b : nlt a b = true -> nnan a = false.
Proof. destruct a; [discriminate| reflexivity..]. Qed.

Lemma nlt_nan_r a b : nlt a b = true -> nnan b = false.
Proof. destruct b; [destruct a; discriminate| reflexivity..]. Qed.

Lemma nle_nan_l a b : nle a b = true -> nnan a = false.
Proof. destruct a; [discriminate| reflexivity..]. Qed.

Lemma nle_nan_r a b : nle a b = true -> nnan b = false.
Proof. destruct b; [destruct a; discriminate| reflexivity..]. Qed.

Lemma nlt_asym a b : nlt a b = true -> nlt b a = false.
Proof. intros. numsolve. Qed.

(** ** Dictionaries over nat keys *)
Section NDict.
  Context {V : Type}.
  Implicit Type d : list (nat * V).

  Lemma nget_nset k k' v d : nget k (nset k' v d) = if Nat.eqb k k' then Some v else nget k d.
  Proof.
    induction d as [|[k0 v0] d IH]; cbn.
    - destruct (Nat.eqb k k'); reflexivity.
    - destruct (Nat.eqb_spec k' k0) as [->|Hn]; cbn.
      + destruct (Nat.eqb_spec k k0); reflexivity.
      + rewrite IH. destruct (Nat.eqb_spec k k0) as [->|Hk]; [|reflexivity].
        destruct (Nat.eqb_spec k0 k'); congruence.
  Qed.

  Lemma nget_nset_same k v d : nget k (nset k v d) = Some v.
  Proof. rewrite nget_nset, Nat.eqb_refl. reflexivity. Qed.

  Lemma nget_nset_other k k' v d : k <> k' -> nget k (nset k' v d) = nget k d.
  Proof. intro H. rewrite nget_nset. destruct (Nat.eqb_spec k k'); congruence. Qed.

  Lemma nget_in k v d : nget k d = Some v -> In (k, v) d.
  Proof.
    induction d as [|[k0 v0] d IH]; cbn; [discriminate|].
    destruct (Nat.eqb_spec k k0) as [->|]; intro H; [left; congruence| right; auto].
  Qed.

  Lemma nget_none k d : nget k d = None <-> ~ In k (dkeys d).
  Proof.
    induction d as [|[k0 v0] d IH]; cbn; [tauto|].
    destruct (Nat.eqb_spec k k0) as [->|Hn].
    - split; [discriminate| intro H; exfalso; apply H; left; reflexivity].
    - rewrite IH. intuition congruence.
  Qed.

  Lemma nget_some_in k d : In k (dkeys d) <-> exists v, nget k d = Some v.
  Proof.
    destruct (nget k d) eqn:E.
    - split; [eauto|]. intros _. apply nget_in in E. apply (in_map fst) in E. exact E.
    - apply nget_none in E. split; [contradiction| intros [v Hv]; discriminate].
  Qed.

  Lemma dkeys_nset k v d : dkeys (nset k v d) = if nmem k (dkeys d) then dkeys d else dkeys d ++ [k].
  Proof.
    induction d as [|[k0 v0] d IH]; cbn; [reflexivity|].
    destruct (Nat.eqb_spec k k0) as [->|Hn]; cbn; [reflexivity|].
    unfold dkeys in *. rewrite IH. unfold nmem. cbn.
    destruct (existsb (Nat.eqb k) (map fst d)); reflexivity.
  Qed.

  Lemma nget_ndel_other k k' d : k <> k' -> nget k (ndel k' d) = nget k d.
  Proof.
    intro Hk. induction d as [|[k0 v0] d IH]; cbn; [reflexivity|].
    destruct (Nat.eqb_spec k' k0) as [->|Hn]; cbn.
    - destruct (Nat.eqb_spec k k0); congruence.
    - rewrite IH. reflexivity.
  Qed.

  Lemma nget_ndel_same k d : NoDup (dkeys d) -> nget k (ndel k d) = None.
  Proof.
    intro Hnd. induction d as [|[k0 v0] d IH]; cbn; [reflexivity|].
    cbn in Hnd. inversion Hnd as [|? ? Hin Hnd']; subst.
    destruct (Nat.eqb_spec k k0) as [->|Hn]; cbn.
    - apply nget_none. exact Hin.
    - destruct (Nat.eqb_spec k k0); [congruence|]. auto.
  Qed.

  Lemma in_dkeys_ndel x k d : In x (dkeys (ndel k d)) -> In x (dkeys d).
  Proof.
    induction d as [|[k0 v0] d IH]; cbn; [tauto|].
    destruct (Nat.eqb k k0); cbn; tauto.
  Qed.

  Lemma NoDup_ndel k d : NoDup (dkeys d) -> NoDup (dkeys (ndel k d)).
  Proof.
    intro Hnd. induction d as [|[k0 v0] d IH]; cbn; [constructor|].
    cbn in Hnd. inversion Hnd as [|? ? Hin Hnd']; subst.
    destruct (Nat.eqb k k0); cbn; [assumption|].
    constructor; [|auto]. intro Hc. apply Hin. eapply in_dkeys_ndel. exact Hc.
  Qed.

  Lemma NoDup_snoc {A} (l : list A) x : NoDup l -> ~ In x l -> NoDup (l ++ [x]).
  Proof.
    intros Hnd Hx. induction Hnd as [|y l Hy Hnd IH]; cbn.
    - constructor; [tauto|constructor].
    - constructor.
      + rewrite in_app_iff. cbn. intros [H|[H|H]]; [tauto| subst; apply Hx; left; reflexivity| tauto].
      + apply IH. intro Hc. apply Hx. right. exact Hc.
  Qed.

  Lemma nmem_in k l : nmem k l = true <-> In k l.
  Proof.
    unfold nmem. rewrite existsb_exists. split.
    - intros [x [Hx He]]. apply Nat.eqb_eq in He. subst. exact Hx.
    - intro H. exists k. split; [exact H| apply Nat.eqb_refl].
  Qed.

  Lemma nmem_false k l : nmem k l = false <-> ~ In k l.
  Proof. rewrite <- nmem_in. destruct (nmem k l); intuition congruence. Qed.

  Lemma NoDup_nset k v d : NoDup (dkeys d) -> NoDup (dkeys (nset k v d)).
  Proof.
    intro H. rewrite dkeys_nset. destruct (nmem k (dkeys d)) eqn:E; [assumption|].
    apply nmem_false in E. apply NoDup_snoc; assumption.
  Qed.

  Lemma in_nadd x k l : In x (nadd k l) <-> x = k \/ In x l.
  Proof.
    unfold nadd. destruct (nmem k l) eqn:E.
    - apply nmem_in in E. intuition congruence.
    - rewrite in_app_iff. cbn. intuition congruence.
  Qed.

  Lemma NoDup_nadd k l : NoDup l -> NoDup (nadd k l).
  Proof.
    intro H. unfold nadd. destruct (nmem k l) eqn:E; [assumption|].
    apply nmem_false in E. apply NoDup_snoc; assumption.
  Qed.

  Lemma length_nadd k l : ~ In k l -> length (nadd k l) = S (length l).
  Proof.
    intro H. unfold nadd. apply nmem_false in H. rewrite H, app_length. cbn. lia.
  Qed.

  Lemma nmemd_true k d : nmemd k d = true <-> In k (dkeys d).
  Proof.
    unfold dmem. rewrite nget_some_in. destruct (nget k d).
    - split; eauto.
    - split; [discriminate| intros [v Hv]; discriminate].
  Qed.

  Lemma nmemd_false k d : nmemd k d = false <-> ~ In k (dkeys d).
  Proof. rewrite <- nmemd_true. destruct (nmemd k d); intuition congruence. Qed.
End NDict.

(** ** A small Hoare logic for methods which may raise *)
Definition hoare {S A} (P : S -> Prop) (m : M S A) (Q : A -> S -> Prop) (E : exn -> S -> Prop) : Prop :=
  forall s, P s -> match m s with
                   | (Ok a, s') => Q a s'
                   | (Err e, s') => E e s'
                   end.

(** The state predicate [I] holds after the method, normally or exceptionally. *)
Definition preserves {S A} (I : S -> Prop) (m : M S A) : Prop := forall s, I s -> I (snd (m s)).

Lemma preserves_ret {S A} (I : S -> Prop) (a : A) : preserves I (ret a).
Proof. intros s H. exact H. Qed.

Lemma preserves_raise {S A} (I : S -> Prop) e : preserves I (@raise S A e).
Proof. intros s H. exact H. Qed.

Lemma preserves_gets {S A} (I : S -> Prop) (f : S -> A) : preserves I (gets f).
Proof. intros s H. exact H. Qed.

Lemma preserves_modify {S} (I : S -> Prop) (f : S -> S) :
  (forall s, I s -> I (f s)) -> preserves I (modify f).
Proof. intros Hf s H. apply Hf, H. Qed.

Lemma preserves_bind {S A B} (I : S -> Prop) (m : M S A) (f : A -> M S B) :
  preserves I m -> (forall a, preserves I (f a)) -> preserves I (bind m f).
Proof.
  intros Hm Hf s H. unfold bind. specialize (Hm s H).
  destruct (m s) as [[a|e] s']; cbn in *; [apply Hf, Hm| exact Hm].
Qed.

Lemma preserves_when {S} (I : S -> Prop) b (m : M S unit) : preserves I m -> preserves I (when b m).
Proof. intro H. destruct b; [exact H| apply preserves_ret]. Qed.

Lemma preserves_try {S A} (I : S -> Prop) (m : M S A) f h :
  preserves I m -> (forall e, preserves I (h e)) -> preserves I (try_except m f h).
Proof.
  intros Hm Hh s H. unfold try_except. specialize (Hm s H).
  destruct (m s) as [[a|e] s']; cbn in *; [exact Hm|].
  destruct (f e); [apply Hh, Hm| exact Hm].
Qed.

Lemma preserves_for_each {S A} (I : S -> Prop) (l : list A) (f : A -> M S unit) :
  (forall a, preserves I (f a)) -> preserves I (for_each l f).
Proof.
  intro Hf. induction l as [|a l IH]; cbn; [apply preserves_ret|].
  apply preserves_bind; [apply Hf| intros _; exact IH].
Qed.

(** [split] along visible conjunctions only. *)
Ltac splits := repeat match goal with |- _ /\ _ => split end.

Lemma sget_sset {V} k k' (v : V) d : sget k (sset k' v d) = if String.eqb k k' then Some v else sget k d.
Proof.
  induction d as [|[a x] d IH]; cbn; [reflexivity|]. destruct (String.eqb_spec k' a) as [->|Hn]; cbn.
  - destruct (String.eqb k a); reflexivity.
  - rewrite IH. destruct (String.eqb_spec k a) as [->|Hk]; [|reflexivity]. destruct (String.eqb_spec a k') as [->|]; [congruence| reflexivity].
Qed.
