(** * C22-C23: combined conditions *)
From Verif Require Import Prelude Core_Model Core_Spec Core_Proofs.

(** Example members: object [i] counts how often it was asked; its answer is bit [i] of the argument, except that
    member 9 raises. *)
Definition ex_behav (i : nat) (a : list bool) (n : nat) : res bool * nat :=
  if Nat.eqb i 9 then (Err ValueError, n) else (Ok (nth i a false), S n).
Definition ex_tree : core := core_or 10 (core_and 11 (Leaf 0) (Leaf 1)) (core_and 12 (Leaf 2) (Leaf 3)).
Definition ex_start : cstate nat := mkC (fun _ => Some true) (fun _ => 5).

(** C22: with distinct members, the value is the formula over the answers the members would give in the state they
    are in before the evaluation. *)
Theorem C22_value : forall (A L : Type) (behav : nat -> A -> L -> res bool * L) c a (s : cstate L) f,
  NoDup (objects c) -> (forall i, In i (members c) -> fst (behav i a (c_priv s i)) = Ok (f i)) ->
  fst (call A L behav c a s) = Ok (formula f c).
Proof. intros A L behav c a s f H1 H2. destruct (call_after A L behav c a f s H1 H2) as [s' [-> _]]. reflexivity. Qed.
Print Assumptions C22_value.

Example C22_value_ex :
  NoDup (objects ex_tree) /\ fst (call _ _ ex_behav ex_tree [true; false; true; true] ex_start) = Ok true /\
  fst (call _ _ ex_behav ex_tree [true; false; false; true] ex_start) = Ok false.
Proof. vm_compute. repeat split. repeat (constructor; [cbn; intuition discriminate|]). constructor. Qed.

(** C22: members whose answer does not depend on private state may be used at several places. *)
Theorem C22_shared_members : forall (A L : Type) (behav : nat -> A -> L -> res bool * L) c a (s : cstate L) f,
  (forall i l, In i (members c) -> fst (behav i a l) = Ok (f i)) ->
  fst (call A L behav c a s) = Ok (formula f c).
Proof. intros A L behav c a s f H. destruct (call_stateless A L behav c a f s H) as [s' ->]. reflexivity. Qed.
Print Assumptions C22_shared_members.

Example C22_shared_members_ex :
  fst (call _ _ ex_behav (core_and 10 (Leaf 0) (core_or 11 (Leaf 1) (Leaf 0))) [true; false] ex_start) = Ok true.
Proof. reflexivity. Qed.

(** C22: an exception out of a combination is one a member raised. *)
Theorem C22_exceptions : forall (A L : Type) (behav : nat -> A -> L -> res bool * L) c a (s : cstate L) e s',
  call A L behav c a s = (Err e, s') -> exists i l, In i (members c) /\ fst (behav i a l) = Err e.
Proof. exact call_raises. Qed.
Print Assumptions C22_exceptions.

Example C22_exceptions_ex : fst (call _ _ ex_behav (core_and 10 (Leaf 0) (Leaf 9)) [true] ex_start) = Err ValueError.
Proof. reflexivity. Qed.

(** C22: iterating over a combination visits exactly the members, left to right. *)
Theorem C22_members : forall c, bases c = members c.
Proof. exact bases_members. Qed.
Print Assumptions C22_members.

Example C22_members_ex : bases ex_tree = [0; 1; 2; 3].
Proof. reflexivity. Qed.

(** C23: after an evaluation a member shows its answer if the lazy left to right evaluation needed it, else None,
    whatever was recorded before; the private state of the members not asked is untouched and each member asked
    was asked once. *)
Theorem C23_lazy : forall (A L : Type) (behav : nat -> A -> L -> res bool * L) c a (s : cstate L) f,
  NoDup (objects c) -> (forall i, In i (members c) -> fst (behav i a (c_priv s i)) = Ok (f i)) ->
  forall i, In i (members c) ->
    let s' := snd (call A L behav c a s) in
    (In i (asked f c) -> c_last s' i = Some (f i) /\ c_priv s' i = snd (behav i a (c_priv s i))) /\
    (~ In i (asked f c) -> c_last s' i = None /\ c_priv s' i = c_priv s i).
Proof.
  intros A L behav c a s f H1 H2 i Hi. destruct (call_after A L behav c a f s H1 H2) as [s' [-> Ha]].
  cbn [snd]. rewrite (af_last _ _ _ _ _ _ _ _ Ha), (af_priv _ _ _ _ _ _ _ _ Ha) by exact Hi.
  destruct (in_dec Nat.eq_dec i (asked f c)); tauto.
Qed.
Print Assumptions C23_lazy.

Example C23_lazy_ex :
  let s' := snd (call _ _ ex_behav ex_tree [true; false; false; true] ex_start) in
  map (c_last s') [0; 1; 2; 3] = [Some true; Some false; Some false; None] /\ map (c_priv s') [0; 1; 2; 3] = [6; 6; 6; 5].
Proof. split; reflexivity. Qed.

(** C23: the textual result. *)
Theorem C23_text : forall (A L : Type) (behav : nat -> A -> L -> res bool * L) (name : nat -> string) c a (s : cstate L) f,
  NoDup (objects c) -> (forall i, In i (members c) -> fst (behav i a (c_priv s i)) = Ok (f i)) ->
  str_with_result L name c (snd (call A L behav c a s)) =
    report name (fun i => if in_dec Nat.eq_dec i (asked f c) then Some (f i) else None) c.
Proof.
  intros A L behav name c a s f H1 H2. destruct (call_after A L behav c a f s H1 H2) as [s' [-> Ha]].
  apply report_eq. intros j Hj. apply (af_last _ _ _ _ _ _ _ _ Ha), Hj.
Qed.
Print Assumptions C23_text.

Example C23_text_ex :
  str_with_result nat (fun i => nth i ["a"; "b"; "c"; "d"]%string ""%string) ex_tree
    (snd (call _ _ ex_behav ex_tree [true; false; false; true] ex_start)) =
  ("[[a = True & " ++ nl ++ "b = False] | " ++ nl ++ "[c = False & " ++ nl ++ "d = None]]")%string.
Proof. reflexivity. Qed.

(** C23: laziness of one junction: a & b is settled by a False a, a | b by a True a. *)
Theorem C23_junction : forall f i c1 c2,
  NoDup (objects (core_and i c1 c2)) -> forall j, In j (members c2) ->
  (In j (asked f (core_and i c1 c2)) -> formula f c1 = true) /\
  (In j (asked f (core_or i c1 c2)) -> formula f c1 = false).
Proof.
  intros f i c1 c2 Hnd j Hj. cbn in Hnd. apply NoDup_cons_iff in Hnd as [_ Hnd]. apply NoDup_app_inv in Hnd as [_ [_ Hd]].
  assert (Hn : ~ In j (asked f c1)) by (intro H; apply (Hd j); apply members_objects; [apply (asked_members f), H| exact Hj]).
  cbn. rewrite !in_app_iff. destruct (formula f c1); cbn; intuition.
Qed.
Print Assumptions C23_junction.

Example C23_junction_ex : asked (fun i => Nat.eqb i 0) ex_tree = [0; 1; 2] /\ asked (fun _ => true) ex_tree = [0; 1].
Proof. split; reflexivity. Qed.

(** Outside the statement: a member object used twice.  In x & (y & x) with x True and y False, x was asked but shows
    None, since evaluating the inner combination resets it. *)
Theorem C23_shared_member_refuted : exists c a (s : cstate nat),
  ~ NoDup (members c) /\ fst (call _ _ ex_behav c a s) = Ok false /\
  c_priv (snd (call _ _ ex_behav c a s)) 0 = S (c_priv s 0) /\ c_last (snd (call _ _ ex_behav c a s)) 0 = None.
Proof.
  exists (core_and 10 (Leaf 0) (core_and 11 (Leaf 1) (Leaf 0))), [true; false], ex_start. vm_compute. repeat split.
  intro H. inversion H as [|? ? Hn _]. apply Hn. cbn. auto.
Qed.
Print Assumptions C23_shared_member_refuted.
