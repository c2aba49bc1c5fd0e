(** * Combined checkers and hunters
    Source: glompo/common/corebase.py.

    Objects are identified by a number.  A member ([Leaf]) is user code: its
    [__call__] is an arbitrary function of the arguments and of the private state of
    that object, may raise, and saves its result to [last_result] as the class
    documentation demands (basechecker.py 37-40, basehunter.py 47-50).  A combination
    ([Comb]) is an [_OrCore] or [_AndCore] object.  The same member object may occur
    at several places of a tree. *)
From Verif Require Export Prelude.

Inductive junct := JOr | JAnd.

Inductive core :=
  | Leaf (i : nat)
  | Comb (i : nat) (k : junct) (c1 c2 : core).

Definition core_id (c : core) : nat := match c with Leaf i => i | Comb i _ _ _ => i end.

(** __or__ and __and__ of BaseChecker (basechecker.py 43-47) and BaseHunter (basehunter.py 53-57);
    [i] is the identity of the new object.  Both operands are cores by type, so the TypeError of
    _CombiCore.__init__ (66-68) does not occur. *)
Definition core_or (i : nat) (a b : core) : core := Comb i JOr a b.
Definition core_and (i : nat) (a b : core) : core := Comb i JAnd a b.

Section Core.
Variables (A L : Type).
(** [behav i a l]: member [i] called with arguments [a] in private state [l]. *)
Variable behav : nat -> A -> L -> res bool * L.

Record cstate := mkC { c_last : nat -> option bool; c_priv : nat -> L }.

Definition upd {B} (f : nat -> B) (i : nat) (b : B) : nat -> B := fun j => if Nat.eqb j i then b else f j.
Definition set_last (i : nat) (v : option bool) (s : cstate) : cstate := mkC (upd (c_last s) i v) (c_priv s).

(** reset, lines 52-58 for a member and 83-88 for a combination. *)
Fixpoint reset (c : core) (s : cstate) : cstate :=
  match c with
  | Leaf i => set_last i None s
  | Comb _ _ c1 c2 =>
      let s := set_last (core_id c1) None s in
      let s := reset c1 s in
      let s := set_last (core_id c2) None s in
      reset c2 s
  end.

Definition call_leaf (i : nat) (a : A) (s : cstate) : res bool * cstate :=
  let (r, l) := behav i a (c_priv s i) in
  let s := mkC (c_last s) (upd (c_priv s) i l) in
  match r with
  | Ok b => (Ok b, set_last i (Some b) s)
  | Err e => (Err e, s)
  end.

(** __call__, lines 74-75, 108-111 and 123-126: reset everything below, then evaluate lazily. *)
Fixpoint call (c : core) (a : A) (s : cstate) : res bool * cstate :=
  match c with
  | Leaf i => call_leaf i a s
  | Comb i k c1 c2 =>
      let s := reset (Comb i k c1 c2) s in
      match call c1 a s with
      | (Err e, s) => (Err e, s)
      | (Ok b1, s) =>
          let stop := match k with JOr => b1 | JAnd => negb b1 end in
          if stop then (Ok b1, set_last i (Some b1) s)
          else match call c2 a s with
               | (Err e, s) => (Err e, s)
               | (Ok b2, s) => (Ok b2, set_last i (Some b2) s)
               end
      end
  end.

(** A sequence of evaluations; an exception of one does not prevent the next. *)
Fixpoint calls (c : core) (l : list A) (s : cstate) : cstate :=
  match l with
  | [] => s
  | a :: l' => calls c l' (snd (call c a s))
  end.

(** __iter__ / _bases, lines 30-32 and 90-102. *)
Fixpoint bases (c : core) : list nat :=
  match c with
  | Leaf i => [i]
  | Comb _ _ c1 c2 =>
      (match c1 with Leaf i => [i] | Comb _ _ _ _ => bases c1 end) ++
      (match c2 with Leaf i => [i] | Comb _ _ _ _ => bases c2 end)
  end.

Variable name : nat -> string.

Definition keyword (k : junct) : string := match k with JOr => "|" | JAnd => "&" end.
Definition nl : string := String (Ascii.ascii_of_nat 10) "".

(** __str__, lines 34-44 ([name]) and 77-78. *)
Fixpoint to_str (c : core) : string :=
  match c with
  | Leaf i => name i
  | Comb _ k c1 c2 => "[" ++ to_str c1 ++ " " ++ keyword k ++ " " ++ nl ++ to_str c2 ++ "]"
  end%string.

Definition show (r : option bool) : string :=
  match r with Some true => "True" | Some false => "False" | None => "None" end.

(** str_with_result, lines 46-50 and 80-81. *)
Fixpoint str_with_result (c : core) (s : cstate) : string :=
  match c with
  | Leaf i => name i ++ " = " ++ show (c_last s i)
  | Comb _ k c1 c2 => "[" ++ str_with_result c1 s ++ " " ++ keyword k ++ " " ++ nl ++ str_with_result c2 s ++ "]"
  end%string.

End Core.
Arguments mkC {L}.
Arguments c_last {L}.
Arguments c_priv {L}.
