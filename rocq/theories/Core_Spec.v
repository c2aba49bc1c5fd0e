(** * What a combined condition means *)
From Verif Require Import Prelude Core_Model.

Fixpoint members (c : core) : list nat :=
  match c with Leaf i => [i] | Comb _ _ c1 c2 => members c1 ++ members c2 end.

(** All objects of the tree. *)
Fixpoint objects (c : core) : list nat :=
  match c with Leaf i => [i] | Comb i _ c1 c2 => i :: objects c1 ++ objects c2 end.

(** The boolean formula over the answers [f] of the members. *)
Fixpoint formula (f : nat -> bool) (c : core) : bool :=
  match c with
  | Leaf i => f i
  | Comb _ JOr c1 c2 => formula f c1 || formula f c2
  | Comb _ JAnd c1 c2 => formula f c1 && formula f c2
  end.

(** The members asked by a lazy, left to right evaluation. *)
Fixpoint asked (f : nat -> bool) (c : core) : list nat :=
  match c with
  | Leaf i => [i]
  | Comb _ JOr c1 c2 => asked f c1 ++ (if formula f c1 then [] else asked f c2)
  | Comb _ JAnd c1 c2 => asked f c1 ++ (if formula f c1 then asked f c2 else [])
  end.

(** The text for given answers. *)
Fixpoint report (name : nat -> string) (answer : nat -> option bool) (c : core) : string :=
  match c with
  | Leaf i => name i ++ " = " ++ match answer i with Some true => "True" | Some false => "False" | None => "None" end
  | Comb _ k c1 c2 =>
      "[" ++ report name answer c1 ++ (match k with JOr => " | " | JAnd => " & " end) ++ nl ++ report name answer c2 ++ "]"
  end%string.

(** The leftmost member. *)
Fixpoint first_member (c : core) : nat := match c with Leaf i => i | Comb _ _ c1 _ => first_member c1 end.
