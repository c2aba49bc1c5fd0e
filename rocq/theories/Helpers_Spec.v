(** * What the helper functions should do *)
From Coq Require Import Ascii.
From Verif Require Import Prelude Core_Model Helpers_Model.

(** C43: a usable bound. *)
Definition usable_bound (b : num * num) : Prop := exists p q, b = (Fin p, Fin q) /\ (p < q)%Q.

(** C45: [v] is the smallest of the first [n] entries of [l]. *)
Definition smallest_of_first (n : nat) (l : list num) (v : num) : Prop :=
  In v (firstn n l) /\ forall w, In w (firstn n l) -> nle v w = true.

(** C46, unravel: positions inside an object are paths of indices. *)
Fixpoint at_path (o : obj) (p : list nat) : option obj :=
  match p with
  | [] => Some o
  | i :: p' => match o with
               | OIter l _ => match nth_error l i with Some o' => at_path o' p' | None => None end
               | _ => None
               end
  end.

(** What cannot be looked into. *)
Definition is_leaf (o : obj) : bool :=
  match o with OStr _ | OAtom _ | OIter [] (Some TypeError) => true | OIter _ _ => false end.

(** An object all of whose iterators come to their end. *)
Inductive proper : obj -> Prop :=
  | proper_leaf o : is_leaf o = true -> proper o
  | proper_iter l : Forall proper l -> proper (OIter l None).

(** The lexicographic order of paths, none of which is the beginning of the other. *)
Inductive before : list nat -> list nat -> Prop :=
  | before_here i j p q : i < j -> before (i :: p) (j :: q)
  | before_later i p q : before p q -> before (i :: p) (i :: q).

Inductive ordered : list (list nat) -> Prop :=
  | ordered_nil : ordered []
  | ordered_cons p l : Forall (before p) l -> ordered l -> ordered (p :: l).

(** C46, present_memory: reading a printed number. *)
Definition digit (c : ascii) : option N :=
  let n := N_of_ascii c in if (N.leb 48 n && N.leb n 57)%bool then Some (n - 48)%N else None.
(** Reads digits to the end; [k] counts them. *)
Fixpoint read_nat (acc : N) (k : nat) (s : string) : option (N * nat) :=
  match s with
  | EmptyString => Some (acc, k)
  | String c s' => match digit c with Some d => read_nat (acc * 10 + d) (S k) s' | None => None end
  end.
(** The text before the first dot, and the text behind it if there is a dot. *)
Fixpoint at_dot (s : string) : string * option string :=
  match s with
  | EmptyString => (EmptyString, None)
  | String c s' => if Ascii.eqb c "."%char then (EmptyString, Some s')
                   else let (a, b) := at_dot s' in (String c a, b)
  end.
Definition read_pos (s : string) : option Q :=
  match at_dot s with
  | (a, None) => match read_nat 0 0 a with Some (n, S _) => Some (inject_Z (Z.of_N n)) | _ => None end
  | (a, Some b) =>
      match read_nat 0 0 a, read_nat 0 0 b with
      | Some (n, S _), Some (m, k) => Some (inject_Z (Z.of_N n) + inject_Z (Z.of_N m) / inject_Z (10 ^ Z.of_nat k))%Q
      | _, _ => None
      end
  end.
Definition read_number (s : string) : option Q :=
  match s with
  | String c s' => if Ascii.eqb c "-"%char then match read_pos s' with Some q => Some (- q)%Q | None => None end else read_pos s
  | EmptyString => None
  end.

(** C46, nested_string_formatting: a text without its blanks; the text without the outermost brackets. *)
Definition blank (c : ascii) : bool := Ascii.eqb c c_sp || Ascii.eqb c c_nl.
Definition ink (s : chars) : chars := filter (fun c => negb (blank c)) s.
Definition without_first (s : chars) : chars :=
  match s with a :: s' => if Ascii.eqb a c_open then s' else s | [] => [] end.
Definition without_last (s : chars) : chars :=
  if Ascii.eqb (last s c_sp) c_close then removelast s else s.

(** The lines of a condition, indented by its depth [d]; [glue] writes behind the last line. *)
Fixpoint glue (ls : list chars) (t : chars) : list chars :=
  match ls with [] => [] | [l] => [l ++ t] | l :: ls' => l :: glue ls' t end.
Definition pad (d : nat) (l : chars) : chars := repeat c_sp d ++ l.
Definition word (k : junct) : chars := match k with JOr => [c_sp; "|"%char; c_sp] | JAnd => [c_sp; "&"%char; c_sp] end.
Fixpoint block (leaf : nat -> string) (d : nat) (c : core) : list chars :=
  match c with
  | Leaf i => [pad d (list_ascii_of_string (leaf i))]
  | Comb _ k a b => pad d [c_open] :: glue (block leaf (S d) a) (word k) ++ block leaf (S d) b ++ [pad d [c_close]]
  end.
(** The outermost brackets are not shown. *)
Definition shown (leaf : nat -> string) (c : core) : list chars :=
  match c with
  | Leaf i => [list_ascii_of_string (leaf i)]
  | Comb _ k a b => glue (block leaf 0 a) (word k) ++ block leaf 0 b
  end.
(** A text on one line without brackets. *)
Definition plain (s : string) : Prop :=
  forall c, In c (list_ascii_of_string s) -> c <> c_open /\ c <> c_close /\ c <> c_nl.

(** C46, bound_group_presenter: strictly increasing numbers. *)
Inductive increasing : list nat -> Prop :=
  | inc_nil : increasing []
  | inc_cons i l : Forall (lt i) l -> increasing l -> increasing (i :: l).
