(** * What is recorded of extra results, which parameters may be optimized, what residuals are *)
From Verif Require Import Prelude Extras_Model.
Open Scope nat_scope.

(** C74: the types that the documentation of infer_headers knows. *)
Definition supported (v : pyval) : Prop := match v with PNpInt _ | PNpBool _ | PObject _ => False | _ => True end.
(** Elements that an array of the type can hold, and a well-formed array. *)
Definition holds (d : dtype) (x : num) : Prop :=
  match d with DFloat => True | DInt => exists z, (- 2 ^ 63 <= z < 2 ^ 63)%Z /\ x = Fin (inject_Z z) | DBool => x = Fin 1%Q \/ x = Fin 0%Q end.
(** The second value is of the type of the first, and within the limits of the file. *)
Definition same_kind (v w : pyval) : Prop :=
  match v, w with
  | PFloat _, PFloat _ | PBool _, PBool _ | PComplex _ _, PComplex _ _ => True
  | PInt _, PInt z => (- 2 ^ 63 <= z < 2 ^ 63)%Z
  | PStr _, PStr s => String.length s <= 280 /\ forall a, In a (list_ascii_of_string s) -> Ascii.nat_of_ascii a < 128
  | PArr d sh _, PArr d' sh' items => d' = d /\ sh' = sh /\ length items = fold_right Nat.mul 1 sh /\ Forall (holds d) items
  | _, _ => False
  end.

(** C75: strictly within its range. *)
Definition inside (p : param) : Prop := (p_lo p < p_val p < p_hi p)%Q.

(** C76: the sum of squared errors, in units of sigma and weighted. *)
Definition sse (rs : list Q) (es : list entry) : Q :=
  fold_right (fun p a => (e_weight (snd p) * (fst p / e_sigma (snd p)) ^ 2 + a)%Q) 0%Q (combine rs es).
(** What a least squares optimizer minimizes. *)
Definition squares (l : list Q) : Q := fold_right (fun r a => (r * r + a)%Q) 0%Q l.
(** The weight that a list of changes asks for: the last that names the entry, if any. *)
Definition wanted (l : list (rkey * Q)) (i : nat) (k : string) (w : Q) : Q :=
  fold_left (fun w c => match fst c with Key k' => if String.eqb k' k then snd c else w | Index j => if Nat.eqb j i then snd c else w end) l w.
