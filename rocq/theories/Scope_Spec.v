(** * What the live plot should show *)
From Verif Require Import Prelude Helpers_Spec Scope_Model.

(** The points an optimizer sent. *)
Definition points (i : nat) (es : list event) : list (nat * num) :=
  flat_map (fun e => match e with Point j x y => if Nat.eqb i j then [(x, y)] else [] | _ => [] end) es.
(** The largest number of function calls so far. *)
Fixpoint latest (es : list event) : nat :=
  match es with [] => 0 | Point _ x _ :: es' => Nat.max x (latest es') | _ :: es' => latest es' end.
(** Where the visible window begins. *)
Definition window (c : config) (es : list event) : nat := match c_trunc c with None => 0 | Some t => latest es - t end.
(** The events which count as changes of the plot. *)
Definition changes (es : list event) : nat :=
  length (filter (fun e => match e with Point _ _ _ | Mark _ _ | Redraw => true | _ => false end) es).
Definition added (es : list event) : list nat := flat_map (fun e => match e with Add i => [i] | _ => [] end) es.

(** A value on the scale of the plot. *)
Definition scaled (c : config) (y : num) : num := match c_log c with Some (log10, _) => log10 y | None => y end.
(** 10 ** log10(y) = y for these values. *)
Definition faithful (c : config) (ys : list num) : Prop :=
  match c_log c with Some (log10, exp10) => forall y, In y ys -> exp10 (log10 y) = y | None => True end.

(** The points inside the window which begins at [lo]. *)
Definition inside (lo : nat) (l : line) : line := filter (fun p => Nat.leb lo (fst p)) l.

(** The optimizer is never out of the window when it sends a point: its previous point is still visible. *)
Definition unbroken (c : config) (i : nat) (es : list event) : Prop :=
  forall a x y b, es = a ++ Point i x y :: b ->
    match rev (points i a) with [] => True | (x0, _) :: _ => window c a <= x0 end.

(** Events a manager produces: every stream is added once, before it is used; a movie is set up before the first change. *)
Fixpoint orderly (c : config) (known : list nat) (ready : bool) (es : list event) : Prop :=
  match es with
  | [] => True
  | Add i :: es' => ~ In i known /\ orderly c (i :: known) ready es'
  | Setup :: es' => orderly c known true es'
  | Point i _ _ :: es' | Mark i _ :: es' => In i known /\ (c_movie c = true -> ready = true) /\ orderly c known ready es'
  | Redraw :: es' => (c_movie c = true -> ready = true) /\ orderly c known ready es'
  end.
