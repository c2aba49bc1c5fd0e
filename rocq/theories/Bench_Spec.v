(** * What a benchmark case promises *)
From Verif Require Import Bench_Model.
Local Open Scope R_scope.

Definition within (b : list (R * R)) (x : list R) : Prop := Forall2 (fun v lh => fst lh <= v <= snd lh) x b.
(** The documented point lies in the search space and the function takes its documented least value there; it is the least
    over all vectors, ... *)
Definition attains_minimum (t : case) : Prop :=
  length (min_x t) = dims t /\ within (bounds t) (min_x t) /\ call t (min_x t) = min_fx t /\
  forall x, length x = dims t -> min_fx t <= call t x.
(** ... or over the search space. *)
Definition attains_minimum_in_bounds (t : case) : Prop :=
  length (min_x t) = dims t /\ within (bounds t) (min_x t) /\ call t (min_x t) = min_fx t /\
  forall x, within (bounds t) x -> min_fx t <= call t x.
(** The documented numbers are rounded: the least value is between [min_fx - tol] and [min_fx + tol] and the documented
    point is that good. *)
Definition nearly_attains_minimum (t : case) (tol : R) : Prop :=
  length (min_x t) = dims t /\ within (bounds t) (min_x t) /\ Rabs (call t (min_x t) - min_fx t) <= tol /\
  forall x, within (bounds t) x -> min_fx t - tol <= call t x.

(** ** Lennard-Jones *)
Fixpoint put {A} (l : list A) (i : nat) (a : A) : list A :=
  match l, i with [], _ => [] | _ :: l', O => a :: l' | b :: l', S i' => b :: put l' i' a end.
(** The configuration with one coordinate of one atom changed. *)
Definition moved (X : list (list R)) (k c : nat) (t : R) : list (list R) := put X k (put (nth k X []) c t).
Definition configuration (n d : nat) (X : list (list R)) : Prop := length X = n /\ Forall (fun p => length p = d) X.
Definition distance_sq (p q : list R) : R := fold_right Rplus 0 (map (fun uv => (fst uv - snd uv) * (fst uv - snd uv)) (combine p q)).
(** No two atoms at the same place. *)
Definition separated (X : list (list R)) : Prop :=
  forall i j p q, (i < j)%nat -> nth_error X i = Some p -> nth_error X j = Some q -> distance_sq p q <> 0.
