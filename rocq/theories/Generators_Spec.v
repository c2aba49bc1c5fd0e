(** * What the generators should do *)
From Verif Require Import Prelude Generators_Model.

(** A point inside bounds. *)
Definition within (bounds : list (Q * Q)) (x : vec) : Prop := Forall2 (fun b p => fst b <= p /\ p <= snd b)%Q bounds x.

(** Random numbers. *)
Definition unit_draws (u : nat -> Q) : Prop := forall j, (0 <= u j /\ u j < 1)%Q.
(** Draws from [a, b]. *)
Definition interval_draws (draw : nat -> Q -> Q -> Q) : Prop := forall i a b, (a <= b -> a <= draw i a b /\ draw i a b <= b)%Q.

(** The entries of the log are those of the optimizers 0, 1, 2, ... *)
Definition numbered (l : list best) : Prop := forall i b, nth_error l i = Some b -> b_id b = i.

(** Bounds in order. *)
Definition ordered_bounds (bs : list (Q * Q)) : Prop := Forall (fun b => fst b < snd b)%Q bs.

(** [x] is at most [d] away from [y] in every coordinate. *)
Definition near (d : Q) (x y : vec) : Prop := Forall2 (fun a b => Qabs (a - b) <= d)%Q x y.
