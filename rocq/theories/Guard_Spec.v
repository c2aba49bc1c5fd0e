(** * When the manager may give up, and what a new starting point must be *)
From Verif Require Import Prelude Guard_Model.

(** C70: evaluations made and optimizers started in a piece of the run. *)
Definition evals (e : gevent) : nat := match e with Fill l _ => list_sum l | Message _ => 0 | Evaluation => 1 end.
Definition started (e : gevent) : nat := match e with Fill l _ => length l | _ => 0 end.
Definition n_evals (l : list gevent) : nat := list_sum (map evals l).
Definition n_started (l : list gevent) : nat := list_sum (map started l).

(** C71: the points differ in some coordinate by more than the tolerance of np.isclose. *)
Definition moved (x y : loc) : Prop :=
  exists i a b, nth_error x i = Some a /\ nth_error y i = Some b /\ ((1 # 100000000) + (1 # 100000) * Qabs b < Qabs (a - b))%Q.
Definition in_box (box : list (Q * Q)) (x : loc) : Prop :=
  length x = length box /\ forall i a lo hi, nth_error x i = Some a -> nth_error box i = Some (lo, hi) -> (lo <= a <= hi)%Q.
(** Narrow next to the tolerance. *)
Definition narrow (b : Q * Q) : Prop :=
  (snd b - fst b <= 1 # 100000000)%Q \/ (0 <= fst b /\ snd b - fst b <= (1 # 100000) * fst b)%Q.
(** Evaluations of the runs [i, i + n) of a counted series. *)
Definition spent (f : nat -> loc * num * nat) (i n : nat) : nat := list_sum (map (fun k => snd (f k)) (seq i n)).
