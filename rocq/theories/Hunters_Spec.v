(** * What the hunters are documented to decide *)
From Coq Require Import Reals Qreals.
From Verif Require Import Prelude Logger_Model.

(** The points and values recorded for optimizer [i], oldest first (established by C03 for the manager's logs). *)
Definition recorded (l : logger) (i : nat) (xs : list (list num)) (fs : list num) : Prop :=
  get_history i "x" l = Ok (map CX xs) /\ get_history i "fx" l = Ok (map CF fs).

Definition least (m : num) (l : list num) : Prop := In m l /\ forall v, In v l -> nle m v = true.

(** Statistics and geometry over the reals. *)
Definition rsum (l : list R) : R := fold_right Rplus 0%R l.
Definition rmean (l : list R) : R := (rsum l / INR (length l))%R.
Definition std_dev (l : list R) : R := sqrt (rmean (map (fun v => (v - rmean l) ^ 2)%R l)).
Definition euclid (p q : list R) : R := sqrt (rsum (map (fun ab => (fst ab - snd ab) ^ 2)%R (combine p q))).

Definition reals (l : list Q) : list R := map Q2R l.

(** Total length of a path. *)
Fixpoint path_length (l : list (list R)) : R :=
  match l with
  | a :: ((b :: _) as t) => (euclid b a + path_length t)%R
  | _ => 0%R
  end.

(** Valid finite bounds of a search space. *)
Definition box (lo hi : list Q) : Prop := length lo = length hi /\ 0 < length lo /\ forall k a b, nth_error lo k = Some a -> nth_error hi k = Some b -> (a < b)%Q.

(** The latest point of an optimizer, or that it has none. *)
Definition last_point (l : logger) (i : nat) (p : list Q) : Prop :=
  exists xs fs, recorded l i (xs ++ [map Fin p]) fs.
Definition no_point (l : logger) (i : nat) : Prop := exists fs, recorded l i [] fs.

(** The best value of an optimizer. *)
Definition best_fx (l : logger) (i : nat) (f : num) : Prop := exists b, get_best_iter (Some i) l = Ok b /\ b_fx b = f.

(** Probability to survive ValueAnnealing with hunter value [a] and victim value [b] which the code uses. *)
Definition survival (mkc a b : R) : R := exp (Rabs ((a - b) / a) * ln mkc).
