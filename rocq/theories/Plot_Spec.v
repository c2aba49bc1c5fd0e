(** * What a plot must show, in terms of the calls made to the log *)
From Verif Require Export Plot_Model Logger_Spec.
From Verif Require Helpers_Spec.
From Coq Require Import Sorting.

(** The calls of a manager (manager.py 1346-1349, 1480-1511, and the put_metadata calls): optimizers are numbered 1, 2, ...; the history of each
    is opened once, before its first evaluation; metadata are those of known optimizers and the type is not overwritten.  [n]: optimizers so far; [op]: open histories. *)
Fixpoint managed_from (n : nat) (op : list nat) (ops : list lop) : bool :=
  match ops with
  | [] => true
  | AddOpt i _ _ :: ops => Nat.eqb i (S n) && managed_from (S n) op ops
  | AddHist i _ :: ops => Nat.leb 1 i && Nat.leb i n && negb (nmem i op) && managed_from n (i :: op) ops
  | PutIter r :: ops => nmem (ir_opt r) op && managed_from n op ops
  | PutMeta i k _ :: ops => Nat.leb 1 i && Nat.leb i n && negb (String.eqb k "opt_type") && managed_from n op ops
  | _ :: ops => managed_from n op ops
  end.
Definition managed (ops : list lop) : bool := managed_from 0 [] ops.

(** The end condition written last for optimizer [i]. *)
Fixpoint last_cond (i : nat) (ops : list lop) (d : option string) : option string :=
  match ops with
  | [] => d
  | PutMeta j k v :: ops => last_cond i ops (if Nat.eqb j i && String.eqb k "end_cond" then Some v else d)
  | _ :: ops => last_cond i ops d
  end.

(** [pts] are exactly the evaluations of [i], by their overall number, in order. *)
Definition points_of (i : nat) (h : list iterres) (pts : list (nat * num)) : Prop :=
  StronglySorted lt (map fst pts) /\
  forall k v, In (k, v) pts <-> exists r, 0 < k /\ nth_error h (k - 1) = Some r /\ ir_opt r = i /\ ir_fx r = v.

(** The last element. *)
Definition last_of {A} (l : list A) (a : A) : Prop := exists l', l = l' ++ [a].

(** One drawn optimizer is as it should be: [f] is the transformation of the values. *)
Definition shows (ops : list lop) (f : num -> num) (c : curve) : Prop :=
  In (cv_opt c, cv_type c) (registered ops) /\
  (exists pts, points_of (cv_opt c) (evals ops) pts /\ cv_pts c = map (fun p => (fst p, f (snd p))) pts) /\
  match last_cond (cv_opt c) ops None with
  | None => cv_end c = None
  | Some t => (cv_pts c = [] /\ cv_end c = None) \/ exists p, last_of (cv_pts c) p /\ cv_end c = Some (p, mark_of t)
  end.

(** The same with best_fx: at every evaluation the smallest value of the optimizer until then. *)
Definition shows_best (ops : list lop) (f : num -> num) (c : curve) : Prop :=
  exists pts vs, points_of (cv_opt c) (evals ops) pts /\ length vs = length pts /\ cv_pts c = combine (map fst pts) (map f vs) /\
  forall k v, nth_error vs k = Some v -> Helpers_Spec.smallest_of_first (S k) (map snd pts) v.

(** [lo] is the least value, NaN and +inf aside; [hi] the largest finite one. *)
Definition least (l : list num) (lo : num) : Prop :=
  In lo l /\ nlt lo PInf = true /\ forall v, In v l -> nlt v lo = false.
Definition greatest (l : list num) (hi : num) : Prop :=
  In hi l /\ nfinite hi = true /\ forall v, In v l -> nfinite v = true -> nle v hi = true.

Definition chars (s : string) : list Ascii.ascii := list_ascii_of_string s.
(** The decimal digits and the sign. *)
Definition number_text (s : string) : Prop := forall c, In c (chars s) -> In c (chars "-0123456789").

(** The legend of the plot, 232-235: killed by the manager, converged, crashed. *)
Definition legend (e : ending) : mark :=
  match e with
  | EKilled _ _ | EForced => Killed
  | EError _ => Crashed
  | ESilent | EMessage _ => Converged
  | EStopped | EInterrupted | ECrash => NoMark
  end.
