(** * What the log must report, stated on the list of recorded evaluations only *)
From Verif Require Import Prelude Logger_Model.
From Coq Require Import Sorting.

(** The evaluations recorded by a sequence of log calls, oldest first. *)
Fixpoint evals (ops : list lop) : list iterres :=
  match ops with
  | [] => []
  | PutIter r :: ops' => r :: evals ops'
  | _ :: ops' => evals ops'
  end.

(** Optimizers registered by the calls, with their type. *)
Fixpoint registered (ops : list lop) : list (nat * string) :=
  match ops with
  | [] => []
  | AddOpt i ty _ :: ops' => (i, ty) :: registered ops'
  | _ :: ops' => registered ops'
  end.

(** Call discipline of the manager (manager.py 1327-1349, 1480-1506): ids are
    positive and registered once, evaluations come from registered optimizers. *)
Fixpoint disciplined_from (seen : list nat) (ops : list lop) : bool :=
  match ops with
  | [] => true
  | AddOpt i _ _ :: ops' => negb (Nat.eqb i 0) && negb (nmem i seen) && disciplined_from (i :: seen) ops'
  | PutIter r :: ops' => nmem (ir_opt r) seen && disciplined_from seen ops'
  | _ :: ops' => disciplined_from seen ops'
  end.
Definition disciplined (ops : list lop) : bool := disciplined_from [] ops.

(** [(o, x, fx, call)] is the first evaluation among those selected by [sel]
    reaching the least value; with no value below +inf it is the empty record. *)
Definition first_best (h : list iterres) (sel : iterres -> bool)
           (o : nat) (x : list num) (fx : num) (call : nat) : Prop :=
  (fx = PInf /\ x = [] /\ call = 0 /\
   forall r, In r h -> sel r = true -> nlt (ir_fx r) PInf = false)
  \/
  (exists r, 0 < call /\ nth_error h (call - 1) = Some r /\ sel r = true /\
     ir_opt r = o /\ ir_x r = x /\ ir_fx r = fx /\ nlt fx PInf = true /\
     (forall r', In r' h -> sel r' = true -> nlt (ir_fx r') fx = false) /\
     (forall j r', j < call - 1 -> nth_error h j = Some r' -> sel r' = true -> nle (ir_fx r') fx = false)).

(** [m] is the largest finite number of the list, -inf if there is none. *)
Definition max_finite (l : list num) (m : num) : Prop :=
  (m = NInf /\ forall v, In v l -> nfinite v = false)
  \/ (nfinite m = true /\ (exists v, In v l /\ v = m) /\
      forall v, In v l -> nfinite v = true -> nle v m = true).

(** No evaluation of optimizer [i] among the calls. *)
Definition no_eval_of (i : nat) (ops : list lop) : bool :=
  forallb (fun o => match o with PutIter r => negb (Nat.eqb (ir_opt r) i) | _ => true end) ops.

(** The calls never register [i] again, never reopen its history and never clear its cache. *)
Definition keeps (i : nat) (ops : list lop) : bool :=
  forallb (fun o => match o with
                    | AddOpt j _ _ | AddHist j _ => negb (Nat.eqb j i)
                    | ClearCache (Some j) => negb (Nat.eqb j i) && negb (Nat.eqb j 0)
                    | ClearCache None => false
                    | _ => true
                    end) ops.

(** The optimizer an operation is about; [None] for operations on all of them. *)
Definition target (o : lop) : option nat :=
  match o with
  | AddOpt i _ _ | AddHist i _ | PutMeta i _ _ | PutMsg i _ => Some i
  | PutIter r => Some (ir_opt r)
  | ClearCache (Some (S i)) => Some (S i)
  | ClearCache _ => None
  end.

(** The evaluations of optimizer [i], oldest first. *)
Definition own (i : nat) (h : list iterres) : list iterres := filter (fun r => Nat.eqb (ir_opt r) i) h.

(** [ids] are exactly the 1-based positions of [i]'s evaluations in the overall
    sequence, in increasing order. *)
Definition positions_of (i : nat) (h : list iterres) (ids : list nat) : Prop :=
  StronglySorted lt ids /\
  forall k, In k ids <-> exists r, 0 < k /\ nth_error h (k - 1) = Some r /\ ir_opt r = i.

(** Values recorded in the [j]-th extra column. *)
Definition extra_col (j : nat) (h : list iterres) : list num :=
  flat_map (fun r => match nth_error (ir_extras r) j with Some v => [v] | None => [] end) h.
