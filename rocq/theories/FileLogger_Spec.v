(** * What the file log must contain *)
From Verif Require Import Prelude Logger_Model Logger_Spec FileLogger_Model.

(** The calls as the memory log would get them. *)
Fixpoint erase (ops : list fop) : list lop :=
  match ops with
  | [] => []
  | FOp o :: ops' => o :: erase ops'
  | FFlush _ :: ops' => erase ops'
  end.

(** [rows] are exactly [i]'s evaluations in [h], in order, each once, numbered by
    their position in the overall sequence. *)
Definition rows_of (i : nat) (h : list iterres) (rows : list row) : Prop :=
  positions_of i h (map rw_call rows) /\
  map (fun r => (rw_x r, rw_fx r, rw_extras r)) rows = map (fun r => (ir_x r, ir_fx r, ir_extras r)) (own i h).

(** Life of an optimizer in the log: registered, history open with [n] extra
    columns, cache cleared. *)
Inductive status := Ready | Open (n : nat) | Closed.

(** The order in which the manager makes the calls: ids 1,2,3,...; one history per
    optimizer; evaluations only while the history is open and with as many extras
    as it has extra columns; nothing but metadata and further clearing after the cache was cleared. *)
Definition next (d : list (nat * status)) (o : fop) : option (list (nat * status)) :=
  match o with
  | FOp (AddOpt i _ _) => if Nat.eqb i (S (length d)) then Some (nset i Ready d) else None
  | FOp (AddHist i hd) => match nget i d with Some Ready => Some (nset i (Open (length hd)) d) | _ => None end
  | FOp (PutIter r) =>
      match nget (ir_opt r) d with
      | Some (Open n) => if Nat.eqb (length (ir_extras r)) n then Some d else None
      | _ => None
      end
  | FOp (ClearCache (Some (S i))) => if nmemd (S i) d then Some (nset (S i) Closed d) else None
  | FOp (ClearCache _) => Some (map (fun p => (fst p, Closed)) d)
  | FOp (PutMeta i _ _) => if nmemd i d then Some d else None
  | FOp (PutMsg i _) => match nget i d with Some Ready | Some (Open _) => Some d | _ => None end
  | FFlush (Some (S i)) => match nget (S i) d with Some Ready | Some (Open _) => Some d | _ => None end
  | FFlush _ => Some d
  end.

Fixpoint lives (d : list (nat * status)) (ops : list fop) : option (list (nat * status)) :=
  match ops with
  | [] => Some d
  | o :: ops' => match next d o with Some d' => lives d' ops' | None => None end
  end.

(** No call of the sequence raises. *)
Fixpoint all_ok (sz : iterres -> N) (ops : list fop) (s : flogger) : Prop :=
  match ops with
  | [] => True
  | o :: ops' => fst (fstep sz o s) = Ok tt /\ all_ok sz ops' (snd (fstep sz o s))
  end.
