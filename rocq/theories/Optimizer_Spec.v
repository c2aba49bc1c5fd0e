(** * Optimizers: vocabulary of the properties *)
From Verif Require Import Prelude Logger_Model Optimizer_Model.

(** Points at which the task was evaluated; evaluations reported to the manager, with their values. *)
Fixpoint evaluated (tr : list act) : list (list num) :=
  match tr with [] => [] | AEval _ x :: r => x :: evaluated r | _ :: r => evaluated r end.
Fixpoint reported (tr : list act) : list (list num * num) :=
  match tr with [] => [] | AReport r :: l => (ir_x r, ir_fx r) :: reported l | _ :: l => reported l end.

Definition inside (bounds : list (Q * Q)) (x : list num) : Prop :=
  Forall2 (fun b v => exists q, v = Fin q /\ (fst b <= q <= snd b)%Q) bounds x.
(** Nothing in [l] is better than (rx, rfx), which is in [l] unless [l] has nothing below infinity. *)
Definition best_of (l : list (list num * num)) (rx : option (list num)) (rfx : num) : Prop :=
  (forall x f, In (x, f) l -> nlt f rfx = false) /\
  match rx with
  | Some x => In (x, rfx) l /\ nlt rfx PInf = true
  | None => rfx = PInf
  end.

Definition is_eval (a : act) : Prop := match a with AEval _ _ => True | _ => False end.
(** What happens while messages are read. *)
Definition is_quiet (a : act) : Prop :=
  match a with AEval _ _ | AReport _ | ARefused _ | ABye _ => False | _ => True end.

(** What a single use of the wrapped task must do, given the number [k] of earlier evaluations: the answer, and what is
    recorded. *)
Definition faithful (t : task) (id k : nat) (log_detailed : bool) (c : bool * list num) (r : res value) (acts : list act) : Prop :=
  let x := snd c in
  if log_detailed || fst c then
    match t_det t with
    | None => r = Err AttributeError /\ acts = []
    | Some d =>
        match d k x with
        | Err e => r = Err e /\ acts = [AEval true x]
        | Ok [] => r = Err IndexError /\ acts = [AEval true x]
        | Ok (fx :: extras) =>
            if q_full t k then r = Err QueueFull /\ acts = [AEval true x; ARefused (mkIR id x fx extras)]
            else r = Ok (if fst c then Whole (fx :: extras) else Scalar fx) /\ acts = [AEval true x; AReport (mkIR id x fx extras)]
        end
    end
  else
    match t_call t k x with
    | Err e => r = Err e /\ acts = [AEval false x]
    | Ok fx =>
        if q_full t k then r = Err QueueFull /\ acts = [AEval false x; ARefused (mkIR id x fx [])]
        else r = Ok (Scalar fx) /\ acts = [AEval false x; AReport (mkIR id x fx [])]
    end.
(** A whole sequence of uses. *)
Fixpoint faithfuls (t : task) (id k : nat) (log_detailed : bool) (cs : list (bool * list num)) (rs : list (res value)) (acts : list act) : Prop :=
  match cs, rs with
  | [], [] => acts = []
  | c :: cs', r :: rs' => exists a b, acts = a ++ b /\ faithful t id k log_detailed c r a /\ faithfuls t id (k + length (evaluated a)) log_detailed cs' rs' b
  | _, _ => False
  end.
