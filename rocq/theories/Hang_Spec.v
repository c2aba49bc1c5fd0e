(** * Silence, in terms of the events *)
From Verif Require Import Prelude Hang_Model.
Open Scope nat_scope.

(** C77: seconds that pass; the events at which the manager has heard from an optimizer; whether an optimizer is running. *)
Definition seconds (l : list hevent) : nat := list_sum (map (fun e => match e with Wait n => n | _ => 0 end) l).
Definition heard (i : nat) (e : hevent) : Prop :=
  match e with Start j => j = i | Handle j _ => j = i | Hear j _ => j = i | _ => False end.
Definition silent (i : nat) (l : list hevent) : Prop := forall e, In e l -> ~ heard i e.
Definition running (i : nat) (s : hst) : Prop := exists o, nget i (h_opts s) = Some o /\ o_alive o = true.
Definition ended (i : nat) (s : hst) (f : fate) : Prop := exists o, nget i (h_opts s) = Some o /\ o_alive o = false /\ o_fate o = Some f.
