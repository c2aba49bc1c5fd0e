(** * Specification of the end of a run *)
From Verif Require Export Sync_Spec Ending_Model.

Fixpoint frun (c : config) (b : backend) (sigma : nat -> flabel) (k : nat) (f : fin) : fin :=
  match k with O => f | S j => fstep c b (sigma j) (frun c b sigma j f) end.
(** Every thread is scheduled again and again. *)
Definition ffair (sigma : nat -> flabel) : Prop := forall t k, exists j, k <= j /\ fst (sigma j) = t.
(** A timeout passes at some time. *)
Definition clocked (sigma : nat -> flabel) : Prop := forall k, exists j, k <= j /\ fst (sigma j) = None /\ snd (snd (sigma j)) = true.
(** The states during the end of a run which was in state [s]. *)
Definition ending_reachable (c : config) (b : backend) (s : sys) (f : fin) : Prop := exists ls, fsteps c b ls (ending s) = f.
Definition living (s : sys) : nat := length (filter alive (s_opts s)).
(** Room for two more messages of each living optimizer. *)
Definition roomy (c : config) (s : sys) : Prop := match c_cap c with None => True | Some n => 2 * living s <= n end.
Definition all_dead (s : sys) : Prop := forall i o, nth_error (s_opts s) i = Some o -> alive o = false.
(** Evaluations made by optimizer [i]. *)
Definition evaluations (i : nat) (s : sys) : nat := match nth_error (s_opts s) i with Some o => o_made o | None => 0 end.
(** An evaluation that is about to be put. *)
Definition unput (o : opt) : nat := match o_at o with Put => 1 | _ => 0 end.
Definition pend (i : nat) (s : sys) : nat := match nth_error (s_opts s) i with Some o => unput o | None => 0 end.
