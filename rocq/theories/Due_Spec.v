(** * When checkpoints are made *)
From Verif Require Import Prelude Manager_Model Manager_Spec.

(** The attributes of the manager when checkpoints were begun, newest first. *)
Definition saves (h : hist) : list core :=
  map fst (filter (fun p => match snd p with EvSaveLog => true | _ => false end) h).
(** Part of a checkpoint: pausing and saving optimizers, writing the log or the manager. *)
Definition of_checkpoint (e : event) : bool :=
  match e with EvSaveLog | EvSaveManager | EvSend _ OPause | EvSend _ OSave => true | _ => false end.
(** The attributes at the beginnings of the iterations, newest first. *)
Definition begins (h : hist) : list core :=
  map fst (filter (fun p => match snd p with EvIter => true | _ => false end) h).
(** Neighbours in a list. *)
Definition next_to {A} (l : list A) (a b : A) : Prop := exists l1 l2, l = l1 ++ a :: b :: l2.
(** No checkpoints but those due after a number of evaluations. *)
Definition by_count (g : config) (w : world) (n : nat) : Prop :=
  g_iter_freq g = Some n /\ g_at_conv g = false /\ (forall t, w_time_chk w t = false) /\ forall t, ~ In MCheckpointFile (w_moves w t).
(** The CHKPT files placed during the first [t] interactions. *)
Definition is_chkpt_file (m : move) : bool := match m with MCheckpointFile => true | _ => false end.
Fixpoint asked (w : world) (t : nat) : nat :=
  match t with 0 => 0 | S t' => length (filter is_chkpt_file (w_moves w t')) + asked w t' end.
(** One turn of the loop in the history: it began with [c0] after the history [h0], the next one with
    [c1], [mid] happened in between. *)
Definition one_turn (h : hist) (c1 : core) (mid : hist) (c0 : core) (h0 : hist) : Prop :=
  exists h1, h = h1 ++ (c1, EvIter) :: mid ++ (c0, EvIter) :: h0 /\ begins mid = [].
(** The number of evaluations that the newest checkpoint of a history knows. *)
Definition last_saved (h : hist) : nat := match saves h with c :: _ => k_f c | [] => 0 end.
