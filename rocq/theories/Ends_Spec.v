(** * Why the log says that an optimizer ended *)
From Verif Require Import Prelude Logger_Model Manager_Model Manager_Spec.

(** What may be behind the end condition [v] of optimizer [i], given what the outside did in the run ending with history
    [h]: its own message; a hunt or a STOP file; no sign of life for too long; its exit without a message. *)
Inductive end_cause (g : config) (w : world) (h : hist) (i : nat) : string -> Prop :=
  | Own m t : In (MSig i (SDone m)) (w_moves w t) -> end_cause g w h i m
  | Stopped : In i (kills h) -> end_cause g w h i "GloMPO Termination"
  | Forced t : g_forced g = true -> g_proc g = true -> w_late w t i = true -> end_cause g w h i "Forced GloMPO Termination"
  | Failed t code : code <> 0%Z -> In (MExit i code) (w_moves w t) -> end_cause g w h i "Error termination"
  | Silent t : In (MExit i 0%Z) (w_moves w t) -> end_cause g w h i "Normal termination (Reason unknown)".

(** The log has the time and the reason of the end of [i]. *)
Definition end_logged (i : nat) (v : string) (l : logger) : Prop :=
  (exists t, get_metadata i "t_stop" l = Ok t) /\ get_metadata i "end_cond" l = Ok v.

(** The end of the run was not due to an exception. *)
Definition undisturbed (r : reason) : Prop := r = RChecker \/ r = RDead \/ r = RNone.

(** What is written about the optimizers still running at the end of the run. *)
Definition closing (r : reason) : string :=
  match r with RInterrupt => "User Interrupt" | RCrash _ => "GloMPO Crash" | _ => "GloMPO Convergence" end.

(** A user presses Ctrl-C once at the most; otherwise nothing raises KeyboardInterrupt. *)
Record one_interrupt (w : world) : Prop := mkOI {
  oi_once : forall t t', w_intr w t = true -> w_intr w t' = true -> t = t';
  oi_err : forall t, w_err w t <> Some KeyboardInterrupt;
  oi_sel : forall t c n, w_sel w t c n <> Err KeyboardInterrupt;
  oi_check : forall t c, w_check w t c <> Err KeyboardInterrupt;
  oi_kill : forall t c h v, w_kill w t c h v <> Err KeyboardInterrupt;
  oi_heads : forall t r, w_heads w t r <> Err KeyboardInterrupt }.
