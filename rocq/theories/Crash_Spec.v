(** * Conditions under which the crashes of a run are enumerated *)
From Verif Require Import Prelude Logger_Model Logger_Spec Manager_Model Manager_Spec.

(** What a hunter may ask of an optimizer with evaluations: its class is recorded, and the points and values of the same
    evaluations. *)
Definition readable (l : logger) : Prop := forall i, has_iter_history i l = true ->
  (exists ty, get_metadata i "opt_type" l = Ok ty) /\
  exists rs, get_history i "x" l = Ok (map (fun r => CX (ir_x r)) rs) /\ get_history i "fx" l = Ok (map (fun r => CF (ir_fx r)) rs).

(** Hunter and victim have a best evaluation (perhaps still the initial one, +inf). *)
Definition ranked (l : logger) (i : nat) : Prop := exists b, get_best_iter (Some i) l = Ok b.

(** The outside apart from the children behaves: no user or system code raises; a hunter does not if the log is
    [readable], hunter and victim are [ranked] and the victim has a history. *)
Record orderly (w : world) : Prop := mkOrderly {
  or_err : forall t, w_err w t = None;
  or_sel : forall t c n e, w_sel w t c n <> Err e;
  or_check : forall t c e, w_check w t c <> Err e;
  or_kill : forall t c i j e, readable (k_log c) -> ranked (k_log c) i -> ranked (k_log c) j -> has_iter_history j (k_log c) = true ->
              w_kill w t c i j <> Err e;
  or_heads : forall t r e, w_heads w t r <> Err e }.

(** Incumbents are not shared, and an optimizer is stopped by termination - or never, there being neither hunts nor STOP
    files: no message is sent to an optimizer except at a checkpoint. *)
Definition wordless (g : config) (w : world) : Prop :=
  g_sharing g = false /\
  ((g_aggressive g = true /\ g_proc g = true) \/ (g_killing g = false /\ forall t n, ~ In (MFile n) (w_moves w t))).
