(** * Resuming: vocabulary of the properties *)
From Coq Require Import Sorted.
From Verif Require Import Prelude Logger_Model Logger_Spec FileLogger_Model FileLogger_Spec Restart_Model.

(** Every table lists its evaluations in the order of their numbers. *)
Definition ordered (h : file) : Prop := forall i g t, nget i (h_groups h) = Some g -> g_table g = Some t -> StronglySorted lt (map rw_call (t_rows t)).
(** [g'] is [g] without the evaluations after number [f]. *)
Definition trimmed (f : nat) (g g' : group) : Prop :=
  g_attrs g' = g_attrs g /\ g_msgs g' = g_msgs g /\
  match g_table g, g_table g' with
  | None, None => True
  | Some t, Some t' => t_hdrs t' = t_hdrs t /\ t_rows t' = filter (fun r => Nat.leb (rw_call r) f) (t_rows t)
  | _, _ => False
  end.
Definition rows_in (i : nat) (gs : list (nat * group)) : list row :=
  match nget i gs with Some g => match g_table g with Some t => t_rows t | None => [] end | None => [] end.
(** The numbers of all evaluations in the file. *)
Definition call_ids (gs : list (nat * group)) : list nat :=
  flat_map (fun p => match g_table (snd p) with Some t => map rw_call (t_rows t) | None => [] end) gs.
