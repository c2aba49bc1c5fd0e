(** * Specification of the checkpoint conversation *)
From Verif Require Export Sync_Model.

(** States that can come up, from the empty system, with any schedule and any decisions of the environment. *)
Definition reachable (c : config) (s : sys) : Prop := exists ls, steps c ls start = s.
(** ... without exceptions in evaluations and in the writing of restart files. *)
Definition calm (l : label) : Prop := h_raise (snd l) = false.
Definition calmly_reachable (c : config) (s : sys) : Prop := exists ls, Forall calm ls /\ steps c ls start = s.

(** An infinite schedule. *)
Fixpoint run (c : config) (sigma : nat -> label) (k : nat) (s : sys) : sys :=
  match k with O => s | S j => step c (sigma j) (run c sigma j s) end.
(** Every thread is scheduled again and again. *)
Definition fair (sigma : nat -> label) : Prop := forall t k, exists j, k <= j /\ fst (sigma j) = t.
(** The queue can hold something. *)
Definition usable (c : config) : Prop := c_cap c <> Some 0.

(** Between the report and the answer of the manager. *)
Definition waiting (o : opt) : Prop := exists f, o_at o = Wait f false.
Definition results (i : nat) (l : list item) : nat :=
  length (filter (fun it => match it with Res j => Nat.eqb i j | End _ => false end) l).
