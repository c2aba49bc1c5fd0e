(** * What the parameter functions should do *)
From Verif Require Import Prelude Params_Model.

(** The parameters a vector speaks about: the active ones if their number fits, otherwise all. *)
Definition addressed (e : engine) (n : nat) : engine := if Nat.eqb n (length (filter p_act e)) then filter p_act e else e.
Definition proper_ranges (e : engine) : Prop := Forall (fun p => ~ p_lo p == p_hi p)%Q e.
(** Parameter number [i] exists and is active. *)
Definition is_active_at (e : engine) (i : nat) : Prop := exists p, nth_error e i = Some p /\ p_act p = true.
(** The positions of the active parameters in increasing order. *)
Definition active_positions (e : engine) : list nat :=
  filter (fun i => match nth_error e i with Some p => p_act p | None => false end) (seq 0 (length e)).

(** Parameter number [j] is meant by the key. *)
Definition means (e : engine) (k : key) (j : nat) : Prop :=
  match k with KI i => i = j | KS s => exists p, nth_error e j = Some p /\ p_name p = s end.
Definition meant (e : engine) (ps : list key) (j : nat) : Prop := exists k, In k ps /\ means e k j.
Definition known (e : engine) (k : key) : Prop := exists j p, nth_error e j = Some p /\ means e k j.
Definition same_kind (ps : list key) : Prop := Forall (fun k => is_name k = true) ps \/ Forall (fun k => is_name k = false) ps.
(** Two engines which differ at most in what is active. *)
Definition same_but_activity (e e' : engine) : Prop :=
  Forall2 (fun p q => p_name p = p_name q /\ p_value p = p_value q /\ p_lo p = p_lo q /\ p_hi p = p_hi q) e e'.
Definition act_at (e : engine) (j : nat) : option bool := option_map p_act (nth_error e j).
(** Some value is not strictly inside the range of the parameter it is meant for. *)
Definition warns (ps : engine) (x : list num) : bool := existsb (fun xp => negb (nlt (Fin (p_lo (snd xp))) (fst xp) && nlt (fst xp) (Fin (p_hi (snd xp))))) (combine x ps).
