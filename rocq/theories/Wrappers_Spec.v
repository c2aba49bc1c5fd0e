(** * C63-C66: what is expected of the wrappers *)
From Verif Require Import Wrappers_Model.
From Coq Require Import Sorting.Permutation.

Section S.
Context {X : Type}.
(** The pairs of whole populations, each vector with its own value, in the order asked. *)
Definition own_values (f : X -> num) (pops : list (list X)) : list (X * num) := flat_map (map (fun x => (x, f x))) pops.

(** A pair is the best of a collection when nothing in it is lower. *)
Definition lowest_of (told : list (X * num)) (x : X) (v : num) : Prop :=
  In (x, v) told /\ forall y u, In (y, u) told -> nlt u v = false.
(** No value is below infinity. *)
Definition hopeless (told : list (X * num)) : Prop := forall y u, In (y, u) told -> nlt u PInf = false.

(** The stop requests of a run: messages of the manager with their reasons, callbacks of the user count as other reasons. *)
Definition msg_reasons (l : list (msg X)) : list reason := flat_map (fun m => match m with MStop r => [r] | _ => [] end) l.
Definition stop_requests (w : inp X) : list reason :=
  flat_map msg_reasons (i_during w) ++ (if i_callback w then [Other] else []) ++ msg_reasons (i_after w).
Definition sent (w : inp X) (x : X) (v : num) : Prop := In (MInject x v) (concat (i_during w) ++ i_after w).
(** A stop reaches a run in this iteration: from the callback, or, when a manager listens, after it or during a parallel one, before the last
    evaluation is over. *)
Definition stop_during (g : cfg) (w : inp X) : Prop :=
  g_queue g = true /\ 1 < g_workers g /\ exists r, In (MStop r) (concat (firstn (length (i_ask w)) (i_during w))).
Definition stop_in (g : cfg) (w : inp X) : Prop :=
  i_callback w = true \/ (g_queue g = true /\ exists r, In (MStop r) (i_after w)) \/ stop_during g w.
(** Lower than all values of a population that are numbers. *)
Definition beats (f : X -> num) (pop : list X) (v : num) : Prop := forall y, In y pop -> nnan (f y) = false -> nlt v (f y) = true.

(** Numbers of which each lies more than [gap] above the one before, starting from [from]. *)
Fixpoint spaced (gap from : nat) (l : list nat) : Prop := match l with [] => True | i :: r => from + gap < i /\ spaced gap i r end.

(** GFLS: each of the vectors asked for is told once or is being evaluated, and what is told is its value. *)
Definition accounted (f : X -> num) (s : gfls X) : Prop :=
  Permutation (map fst (s_told s) ++ s_futures s) (seq 0 (length (s_asked s))) /\
  (forall k v, In (k, v) (s_told s) -> exists x, nth_error (s_asked s) k = Some x /\ v = f x) /\
  s_ncall s = length (s_asked s).
End S.
