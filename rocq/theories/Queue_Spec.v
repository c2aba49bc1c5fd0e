(** * Vocabulary for the results queue *)
From Verif Require Import Prelude Queue_Model.

Section Spec.
Context {I : Type}.
Variables maxsize chunk_size : nat.

Definition reachable (s : queue I) : Prop := exists l, s = qrun I maxsize chunk_size l.

(** Items on their way, nearest to the consumer first: taken from the queue, on the queue, in the cache.  The list
    object of the cache counts once while it is both (between the put and the reset). *)
Definition on_queue (s : queue I) : list (nat * I) :=
  match q_got s with Some a => content a s | None => [] end ++ concat (map (fun a => content a s) (q_chunks s)).
Definition in_cache (s : queue I) : list (nat * I) := if q_moved s then [] else content (q_cache s) s.
Definition underway (s : queue I) : list (nat * I) := on_queue s ++ in_cache s.

(** Call [n] put item [it]. *)
Definition puts (s : queue I) (n : nat) (it : I) : Prop := exists p o, nget n (q_calls s) = Some (p, o) /\ op_item o = Some it.
(** Call [n] is a put (not put_nowait or put_incache). *)
Definition is_put (s : queue I) (n : nat) : Prop := exists p m it, nget n (q_calls s) = Some (p, OPut m it).
(** Call [n] was made by producer [p]. *)
Definition made_by (s : queue I) (n p : nat) : Prop := exists o, nget n (q_calls s) = Some (p, o).
(** Call [a] had returned when call [b] was made. *)
Definition before (s : queue I) (a b : nat) : Prop := exists l, nget b (q_prec s) = Some l /\ In a l.

Definition idle (s : queue I) : Prop := forall p, q_thr s p = None.
End Spec.
