(** * Sequences of requests to a selector *)
From Verif Require Import Prelude Selectors_Model.

(** The answers of a cycle to a sequence of requests (state of the manager, free slots). *)
Fixpoint cycle_run (sp : spawner) (avail : list conf) (reqs : list (sview * nat)) (s : cycle) : list (res selres) :=
  match reqs with
  | [] => []
  | (v, slots) :: reqs' => let (r, s) := cycle_select sp avail v slots s in r :: cycle_run sp avail reqs' s
  end.
Fixpoint chain_run (sp : spawner) (avail : list conf) (th : list Q) (reqs : list (sview * nat)) (t : nat) : list (res selres) :=
  match reqs with
  | [] => []
  | (v, slots) :: reqs' => let (r, t) := chain_select sp avail th v slots t in r :: chain_run sp avail th reqs' t
  end.

(** The configurations handed out. *)
Definition given (l : list (res selres)) : list conf := flat_map (fun r => match r with Ok (SOpt c) => [c] | _ => [] end) l.

(** Number of thresholds reached with [f] evaluations. *)
Definition reached (th : list Q) (f : nat) : nat := length (filter (fun t => Qle_bool t (inject_Z (Z.of_nat f))) th).

(** Thresholds in non-decreasing order. *)
Fixpoint ascending (th : list Q) : Prop :=
  match th with
  | a :: ((b :: _) as t) => (a <= b)%Q /\ ascending t
  | _ => True
  end.

(** The evaluation counter never decreases along the requests and passes at most one threshold between two of them. *)
Fixpoint gentle (th : list Q) (f : nat) (reqs : list (sview * nat)) : Prop :=
  match reqs with
  | [] => True
  | (v, _) :: reqs' => f <= sv_f v /\ reached th (sv_f v) <= reached th f + 1 /\ gentle th (sv_f v) reqs'
  end.
