(** * Resource usage: what the records should say *)
From Coq Require Export Permutation Sorted.
From Verif Require Export Prelude Usage_Model.

(** The events on the line that leads to the present manager: what happened after a checkpoint is not on the line of a manager
    loaded from it. *)
Fixpoint line (l cur : list event) (saved : option (list event)) : list event :=
  match l with
  | [] => cur
  | Save :: l => line l cur (Some cur)
  | Load ps :: l => match saved with Some s => line l (s ++ [Load ps]) saved | None => line l cur saved end
  | e :: l => line l (cur ++ [e]) saved
  end.
(** The readings on a line, with a gap for each time the run was resumed; nothing is read without psutil. *)
Fixpoint book (ps : bool) (l : list event) : list (option reading) :=
  match l with
  | [] => []
  | Status r :: l => if ps then Some r :: book ps l else book ps l
  | Load ps' :: l => None :: book ps' l
  | _ :: l => book ps l
  end.
Fixpoint taken (ps : bool) (l : list event) : list reading :=
  match l with
  | [] => []
  | Status r :: l => if ps then r :: taken ps l else taken ps l
  | Load ps' :: l => taken ps' l
  | _ :: l => taken ps l
  end.
Definition readings ps l := taken ps (line l [] None).

(** Status messages are made in sessions only, and a checkpoint is loaded after one was made. *)
Fixpoint proper (running saved : bool) (l : list event) : Prop :=
  match l with
  | [] => True
  | Start :: l => proper true saved l
  | Status _ :: l => running = true /\ proper running saved l
  | Save :: l => proper running true l
  | Load _ :: l => saved = true /\ proper false saved l
  end.
(** psutil answers: the memory of the manager and of every child that exists is known. *)
Definition answered (r : reading) : Prop := r_own r <> None /\ ~ In Denied (r_kids r).
Definition all_answered (l : list event) : Prop := forall r, In (Status r) l -> answered r.

(** Bytes used by the manager and its children. *)
Fixpoint kids (l : list child) : N := match l with [] => 0 | Uses b :: l => b + kids l | _ :: l => kids l end%N.
Definition memory (r : reading) : N := (match r_own r with Some b => b | None => 0 end + kids (r_kids r))%N.

Local Open Scope Q_scope.
Definition l1 (r : reading) : Q := fst (fst (r_load r)).
Definition l5 (r : reading) : Q := snd (fst (r_load r)).
Definition l15 (r : reading) : Q := snd (r_load r).
Definition sum {A} (f : A -> Q) (l : list A) : Q := fold_right (fun a s => f a + s) 0 l.
(** [a] is the average of [f] over [l] up to [tol], and [s] the standard deviation. *)
Definition is_average {A} (tol : Q) (f : A -> Q) (l : list A) (a : Q) : Prop :=
  Qabs (a * count l - sum f l) <= tol * count l.
Definition is_deviation {A} (tol : Q) (f : A -> Q) (l : list A) (s : Q) : Prop :=
  0 <= s /\ forall m, m * count l == sum f l ->
  let v := sum (fun a => (f a - m) * (f a - m)) l in
  v <= (s + tol) * (s + tol) * count l /\ (tol <= s -> (s - tol) * (s - tol) * count l <= v).
