(** * How a session should end *)
From Verif Require Import Prelude Finish_Model.

(** Why a session ended. *)
Inductive why := ByChecker (text : string) | Dead | Stopped (e : bexn).
Definition says (w : why) : string :=
  match w with
  | ByChecker t => t
  | Dead => "No optimizers alive, spawning stopped."
  | Stopped Interrupt => "User Interrupt"
  | Stopped (Exc _) => "GloMPO Crash"
  | Stopped Exit => "System Exit"
  end.

(** A round in which nothing is raised and nothing ends. *)
Definition quiet (r : round) : Prop :=
  rd_work r = None /\ rd_check r = inl false /\ rd_rest r = None /\ ~ (rd_dead r = true /\ rd_spawn r = false).
Inductive throws (r : round) (e : bexn) : Prop :=
  | T_work : rd_work r = Some e -> throws r e
  | T_check : rd_work r = None -> rd_check r = inr e -> throws r e
  | T_rest c : rd_work r = None -> rd_check r = inl c -> rd_rest r = Some e -> throws r e.
Inductive ends_by (r : round) : why -> Prop :=
  | B_checker : rd_work r = None -> rd_check r = inl true -> rd_rest r = None -> ends_by r (ByChecker (rd_text r))
  | B_dead : rd_work r = None -> rd_check r = inl false -> rd_rest r = None -> rd_dead r = true -> rd_spawn r = false -> ends_by r Dead.
(** What happened between line 980 and line 1049. *)
Inductive story (ev : events) : why -> Prop :=
  | S_begin e : e_begin ev = Some e -> story ev (Stopped e)
  | S_restart e : e_begin ev = None -> e_restart ev = Some e -> story ev (Stopped e)
  | S_round rs r tl e : e_begin ev = None -> e_restart ev = None -> e_rounds ev = rs ++ r :: tl -> Forall quiet rs -> throws r e ->
      story ev (Stopped e)
  | S_after rs r tl w e : e_begin ev = None -> e_restart ev = None -> e_rounds ev = rs ++ r :: tl -> Forall quiet rs -> ends_by r w ->
      e_leave ev = Some e \/ e_leave ev = None /\ e_stop ev = Some e -> story ev (Stopped e)
  | S_end rs r tl w : e_begin ev = None -> e_restart ev = None -> e_rounds ev = rs ++ r :: tl -> Forall quiet rs -> ends_by r w ->
      e_leave ev = None -> e_stop ev = None -> story ev w.

(** The way into the loop and the way out after it. *)
Definition entered (ev : events) (m : mgr) : Prop :=
  g_init m = true /\ (exists c, e_pre ev = inl c /\ c || e_idle ev = false) /\ e_prepare ev = None /\ e_prepare2 ev = None.
Definition tidy (ev : events) : Prop := e_movie ev = None /\ e_fig ev = None /\ e_save ev = None /\ e_close ev = None.
(** Each past session has its end. *)
Definition balanced (m : mgr) : Prop := length (g_starts m) = length (g_ends m).

(** C73: the first thing raised by a series of calls. *)
Fixpoint first_raise {A} (l : list (call A)) : option bexn :=
  match l with [] => None | Throws e :: _ => Some e | Imports w :: _ => Some (Exc w) | _ :: l => first_raise l end.
