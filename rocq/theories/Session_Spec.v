(** * What the times should be *)
From Verif Require Import Session_Model.

(** The sessions that led to the present state, by true time; the running session, when its condition was met. *)
Inductive phase := Waiting | Running (since : Z) (met : option Z) | Over (since until : Z).
Record diary := mkD { past : list (Z * Z); now_in : phase; archived : option (list (Z * Z)) }.
Definition opening : diary := mkD [] Waiting None.

(** The use the documentation describes: one session per manager; checkpoints are made before the first session or while a
    session runs; a new manager continues from the last checkpoint.  None: another use. *)
Definition proper (e : event) (d : diary) : option diary :=
  match e, now_in d with
  | EStart t, Waiting => Some (mkD (past d) (Running t None) (archived d))
  | ECondition t, Running s _ => Some (mkD (past d) (Running s (Some t)) (archived d))
  | EEnd t, Running s m => Some (mkD (past d) (Over s (match m with Some c => c | None => t end)) (archived d))
  | ECheckpoint t, Running s m => Some (mkD (past d) (Running s m) (Some (past d ++ [(s, t)])))
  | ECheckpoint t, Waiting => match past d with [] => Some (mkD [] Waiting (Some [])) | _ => None end
  | ELoad, _ => match archived d with Some h => Some (mkD h Waiting (archived d)) | None => None end
  | _, _ => None
  end.
Fixpoint propers (l : list event) (d : diary) : option diary :=
  match l with [] => Some d | e :: l => match proper e d with Some d' => propers l d' | None => None end end.

Fixpoint duration (h : list (Z * Z)) : Z := match h with [] => 0 | (s, e) :: h => (e - s) + duration h end%Z.
Definition steady (off : Z -> Z) : Prop := forall t t', off t = off t'.
