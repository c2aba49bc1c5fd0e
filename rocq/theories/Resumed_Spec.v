(** * Runs over several sessions: vocabulary of the properties *)
From Verif Require Import Prelude Logger_Model Manager_Model Manager_Spec Restart_Model Resumed_Model Due_Spec.

(** [k] is a checkpoint written before state [s]; [late] are the evaluations accepted between the writing of the log and
    that of the manager.  An optimizer has a file if it was told to write one. *)
Definition written (s : mstate) (k : ckpt) (late : list iterres) : Prop :=
  exists h1 ha cl hb,
    st_hist s = h1 ++ (ck_core k, EvSaveManager) :: ck_hist k /\
    ck_hist k = ha ++ (cl, EvSaveLog) :: hb /\ ~ In EvSaveLog (map snd ha) /\
    ck_log k = k_log cl /\ late = accepted ha /\
    NoDup (ck_found k) /\ forall i, In i (ck_found k) -> In (EvSend i OSave) (map snd ha).

(** Runs resumed any number of times, each time from any checkpoint written so far, with other settings and in another
    world.  [P] restricts the evaluations which came in while a checkpoint was made. *)
Inductive session (P : list iterres -> Prop) : config -> world -> mstate -> Prop :=
| se_first g w s : met g w s -> session P g w s
| se_next g w s k late builds conv c g' w' limit : session P g w s -> written s k late -> P late ->
    load g' k builds conv = Ok c -> session P g' w' (snd (resume g' w' limit k c)).

(** No evaluation came in between the writing of the log and that of the manager. *)
Notation in_step := (session (fun late => late = [])).
(** Whatever came in. *)
Notation any_session := (session (fun _ => True)).

(** The hunts of a history. *)
Definition hunts (h : hist) : nat := length (filter (fun p => match snd p with EvHunt => true | _ => false end) h).
(** [c] comes later than [c']: no counter is set back. *)
Record later (c' c : core) : Prop := mkLater {
  la_f : k_f c' <= k_f c; la_o : k_o c' <= k_o c; la_conv : k_conv c' <= k_conv c; la_hunts : k_hunts c' <= k_hunts c;
  la_victims : length (k_victims c') <= length (k_victims c); la_grave : incl (k_grave c') (k_grave c);
  la_spawn : k_spawn c' = false -> k_spawn c = false }.

(** Runs and resumed runs in all of which checkpoints are made after more than [n] evaluations and at no other time. *)
Inductive counted (n : nat) : mstate -> Prop :=
| ct_first g w s : by_count g w n -> met g w s -> counted n s
| ct_next s k late builds conv c g w limit : counted n s -> written s k late -> load g k builds conv = Ok c -> by_count g w n ->
    counted n (snd (resume g w limit k c)).
