(** * What the manager must guarantee, stated on the history of a run *)
From Verif Require Import Prelude Logger_Model Logger_Spec Manager_Model.

Notation hist := (list (core * event)).

(** What happened, oldest first (histories are newest first). *)
Fixpoint setups (h : hist) : list (nat * string) :=
  match h with
  | [] => []
  | (_, EvSetup i cls) :: h' => setups h' ++ [(i, cls)]
  | _ :: h' => setups h'
  end.
Fixpoint starts (h : hist) : list (nat * string) :=
  match h with
  | [] => []
  | (_, EvStart i cls _) :: h' => starts h' ++ [(i, cls)]
  | _ :: h' => starts h'
  end.
Fixpoint accepted (h : hist) : list iterres :=
  match h with
  | [] => []
  | (_, EvAccept r) :: h' => accepted h' ++ [r]
  | _ :: h' => accepted h'
  end.
Fixpoint kills (h : hist) : list nat :=
  match h with
  | [] => []
  | (_, EvKill _ i) :: h' => kills h' ++ [i]
  | _ :: h' => kills h'
  end.

(** The result shows the first evaluation with the least value among [acc] - value, vector, optimizer and its class -
    and counts them all. *)
Definition result_best (classes : list (nat * string)) (acc : list iterres) (r : result) : Prop :=
  match acc with
  | [] => r = mkR None None None None
  | _ => exists o x fx ty call rest,
      first_best acc (fun _ => true) o x fx call /\
      (call = 0 -> o = 0) /\ (call <> 0 -> In (o, ty) classes) /\
      r_x r = Some x /\ r_fx r = Some fx /\ r_origin r = Some (o, ty) /\
      r_stats r = Some (length acc, fst (fst rest), snd (fst rest), snd rest)
  end.

(** As [result_best]; the vector may have been dropped by the finally clause if it was empty. *)
Definition weak_best (classes : list (nat * string)) (acc : list iterres) (r : result) : Prop :=
  match acc with
  | [] => r = mkR None None None None
  | _ => exists o x fx ty call rest,
      first_best acc (fun _ => true) o x fx call /\
      (call = 0 -> o = 0) /\ (call <> 0 -> In (o, ty) classes) /\
      (r_x r = Some x \/ (x = [] /\ r_x r = None)) /\ r_fx r = Some fx /\ r_origin r = Some (o, ty) /\
      r_stats r = Some (length acc, fst (fst rest), snd (fst rest), snd rest)
  end.

(** Value of a result; no result counts as +inf. *)
Definition value (r : result) : num := match r_fx r with Some v => v | None => PInf end.

(** Total of the slots of living children. *)
Definition living_slots (c : core) : nat :=
  sum_nat (map (fun p => if c_alive (snd p) then c_slots (snd p) else 0) (k_packs c)).

(** The selector only returns optimizers which fit. *)
Definition obeys (w : world) : Prop :=
  forall t c n cf, w_sel w t c n = Ok (SOpt cf) -> cf_workers cf <= n.

(** Neither configured nor requested checkpoints. *)
Definition no_checkpoints (g : config) (w : world) : Prop :=
  g_chk g = false /\ forall t, ~ In MCheckpointFile (w_moves w t).

Definition id_ok (c : core) (i : nat) : Prop := 1 <= i <= k_o c.

(** Number of evaluations accepted up to the latest hunt; 0 before the first one. *)
Fixpoint at_last_hunt (h : hist) : nat :=
  match h with
  | [] => 0
  | (_, EvHunt) :: h' => length (accepted h')
  | _ :: h' => at_last_hunt h'
  end.

(** The judgement at the end of an iteration. *)
Definition verdict (c : core) (chk dead : bool) : bool := chk || (dead && negb (k_spawn c)).

(** The latest judgement of the session, if any. *)
Fixpoint last_judgement (h : hist) : option bool :=
  match h with
  | [] => None
  | (c, EvJudge a d) :: _ => Some (verdict c a d)
  | (_, EvLoad) :: _ => None
  | _ :: h' => last_judgement h'
  end.

(** The same with its ingredients. *)
Fixpoint last_judge (h : hist) : option (core * bool * bool) :=
  match h with
  | [] => None
  | (c, EvJudge a d) :: _ => Some (c, a, d)
  | (_, EvLoad) :: _ => None
  | _ :: h' => last_judge h'
  end.

(** Events recorded between iterations or at decisions: here the result is up to date. *)
Definition decision (e : event) : bool :=
  match e with
  | EvSelect | EvHunt | EvIter | EvJudge _ _ | EvStopSpawn | EvSaveLog | EvSaveManager => true
  | EvKill (Some _) _ => true
  | _ => false
  end.

(** A state met during some run: runs may be cut off anywhere. *)
Definition met (g : config) (w : world) (s : mstate) : Prop := exists limit traj, s = snd (run g w limit traj).

(** The checker of [MaxFuncCalls(fm)]. *)
Definition max_calls (w : world) (fm : nat) : Prop := forall t c, w_check w t c = Ok (fm <=? k_f c).
(** No chunk on the results queue is longer than [K]. *)
Definition chunks_within (w : world) (K : nat) : Prop := forall t ch, In (MPush ch) (w_moves w t) -> length ch <= K.

(** The outside apart from the children behaves: no user or system code raises, incumbents are not shared, and an
    optimizer is stopped by termination - or never, there being neither hunts nor STOP files. *)
Record benign (g : config) (w : world) : Prop := mkBenign {
  bn_err : forall t, w_err w t = None;
  bn_sel : forall t c n e, w_sel w t c n <> Err e;
  bn_check : forall t c e, w_check w t c <> Err e;
  bn_kill : forall t c i j e, w_kill w t c i j <> Err e;
  bn_heads : forall t r e, w_heads w t r <> Err e;
  bn_chk : no_checkpoints g w;
  bn_share : g_sharing g = false;
  bn_stop : (g_aggressive g = true /\ g_proc g = true) \/
            (g_killing g = false /\ forall t n, ~ In (MFile n) (w_moves w t)) }.
