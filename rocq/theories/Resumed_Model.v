(** * A manager loaded from a checkpoint: glompo/core/manager.py, load_checkpoint 625-893 *)
From Verif Require Import Prelude Logger_Model Manager_Model Restart_Model.

(** What a checkpoint holds: the attributes of the manager when it was written (1107 and 1885-1908; [ck_core], of which
    the loaded manager uses those mentioned in [loaded]), the log when that was written (1131-1132), the optimizers with
    a file, and the history so far - no part of the files, kept here to state properties; it also stands for the
    attribute _opt_checkpoints, which is one of those written. *)
Record ckpt := mkCk { ck_core : core; ck_log : logger; ck_found : list nat; ck_hist : list (core * event) }.

(** self._opt_checkpoints[i].slots, 824; written when the optimizer was set up (1350), never changed - in particular not
    by loading. *)
Fixpoint declared (i : nat) (h : list (core * event)) : option nat :=
  match h with
  | [] => None
  | (_, EvStart j _ n) :: h' => if Nat.eqb i j then Some n else declared i h'
  | _ :: h' => declared i h'
  end.
(** restarts, 824-825 *)
Fixpoint restarts (found : list nat) (h : list (core * event)) : res (list (nat * nat)) :=
  match found with
  | [] => Ok []
  | i :: l => match declared i h, restarts l h with
              | Some n, Ok r => Ok ((i, n) :: r)
              | None, _ => Err KeyError
              | _, Err e => Err e
              end
  end.

(** A new pack whose process is not running yet: 842-881; the pause flag is set (845). *)
Definition dormant (p : nat * nat) : nat * child := (fst p, mkCh (snd p) false 0 [] false true).

(** The attributes after loading.  Set again: _optimizer_packs 791, opt_crashed 795, last_opt_spawn 796, converged 797-801
    ([conv], whatever the checker says), opt_log 787-788.  Results queue and pipes are new; control files in the
    directory are left to the new world. *)
Definition loaded (c : core) (lg : logger) (packs : list (nat * nat)) (conv : bool) : core :=
  mkK (map dormant packs) (k_grave c) (k_victims c) (k_f c) (k_o c) (k_conv c) (k_hunts c) (k_last_hunt c) (k_spawn c)
      false (0, 0) (k_result c) lg (k_last_iter c) conv [] [] false 0.

(** load_checkpoint with the settings [g] (keywords override the stored ones, 757-773); [builds i]: optimizer [i] can be
    built.  Reading the archive, the task, the scope and the log file (C40, C59) are not part of it. *)
Definition load (g : config) (k : ckpt) (builds : nat -> bool) (conv : bool) : res core :=
  match restarts (ck_found k) (ck_hist k) with
  | Err e => Err e
  | Ok saved => match rebuild (g_max_jobs g) saved builds with
                | Err e => Err e
                | Ok packs => Ok (loaded (ck_core k) (ck_log k) packs conv)
                end
  end.

(** The session which follows: the history goes on after the checkpoint. *)
Definition begin (k : ckpt) (c : core) : mstate := mkMS c ((c, EvLoad) :: (ck_core k, EvSaveManager) :: ck_hist k).
Definition resume (g : config) (w : world) (limit : nat) (k : ckpt) (c : core) : res (option reason * result) * mstate :=
  start_manager g w limit (begin k c).
