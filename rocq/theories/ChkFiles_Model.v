(** * The files of a checkpoint: GloMPOManager.checkpoint, glompo/core/manager.py 1098-1196

    One checkpoint name.  The program is a machine of single steps, so that the process may die between (and, where a
    file is written, during) any two file operations: the disk after any number of steps is what a later process finds.
    Not modelled: the other archives in the directory (see ChkNames), what is in the files. *)
From Verif Require Import Prelude.

(** An archive: complete with the content of checkpoint [n], or cut off. *)
Inductive copy := Whole (n : nat) | Torn.
(** name.tar.gz, _overwriting_chkpt.tar.gz, the directory name/, and (not on disk) whether the name is in
    checkpoint_history. *)
Record disk := mkDisk { d_tar : option copy; d_ovw : option copy; d_dir : bool; d_hist : bool }.

Inductive failure := FTar | FCheckpointing | FOther.    (* TarError, CheckpointingError, any other exception *)
(** Where the program is. *)
Inductive place :=
  | AtMkdir           (* 1123 *)
  | AtLog             (* 1130-1132 *)
  | AtHistory         (* 1135-1140 *)
  | AtParts           (* 1142-1149 *)
  | AtExists          (* 1154 *)
  | AtReplace         (* 1159-1160 *)
  | AtOpen            (* 1163 *)
  | AtWrite           (* 1164 *)
  | AtRestore         (* 1166-1170 *)
  | AtCleanUp         (* 1173-1181 *)
  | AtHandler         (* 1183-1191 *)
  | AtRmtree          (* 1193 *)
  | AtUnlink          (* 1194-1195 *)
  | AtEnd (o : option failure).   (* returned, or left by an exception *)
Record machine := mkM { m_at : place; m_ovw : bool; m_exc : option failure; m_disk : disk }.

(** What the surroundings may do at a step: the operation succeeds, it fails, or - for the clean-up - it succeeds and
    takes the new archive with it (C35_new_checkpoint_deleted_refuted). *)
Inductive choice := Go | Fail (f : failure) | Sweep.

Definition set_tar (c : option copy) (d : disk) := mkDisk c (d_ovw d) (d_dir d) (d_hist d).
Definition set_ovw (c : option copy) (d : disk) := mkDisk (d_tar d) c (d_dir d) (d_hist d).
Definition set_dir (b : bool) (d : disk) := mkDisk (d_tar d) (d_ovw d) b (d_hist d).
Definition set_hist (b : bool) (d : disk) := mkDisk (d_tar d) (d_ovw d) (d_dir d) b.

(** An exception inside the outer try: CheckpointingError goes to the handler, all others to finally. *)
Definition throw (f : failure) (m : machine) (d : disk) : machine :=
  match f with
  | FCheckpointing => mkM AtHandler (m_ovw m) (Some f) d
  | _ => mkM AtRmtree (m_ovw m) (Some f) d
  end.

(** One step of checkpoint number [n]; [strict] is raise_checkpoint_fail.  [None]: this choice is not possible here. *)
Definition step (strict : bool) (n : nat) (c : choice) (m : machine) : option machine :=
  let d := m_disk m in
  let goto p d' := Some (mkM p (m_ovw m) (m_exc m) d') in
  match m_at m, c with
  | AtMkdir, Go => goto AtLog (set_dir true d)                        (* outside the try *)
  | AtMkdir, Fail FOther => Some (mkM (AtEnd (Some FOther)) (m_ovw m) (m_exc m) d)
  | AtLog, Go => goto AtHistory d
  | AtLog, Fail FOther => Some (throw FOther m d)
  | AtHistory, Go => goto AtParts (set_hist true d)
  | AtParts, Go => goto AtExists d
  | AtParts, Fail FCheckpointing => Some (throw FCheckpointing m d)
  | AtParts, Fail FOther => Some (throw FOther m d)
  | AtExists, Go => match d_tar d with Some _ => goto AtReplace d | None => goto AtOpen d end
  | AtReplace, Go => Some (mkM AtOpen true (m_exc m) (set_ovw (d_tar d) (set_tar None d)))  (* rename: replaces the target *)
  | AtReplace, Fail FOther => Some (throw FOther m d)
  | AtOpen, Go => match d_tar d with
                  | None => goto AtWrite (set_tar (Some Torn) d)
                  | Some _ => Some (throw FOther m d)                 (* FileExistsError *)
                  end
  | AtOpen, Fail FOther => Some (throw FOther m d)
  | AtOpen, Fail FTar => goto AtRestore d
  | AtWrite, Go => goto AtCleanUp (set_tar (Some (Whole n)) d)
  | AtWrite, Fail FTar => goto AtRestore d                            (* what was written so far stays *)
  | AtWrite, Fail FOther => Some (throw FOther m d)                   (* OSError (disk full), KeyboardInterrupt, ... *)
  | AtRestore, Go => Some (throw FCheckpointing m (if m_ovw m then set_ovw None (set_tar (d_ovw d) d) else d))
  | AtRestore, Fail FOther => if m_ovw m then Some (throw FOther m d) else None
  | AtCleanUp, Go => goto AtRmtree d
  | AtCleanUp, Sweep => goto AtRmtree (set_tar None d)
  | AtCleanUp, Fail FOther => Some (throw FOther m d)
  | AtHandler, Go => Some (mkM AtRmtree (m_ovw m) (if strict then m_exc m else None) (set_hist false d))
  | AtRmtree, Go => goto AtUnlink (set_dir false d)
  | AtUnlink, Go => Some (mkM (AtEnd (m_exc m)) (m_ovw m) (m_exc m) (set_ovw None d))
  | AtUnlink, Fail FOther => match d_ovw d with Some _ => Some (mkM (AtEnd (Some FOther)) (m_ovw m) (m_exc m) d) | None => None end
  | _, _ => None
  end.
Fixpoint steps (strict : bool) (n : nat) (cs : list choice) (m : machine) : option machine :=
  match cs with
  | [] => Some m
  | c :: cs' => match step strict n c m with Some m' => steps strict n cs' m' | None => None end
  end.
Definition start (d : disk) : machine := mkM AtMkdir false None d.

(** A process that makes one checkpoint and ends or dies after these choices; then another one. *)
Fixpoint lives (strict : bool) (runs : list (nat * list choice)) (d : disk) : option disk :=
  match runs with
  | [] => Some d
  | (n, cs) :: rs => match steps strict n cs (start d) with Some m => lives strict rs (m_disk m) | None => None end
  end.
