(** * Resuming from a checkpoint: glompo/core/manager.py, load_checkpoint and the beginning of start_manager *)
From Verif Require Import Prelude Logger_Model FileLogger_Model.

(** ** The slots of the restarted optimizers, load_checkpoint 821-838 *)
(** [saved]: ids found in the checkpoint with the slots they had; ids are the keys of a dictionary, max_jobs a
    non-negative integer.  int(a / b) of non-negative integers is the integer quotient (the float quotient is not
    modelled). *)
Definition apportion (max_jobs : nat) (saved : list (nat * nat)) : res (list (nat * nat)) :=
  if Nat.ltb max_jobs (sum_nat (map snd saved)) then
    let new_slots := max_jobs / length saved in
    if Nat.ltb new_slots 1 then Err CheckpointingError
    else Ok (map (fun p => (fst p, new_slots)) saved)
  else Ok saved.

(** Rebuilding the children, 841-888: [builds i] tells whether optimizer [i] could be constructed; those that cannot are
    left out with a warning. *)
Definition rebuild (max_jobs : nat) (saved : list (nat * nat)) (builds : nat -> bool) : res (list (nat * nat)) :=
  match apportion max_jobs saved with
  | Err e => Err e
  | Ok restarts =>
      let packs := filter (fun p => builds (fst p)) restarts in
      match packs, restarts with
      | [], _ :: _ => Err CheckpointingError
      | _, _ => Ok packs
      end
  end.

(** ** Rolling the log file back, start_manager 926-956 *)
(** The HDF5 file as found on disk.  [h_count] is the root attribute f_counter, which only FileLogger.close writes. *)
Record file := mkFile { h_sum : string; h_count : option nat; h_groups : list (nat * group) }.

(** np.searchsorted(ids, key, 'right'): bisection. *)
Fixpoint bisect (fuel : nat) (ids : list nat) (key lo hi : nat) : nat :=
  match fuel with
  | 0 => lo
  | S k => if Nat.ltb lo hi then
             let mid := lo + (hi - lo) / 2 in
             if Nat.leb (nth mid ids 0) key then bisect k ids key (S mid) hi else bisect k ids key lo mid
           else lo
  end.
Definition searchsorted_right (ids : list nat) (key : nat) : nat := bisect (length ids) ids key 0 (length ids).

(** Lines 948-951; remove_rows(start) removes that row and all later ones. *)
Definition cut_table (f : nat) (t : table) : table := mkT (t_hdrs t) (firstn (searchsorted_right (map rw_call (t_rows t)) f) (t_rows t)).
Definition cut_group (f : nat) (g : group) : group := mkG (g_attrs g) (g_msgs g) (option_map (cut_table f) (g_table g)).

Inductive peeked := Rolled (f : file) | BadChecksum | NoCounter.    (* KeyError 935; AttributeError 939 *)
(** [sum], [f] and [o] are _checksum, f_counter and o_counter of the manager in the checkpoint. *)
Definition roll_back (sum : string) (f o : nat) (h : file) : peeked :=
  if String.eqb (h_sum h) sum then
    match h_count h with
    | None => NoCounter
    | Some n =>
        if Nat.ltb f n then
          Rolled (mkFile (h_sum h) (h_count h)
                    (filter (fun p => Nat.leb (fst p) o) (map (fun p => (fst p, cut_group f (snd p))) (h_groups h))))
        else Rolled h
    end
  else BadChecksum.

(** What a log leaves on disk when it was closed (FileLogger.close 519-530), and when the process died: the rows written
    so far are there, the counter is the one left by the last session which closed the file, if any ([old]). *)
Definition closed_file (sum : string) (s : flogger) : file := mkFile sum (Some (l_count (f_base s))) (f_groups s).
Definition dead_file (sum : string) (old : option nat) (s : flogger) : file := mkFile sum old (f_groups s).

(** The log of the resumed run: the memory part from the checkpoint (FileLogger.checkpoint_save 532-533, checkpoint_load
    47-58), the nodes from the file (open in mode 'a', 514-518). *)
Definition resumed (saved : flogger) (h : file) : flogger := fset_groups (h_groups h) saved.
