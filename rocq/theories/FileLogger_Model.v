(** * FileLogger: the HDF5 backed evaluation log
    Source: glompo/core/optimizerlogger.py lines 320-533 (class FileLogger(BaseLogger)).

    The HDF5 file is a map from optimizer id to its group.  A group has
    attributes, a message array and possibly the table 'iter_hist'; a table is
    its extra headers and the list of rows.  Column types are not modelled: a
    row is stored as given (call_id is an unsigned 32 bit column, x and fx are
    float64 columns).  An HDF5 failure in put_manager_metadata is only a warning
    in the source and is not modelled; the root attributes are [f_root].
    The message array of a group and best_iter attributes are not read by anyone
    in glompo; they are written as opaque strings. *)
From Verif Require Export Logger_Model.

Record row := mkRow { rw_call : nat; rw_x : list num; rw_fx : num; rw_extras : list num }.

Record table := mkT { t_hdrs : list string; t_rows : list row }.

Record group := mkG { g_attrs : list (string * string); g_msgs : list string; g_table : option table }.

(** Attributes set in lines 339-349 plus the file.  [_groups] and [_tables] are
    caches of the file nodes; after [open] in mode 'w' an id is in [_tables] iff
    the file has that table, so both are read off [f_groups]. *)
Record flogger := mkF {
  f_base : logger;                     (* the BaseLogger part *)
  f_ocount : nat;                      (* _o_counter *)
  f_chunk : list (nat * list row);     (* _writing_chunk *)
  f_est : N;                           (* _est_iter_size *)
  f_groups : list (nat * group);       (* the file *)
  f_root : list (string * string)      (* root attributes written by close *)
}.

Definition fset_base b s := mkF b (f_ocount s) (f_chunk s) (f_est s) (f_groups s) (f_root s).
Definition fset_ocount n s := mkF (f_base s) n (f_chunk s) (f_est s) (f_groups s) (f_root s).
Definition fset_chunk c s := mkF (f_base s) (f_ocount s) c (f_est s) (f_groups s) (f_root s).
Definition fset_est e s := mkF (f_base s) (f_ocount s) (f_chunk s) e (f_groups s) (f_root s).
Definition fset_groups g s := mkF (f_base s) (f_ocount s) (f_chunk s) (f_est s) g (f_root s).
Definition fset_root r s := mkF (f_base s) (f_ocount s) (f_chunk s) (f_est s) (f_groups s) r.

(** __init__ (335-349) followed by open(path, 'w', ...) (498-513). *)
Definition flog_init (traj : bool) : flogger := mkF (log_init traj) 0 [] 0%N [] [].

(** Run a BaseLogger method on the base part. *)
Definition on_base {A} (m : M logger A) : M flogger A :=
  fun s => let (r, b) := m (f_base s) in (r, fset_base b s).

(** [except KeyError: pass] around a base call. *)
Definition swallow_key (m : M flogger unit) : M flogger unit :=
  try_except m (fun e => match e with KeyError => true | _ => false end) (fun _ => ret tt).

(** _tables of an optimizer, lines 402-403 and 465-469. *)
Definition f_table (i : nat) (s : flogger) : option table :=
  match nget i (f_groups s) with Some g => g_table g | None => None end.

(** has_iter_history, lines 402-403. *)
Definition f_has_iter_history (i : nat) (s : flogger) : bool :=
  match f_table i s with Some _ => true | None => false end.

(** n_optimizers, lines 354-356. *)
Definition f_n_optimizers (s : flogger) : nat := f_ocount s.
(** __len__ and largest_eval are inherited (73-75, 41-44). *)
Definition f_log_len (s : flogger) : nat := log_len (f_base s).
Definition f_largest_eval (s : flogger) : num := largest_eval (f_base s).
(** get_best_iter is inherited (145-151). *)
Definition f_get_best_iter (i : option nat) (s : flogger) : res brec := get_best_iter i (f_base s).

(** BaseLogger.len (77-81) and BaseLogger.get_history (153-171) as inherited:
    they call the overridden has_iter_history and then look in the memory part. *)
Definition super_column (i : nat) (track : string) (s : flogger) : res (list cell) :=
  match nget i (l_store (f_base s)) with
  | None => Err KeyError
  | Some e => match sget track (e_cols e) with Some c => Ok c | None => Err KeyError end
  end.

(** len, lines 358-364. *)
Definition f_len_opt (i : nat) (s : flogger) : nat :=
  match f_table i s with
  | None => 0
  | Some t => match super_column i "fx" s with
              | Ok c => length c
              | Err _ => length (t_rows t)
              end
  end.

(** add_optimizer, lines 366-383; create_group raises if the node exists. *)
Definition f_add_optimizer (i : nat) (ty t : string) : M flogger unit :=
  on_base (add_optimizer i ty t) ;;;
  fun s =>
    if nmemd i (f_groups s) then (Err ValueError, s)
    else
      let s := fset_groups (nset i (mkG [("opt_id", ""); ("opt_type", ty); ("t_start", t)] [] None) (f_groups s)) s in
      let s := fset_chunk (nset i [] (f_chunk s)) s in
      (Ok tt, fset_ocount (S (f_ocount s)) s).

(** add_iter_history, lines 385-400: no extra columns in memory; create_table
    raises if the group does not exist or already has the table. *)
Definition f_add_iter_history (i : nat) (hdrs : list string) : M flogger unit :=
  on_base (add_iter_history i []) ;;;
  fun s =>
    match nget i (f_groups s) with
    | None => (Err KeyError, s)
    | Some g =>
        match g_table g with
        | Some _ => (Err ValueError, s)
        | None => (Ok tt, fset_groups (nset i (mkG (g_attrs g) (g_msgs g) (Some (mkT hdrs []))) (f_groups s)) s)
        end
    end.

(** put_metadata, lines 420-425. *)
Definition f_put_metadata (i : nat) (k v : string) : M flogger unit :=
  swallow_key (on_base (put_metadata i k v)) ;;;
  fun s =>
    match nget i (f_groups s) with
    | None => (Err KeyError, s)
    | Some g => (Ok tt, fset_groups (nset i (mkG (sset k v (g_attrs g)) (g_msgs g) (g_table g)) (f_groups s)) s)
    end.

(** put_message, lines 436-440 (the KeyError of the memory part is not caught). *)
Definition f_put_message (i : nat) (m : string) : M flogger unit :=
  on_base (put_message i m) ;;;
  fun s =>
    match nget i (f_groups s) with
    | None => (Err KeyError, s)
    | Some g => (Ok tt, fset_groups (nset i (mkG (g_attrs g) (g_msgs g ++ [m]) (g_table g)) (f_groups s)) s)
    end.

(** get_metadata, lines 442-446. *)
Definition f_get_metadata (i : nat) (k : string) (s : flogger) : res string :=
  match get_metadata i k (f_base s) with
  | Ok v => Ok v
  | Err _ => match nget i (f_groups s) with
             | Some g => match sget k (g_attrs g) with Some v => Ok v | None => Err KeyError end
             | None => Err KeyError
             end
  end.

(** One turn of the loop of flush, lines 477-483.  table.append raises when a row
    does not have the columns of the table. *)
Definition flush_one (i : nat) : M flogger unit :=
  fun s =>
    match nget i (f_chunk s) with
    | None => (Err KeyError, s)
    | Some [] => (Ok tt, s)
    | Some rows =>
        match nget i (l_bests (f_base s)) with
        | None => (Err KeyError, s)
        | Some _ =>
            (f_put_metadata i "best_iter" "" ;;;
             fun s =>
               match nget i (f_groups s) with
               | None => (Err KeyError, s)
               | Some g =>
                   match g_table g with
                   | None => (Err KeyError, s)
                   | Some t =>
                       if forallb (fun r => Nat.eqb (length (rw_extras r)) (length (t_hdrs t))) rows then
                         let s := fset_groups (nset i (mkG (g_attrs g) (g_msgs g) (Some (mkT (t_hdrs t) (t_rows t ++ rows))))
                                                    (f_groups s)) s in
                         (Ok tt, fset_chunk (nset i [] (f_chunk s)) s)
                       else (Err ValueError, s)
                   end
               end) s
        end
    end.

(** flush, lines 471-483. *)
Definition f_flush (i : option nat) : M flogger unit :=
  match i with
  | None | Some 0 => fun s => for_each (dkeys (f_chunk s)) flush_one s
  | Some k => flush_one k
  end.

(** One turn of the loop of clear_cache, lines 490-496. *)
Definition clear_one (i : nat) : M flogger unit :=
  (fun s => if nmemd i (f_chunk s) then
              (flush_one i ;;; modify (fun s => fset_chunk (ndel i (f_chunk s)) s)) s
            else (Ok tt, s)) ;;;
  (fun s => if nmemd i (l_store (f_base s)) then on_base (clear_cache (Some i)) s else (Ok tt, s)).

(** clear_cache, lines 485-496. *)
Definition f_clear_cache (i : option nat) : M flogger unit :=
  match i with
  | None | Some 0 => fun s => for_each (seq 1 (f_ocount s)) clear_one s
  | Some k => clear_one k
  end.

(** put_iteration, lines 405-418.  [sz] is the result of deepsizeof (an oracle). *)
Definition f_put_iteration (sz : iterres -> N) (r : iterres) : M flogger unit :=
  swallow_key (on_base (put_iteration r)) ;;;
  modify (fun s => if N.eqb (f_est s) 0 then fset_est (sz r) s else s) ;;;
  (fun s =>
     match nget (ir_opt r) (f_chunk s) with
     | None => (Err KeyError, s)
     | Some rows =>
         (Ok tt, fset_chunk (nset (ir_opt r) (rows ++ [mkRow (l_count (f_base s)) (ir_x r) (ir_fx r) (ir_extras r)])
                                  (f_chunk s)) s)
     end) ;;;
  (fun s =>
     if N.ltb 100000000 (f_est s * N.of_nat (sum_nat (map (fun p => length (snd p)) (f_chunk s))))
     then f_flush (Some (ir_opt r)) s
     else (Ok tt, s)).

(** A column of the table, as table.col returns it. *)
Definition table_col (t : table) (track : string) : res (list cell) :=
  if String.eqb track "call_id" then Ok (map (fun r => CId (rw_call r)) (t_rows t))
  else if String.eqb track "x" then Ok (map (fun r => CX (rw_x r)) (t_rows t))
  else if String.eqb track "fx" then Ok (map (fun r => CF (rw_fx r)) (t_rows t))
  else match find (fun p => String.eqb track (snd p)) (combine (seq 0 (length (t_hdrs t))) (t_hdrs t)) with
       | None => Err KeyError
       | Some (j, _) => Ok (flat_map (fun r => match nth_error (rw_extras r) j with Some v => [CF v] | None => [] end) (t_rows t))
       end.

(** get_history, lines 448-457: the flush may raise as well. *)
Definition f_get_history (i : nat) (track : string) : M flogger (list cell) :=
  fun s =>
    match f_table i s with
    | None => (Ok [], s)
    | Some _ =>
        match super_column i track s with
        | Ok c => (Ok c, s)
        | Err _ => (f_flush (Some i) ;;;
                    fun s => match f_table i s with
                             | Some t => (table_col t track, s)
                             | None => (Err KeyError, s)
                             end) s
        end
    end.

(** close, lines 519-530. *)
Definition f_close : M flogger unit :=
  modify (fun s => fset_root [("opts_started", ""); ("f_counter", ""); ("best_iter", ""); ("best_iters", ""); ("max_eval", "")] s) ;;;
  f_flush None.

(** Operations: those of the memory log, and flush. *)
Inductive fop := FOp (o : lop) | FFlush (i : option nat).

Definition fstep (sz : iterres -> N) (o : fop) : M flogger unit :=
  match o with
  | FOp (AddOpt i ty t) => f_add_optimizer i ty t
  | FOp (AddHist i h) => f_add_iter_history i h
  | FOp (PutIter r) => f_put_iteration sz r
  | FOp (ClearCache i) => f_clear_cache i
  | FOp (PutMeta i k v) => f_put_metadata i k v
  | FOp (PutMsg i m) => f_put_message i m
  | FFlush i => f_flush i
  end.

Definition fexec (sz : iterres -> N) (ops : list fop) (s : flogger) : flogger :=
  fold_left (fun s o => snd (fstep sz o s)) ops s.
