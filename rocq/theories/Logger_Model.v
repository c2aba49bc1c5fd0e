(** * BaseLogger: the in-memory evaluation log
    Source: glompo/core/optimizerlogger.py lines 25-316 (class BaseLogger). *)
From Verif Require Export Prelude.

(** common/namedtuples.py IterationResult.  Vectors and the extra columns of a
    detailed call are lists of numbers; the log never looks inside them. *)
Record iterres := mkIR { ir_opt : nat; ir_x : list num; ir_fx : num; ir_extras : list num }.

(** One dictionary of optimizerlogger.py 62-63 and 85:
    {'opt_id':, 'x':, 'fx':, 'type':, 'call_id':}. *)
Record brec := mkB { b_opt : nat; b_x : list num; b_fx : num; b_type : string; b_call : nat }.

(** A cell of a history column. *)
Inductive cell := CId (n : nat) | CX (x : list num) | CF (f : num).

(** One value of [_storage] (lines 86-87, 91-96): metadata, messages, and the
    iteration columns in insertion order.  Metadata values are kept as opaque
    strings (times and end conditions are never inspected by the log).  In the
    source the keys 'metadata' and 'messages' share the dictionary with the
    columns; here they are separate, so an extra header with one of these two
    names is outside the model. *)
Record entry := mkE { e_meta : list (string * string); e_msgs : list string; e_cols : list (string * list cell) }.

(** Attributes of BaseLogger (lines 60-67).  Best records are mutable
    dictionaries shared between [_best_iters] and [_best_iter], so they live in
    a heap and both tables hold addresses.  [_figure_data] is never read. *)
Record logger := mkL {
  l_count : nat;                 (* _f_counter *)
  l_heap  : list brec;           (* the dict objects *)
  l_bests : list (nat * nat);    (* _best_iters: opt_id -> address *)
  l_best  : nat;                 (* _best_iter: address *)
  l_max   : num;                 (* _max_eval *)
  l_store : list (nat * entry);  (* _storage *)
  l_traj  : bool                 (* build_traj_plot *)
}.

Definition no_best : brec := mkB 0 [] PInf "" 0.

(** __init__, lines 60-67. *)
Definition log_init (traj : bool) : logger :=
  mkL 0 [no_best; no_best] [(0, 0)] 1 NInf [] traj.

Definition set_count n s := mkL n (l_heap s) (l_bests s) (l_best s) (l_max s) (l_store s) (l_traj s).
Definition set_heap h s := mkL (l_count s) h (l_bests s) (l_best s) (l_max s) (l_store s) (l_traj s).
Definition set_bests b s := mkL (l_count s) (l_heap s) b (l_best s) (l_max s) (l_store s) (l_traj s).
Definition set_best b s := mkL (l_count s) (l_heap s) (l_bests s) b (l_max s) (l_store s) (l_traj s).
Definition set_max m s := mkL (l_count s) (l_heap s) (l_bests s) (l_best s) m (l_store s) (l_traj s).
Definition set_store d s := mkL (l_count s) (l_heap s) (l_bests s) (l_best s) (l_max s) d (l_traj s).

(** n_optimizers, lines 36-39. *)
Definition n_optimizers (s : logger) : nat := length (l_store s).
(** largest_eval, lines 41-44. *)
Definition largest_eval (s : logger) : num := l_max s.
(** __contains__, lines 69-71. *)
Definition log_contains (i : nat) (s : logger) : bool := nmemd i (l_store s).
(** __len__, lines 73-75. *)
Definition log_len (s : logger) : nat := l_count s.

(** has_iter_history, lines 98-100. *)
Definition has_iter_history (i : nat) (s : logger) : bool :=
  match nget i (l_store s) with
  | Some e => smemd "fx" (e_cols e)
  | None => false
  end.

(** len, lines 77-81. *)
Definition len_opt (i : nat) (s : logger) : nat :=
  if has_iter_history i s then
    match nget i (l_store s) with
    | Some e => match sget "fx" (e_cols e) with Some c => length c | None => 0 end
    | None => 0
    end
  else 0.

(** add_optimizer, lines 83-87: a fresh dictionary object for the best record. *)
Definition add_optimizer (i : nat) (ty t_start : string) : M logger unit :=
  modify (fun s =>
    let a := length (l_heap s) in
    let s := set_heap (l_heap s ++ [mkB i [] PInf ty 0]) s in
    let s := set_bests (nset i a (l_bests s)) s in
    set_store (nset i (mkE [("opt_id", ""); ("opt_type", ty); ("t_start", t_start)]%string [] []) (l_store s)) s).

Definition reset_cols (hdrs : list string) (c : list (string * list cell)) : list (string * list cell) :=
  fold_left (fun c k => sset k [] c) hdrs c.

(** add_iter_history, lines 89-96.  [hdrs] are the keys of [extra_headers]. *)
Definition add_iter_history (i : nat) (hdrs : list string) : M logger unit :=
  fun s => match nget i (l_store s) with
           | None => (Err KeyError, s)
           | Some e =>
               let cols := reset_cols (["call_id"; "x"; "fx"]%string ++ hdrs) (e_cols e) in
               (Ok tt, set_store (nset i (mkE (e_meta e) (e_msgs e) cols) (l_store s)) s)
           end.

(** clear_cache, lines 102-111.  [None] is the default argument; 0 is falsy as well. *)
Definition clear_cache (i : option nat) : M logger unit :=
  fun s =>
    if l_traj s then (Ok tt, s)
    else match i with
         | None | Some 0 => (Ok tt, set_store [] s)
         | Some k => if nmemd k (l_store s) then (Ok tt, set_store (ndel k (l_store s)) s)
                     else (Err KeyError, s)
         end.

(** put_metadata, lines 113-115. *)
Definition put_metadata (i : nat) (k v : string) : M logger unit :=
  fun s => match nget i (l_store s) with
           | None => (Err KeyError, s)
           | Some e => (Ok tt, set_store (nset i (mkE (sset k v (e_meta e)) (e_msgs e) (e_cols e)) (l_store s)) s)
           end.

(** put_message, lines 120-122. *)
Definition put_message (i : nat) (m : string) : M logger unit :=
  fun s => match nget i (l_store s) with
           | None => (Err KeyError, s)
           | Some e => (Ok tt, set_store (nset i (mkE (e_meta e) (e_msgs e ++ [m]) (e_cols e)) (l_store s)) s)
           end.

(** The loop of lines 139-143: zip of the storage keys with the values; the two
    leading keys 'metadata' and 'messages' meet the two leading [None]s and are skipped. *)
Fixpoint zip_append (cols : list (string * list cell)) (vals : list cell) : list (string * list cell) :=
  match cols, vals with
  | (k, c) :: cols', v :: vals' => (k, c ++ [v]) :: zip_append cols' vals'
  | _, _ => cols
  end.

Fixpoint set_nth {A} (n : nat) (a : A) (l : list A) : list A :=
  match n, l with
  | 0, _ :: l' => a :: l'
  | S n', b :: l' => b :: set_nth n' a l'
  | _, [] => []
  end.

(** Lines 128-134: update the optimizer's best record in place, then let
    [_best_iter] point at it if it beats the overall best.  Line 133 reads
    [_best_iter] after the in-place update (the two may be the same object). *)
Definition put_best (r : iterres) : M logger unit :=
  fun s => match nget (ir_opt r) (l_bests s) with
           | None => (Err KeyError, s)
           | Some a =>
               match nth_error (l_heap s) a with
               | None => (Err KeyError, s)
               | Some b =>
                   if nlt (ir_fx r) (b_fx b) then
                     let h := set_nth a (mkB (b_opt b) (ir_x r) (ir_fx r) (b_type b) (l_count s)) (l_heap s) in
                     let s := set_heap h s in
                     match nth_error (l_heap s) (l_best s) with
                     | None => (Err KeyError, s)
                     | Some g => (Ok tt, if nlt (ir_fx r) (b_fx g) then set_best a s else s)
                     end
                   else (Ok tt, s)
               end
           end.

(** Lines 136-137. *)
Definition put_max (r : iterres) : M logger unit :=
  modify (fun s => if nlt (l_max s) (ir_fx r) && nfinite (ir_fx r) then set_max (ir_fx r) s else s).

(** Lines 139-143. *)
Definition put_row (r : iterres) : M logger unit :=
  fun s => match nget (ir_opt r) (l_store s) with
           | None => (Err KeyError, s)
           | Some e =>
               let vals := CId (l_count s) :: CX (ir_x r) :: CF (ir_fx r) :: map CF (ir_extras r) in
               (Ok tt, set_store (nset (ir_opt r) (mkE (e_meta e) (e_msgs e) (zip_append (e_cols e) vals)) (l_store s)) s)
           end.

(** put_iteration, lines 124-143. *)
Definition put_iteration (r : iterres) : M logger unit :=
  modify (fun s => set_count (S (l_count s)) s) ;;; put_best r ;;; put_max r ;;; put_row r.

(** get_best_iter, lines 145-151. *)
Definition get_best_iter (i : option nat) (s : logger) : res brec :=
  match i with
  | None | Some 0 => match nth_error (l_heap s) (l_best s) with Some b => Ok b | None => Err KeyError end
  | Some k => match nget k (l_bests s) with
              | Some a => match nth_error (l_heap s) a with Some b => Ok b | None => Err KeyError end
              | None => Err KeyError
              end
  end.

(** get_history, lines 153-171. *)
Definition get_history (i : nat) (track : string) (s : logger) : res (list cell) :=
  if has_iter_history i s then
    match nget i (l_store s) with
    | Some e => match sget track (e_cols e) with Some c => Ok c | None => Err KeyError end
    | None => Err KeyError
    end
  else Ok [].

(** get_metadata, lines 173-175. *)
Definition get_metadata (i : nat) (k : string) (s : logger) : res string :=
  match nget i (l_store s) with
  | Some e => match sget k (e_meta e) with Some v => Ok v | None => Err KeyError end
  | None => Err KeyError
  end.

(** close, lines 293-295. *)
Definition log_close : M logger unit := clear_cache None.

(** The public mutators as operations, and their execution; a raised exception
    leaves the mutations made so far (callers may catch it and go on). *)
Inductive lop :=
  | AddOpt (i : nat) (ty t : string)
  | AddHist (i : nat) (hdrs : list string)
  | PutIter (r : iterres)
  | ClearCache (i : option nat)
  | PutMeta (i : nat) (k v : string)
  | PutMsg (i : nat) (m : string).

Definition lstep (o : lop) : M logger unit :=
  match o with
  | AddOpt i ty t => add_optimizer i ty t
  | AddHist i h => add_iter_history i h
  | PutIter r => put_iteration r
  | ClearCache i => clear_cache i
  | PutMeta i k v => put_metadata i k v
  | PutMsg i m => put_message i m
  end.

Definition lexec (ops : list lop) (s : logger) : logger :=
  fold_left (fun s o => snd (lstep o s)) ops s.
