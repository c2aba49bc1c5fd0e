(** * Keyword arguments of optimizers: from the selector to the constructor and to minimize *)
From Verif Require Export Prelude.

(** Values: texts, numbers, and objects with a state of their own (callbacks, hooks), which are held by reference. *)
Inductive val := VText (s : string) | VNum (n : nat) | VRef (a : nat).
Definition kws := list (string * val).

(** Memory of the manager: the dictionaries of the user, and the objects, each reduced to a counter.  Objects do not refer to other objects. *)
Record heap := mkHeap { h_dicts : list kws; h_cells : list nat }.

Fixpoint upd {A} (i : nat) (f : A -> A) (l : list A) : list A :=
  match l, i with
  | [], _ => []
  | a :: l, 0 => f a :: l
  | a :: l, S i => a :: upd i f l
  end.

(** What a user passes to a selector: a class, or a class with two dictionaries, either of which may be None. *)
Inductive item := IClass (c : string) | ITuple (c : string) (init call : option nat).
Record entry := mkE { e_class : string; e_init : nat; e_call : nat }.

(** [{}] or a given dictionary *)
Definition dict_or_new (o : option nat) (ds : list kws) : nat * list kws :=
  match o with Some a => (a, ds) | None => (length ds, ds ++ [[]]) end.

(** opt_selectors/baseselector.py 70-93.  The user's own dictionary gets the number of workers.  The checks of the types are in [Selectors_Model]. *)
Definition parse_item (it : item) (ds : list kws) : entry * list kws :=
  match it with
  | IClass c => (mkE c (length ds) (S (length ds)), ds ++ [[("workers", VNum 1)]; []])
  | ITuple c i k =>
    let '(a, ds) := dict_or_new i ds in
    let '(b, ds) := dict_or_new k ds in
    (mkE c a b, upd a (fun d => if smemd "workers" d then d else d ++ [("workers", VNum 1)]) ds)
  end.
Fixpoint parse_items (l : list item) (ds : list kws) : list entry * list kws :=
  match l with
  | [] => ([], ds)
  | it :: l => let '(e, ds) := parse_item it ds in let '(es, ds) := parse_items l ds in (e :: es, ds)
  end.

(** copy.deepcopy of one dictionary: an object met twice is copied once ([memo]). *)
Fixpoint dcopy (memo : list (nat * nat)) (d : kws) (cells : list nat) : kws * list nat :=
  match d with
  | [] => ([], cells)
  | (k, VRef a) :: d =>
    match nget a memo with
    | Some b => let '(d', cells) := dcopy memo d cells in ((k, VRef b) :: d', cells)
    | None =>
      match nth_error cells a with
      | Some c => let '(d', cells') := dcopy ((a, length cells) :: memo) d (cells ++ [c]) in ((k, VRef (length cells)) :: d', cells')
      | None => let '(d', cells) := dcopy memo d cells in ((k, VRef a) :: d', cells)
      end
    end
  | (k, v) :: d => let '(d', cells) := dcopy memo d cells in ((k, v) :: d', cells)
  end.

(** A started optimizer.  [o_mem]: its own memory if it is a process, [None] for a thread. *)
Record optim := mkOpt { o_class : string; o_backend : val; o_init : kws; o_call : kws; o_slots : val; o_mem : option (list nat) }.

(** [s_sel]: the entries of the selector, [s_opts]: the optimizers in order, so that optimizer [i] is at position [i - 1]. *)
Record st := mkSt { s_heap : heap; s_sel : list entry; s_opts : list optim }.
Record mode := mkMode { proc_backend : bool; opts_daemonic : bool }.

(** Arguments given to the constructor by name beside the user's (manager.py 1341-1347). *)
Definition reserved : list string := ["_opt_id"; "_signal_pipe"; "_results_queue"; "_pause_flag"; "is_log_detailed"].

Definition default_backend (m : mode) : val := VText (if opts_daemonic m then "threads" else "processes").

(** core/manager.py 600-604, [None] is the fallback for other words, which has the same value as "processes". *)
Definition mode_of (backend : string) : mode :=
  if String.eqb backend "threads" then mkMode false true
  else if String.eqb backend "processes_forced" then mkMode true false
  else mkMode true true.

(** core/manager.py _setup_new_optimizer 1321-1352 for the selected entry, and _start_new_job 1262-1289: a process gets a copy of the memory when
    it is started, a thread works in the memory of the manager.  [del init_kwargs['backend']] changes the dictionary of the selector
    unless it was copied.  The constructor raises TypeError for an argument given twice. *)
Definition setup_new (m : mode) (e : entry) (s : st) : res st :=
  match nth_error (h_dicts (s_heap s)) (e_init e), nth_error (h_dicts (s_heap s)) (e_call e) with
  | Some di, Some dc =>
    let '(init, cells) := if proc_backend m then (di, h_cells (s_heap s)) else dcopy [] di (h_cells (s_heap s)) in
    let '(call, cells) := if proc_backend m then (dc, cells) else dcopy [] dc cells in
    let '(backend, init') := match sget "backend" init with
                             | Some b => (b, ddel String.eqb "backend" init)
                             | None => (default_backend m, init)
                             end in
    let dicts := if proc_backend m then upd (e_init e) (fun _ => init') (h_dicts (s_heap s)) else h_dicts (s_heap s) in
    if existsb (fun k => smemd k init') reserved then Err TypeError
    else match sget "workers" init' with
         | None => Err KeyError
         | Some w => Ok (mkSt (mkHeap dicts cells) (s_sel s)
                              (s_opts s ++ [mkOpt (e_class e) backend init' call w (if proc_backend m then Some cells else None)]))
         end
  | _, _ => Err KeyError
  end.

(** The object of optimizer [o] under a keyword of the constructor ([w = true]) or of minimize. *)
Definition held (o : optim) (w : bool) (k : string) : option nat :=
  match sget k (if w then o_init o else o_call o) with Some (VRef a) => Some a | _ => None end.

(** What can happen: the selector returns an entry, or the object of an optimizer changes its state while the optimizer runs. *)
Inductive event := Select (e : nat) | Tick (i : nat) (w : bool) (k : string).
Definition step (m : mode) (ev : event) (s : st) : res st :=
  match ev with
  | Select j => match nth_error (s_sel s) j with Some e => setup_new m e s | None => Ok s end
  | Tick i w k =>
    match nth_error (s_opts s) i with
    | None => Ok s
    | Some o =>
      match held o w k with
      | None => Ok s
      | Some a =>
        Ok match o_mem o with
           | None => mkSt (mkHeap (h_dicts (s_heap s)) (upd a S (h_cells (s_heap s)))) (s_sel s) (s_opts s)
           | Some c => mkSt (s_heap s) (s_sel s)
                            (upd i (fun o => mkOpt (o_class o) (o_backend o) (o_init o) (o_call o) (o_slots o) (Some (upd a S c))) (s_opts s))
           end
      end
    end
  end.
Fixpoint run (m : mode) (evs : list event) (s : st) : res st :=
  match evs with
  | [] => Ok s
  | ev :: evs => match step m ev s with Ok s => run m evs s | Err e => Err e end
  end.

Definition start (items : list item) (h : heap) : st :=
  let '(es, ds) := parse_items items (h_dicts h) in mkSt (mkHeap ds (h_cells h)) es [].

(** The state optimizer [o] sees under a keyword. *)
Definition sees (s : st) (o : optim) (w : bool) (k : string) : option nat :=
  match held o w k with
  | None => None
  | Some a => nth_error (match o_mem o with Some c => c | None => h_cells (s_heap s) end) a
  end.

(** core/manager.py 841-880 after optimizers/baseoptimizer.py checkpoint_load: the attributes come from the saved state (with its objects), the number of
    workers and the backend are overwritten, and the process is built without [kwargs]. *)
Definition resume (m : mode) (slots : nat) (o : optim) : optim :=
  mkOpt (o_class o) (default_backend m) (o_init o) [] (VNum slots) (o_mem o).
