(** * Initialising the manager: setup and load_checkpoint
    Source: glompo/core/manager.py 232-317 (__init__), 319-624 (setup), 626-893 (load_checkpoint), 1886-1938
    (_checkpoint_manager, _checkpoint_task).

    The attributes of the manager are a dictionary, as in Python (load_checkpoint writes them by name). *)
From Verif Require Export Prelude Helpers_Model.

(** Python values given as arguments.  An object has an identity, the classes it is an instance of, its truth value
    and whether it can be called. *)
Inductive pv :=
  | VNone | VBool (b : bool) | VInt (z : Z) | VFloat (x : num) | VStr (s : string) | VBounds (l : list (num * num))
  | VObj (id : nat) (classes : list string) (truth call : bool).

(** bool(v) *)
Definition truthy (v : pv) : bool :=
  match v with
  | VNone => false
  | VBool b => b
  | VInt z => negb (Z.eqb z 0)
  | VFloat (Fin q) => negb (Qeq_bool q 0)
  | VFloat _ => true
  | VStr s => negb (String.eqb s "")
  | VBounds l => match l with [] => false | _ => true end
  | VObj _ _ t _ => t
  end.
(** isinstance(v, cls); every bool is an int. *)
Definition isinstance (v : pv) (cls : string) : bool :=
  match v with
  | VBool _ | VInt _ => String.eqb cls "int"
  | VStr _ => String.eqb cls "str"
  | VObj _ cs _ _ => existsb (String.eqb cls) cs
  | _ => false
  end.
Definition callable (v : pv) : bool := match v with VObj _ _ _ c => c | _ => false end.
(** v > n for a number n; other types raise TypeError. *)
Definition exceeds (v : pv) (n : Z) : res bool :=
  match v with
  | VBool b => Ok (Z.ltb n (if b then 1 else 0))
  | VInt z => Ok (Z.ltb n z)
  | VFloat x => Ok (nlt (Fin (inject_Z n)) x)
  | _ => Err TypeError
  end.
(** int(v): truncation towards zero.  Strings are not converted here. *)
Definition to_int (v : pv) : res Z :=
  match v with
  | VBool b => Ok (if b then 1 else 0)%Z
  | VInt z => Ok z
  | VFloat (Fin q) => Ok (Z.quot (Qnum q) (Zpos (Qden q)))
  | VFloat NaN => Err ValueError
  | VFloat _ => Err OverflowError
  | VStr _ => Err ValueError
  | _ => Err TypeError
  end.

Definition attrs := list (string * pv).
Definition put (k : string) (v : pv) : M attrs unit := modify (sset k v).
Definition lift {A} (r : res A) : M attrs A := fun s => (r, s).
(** self.k; attributes which were never written are None (__init__ writes all of them). *)
Definition attr (k : string) (m : attrs) : pv := match sget k m with Some v => v | None => VNone end.

(** __init__, 232-317: the attributes and their first values; those which are no setting are named but not followed. *)
Definition nones (l : list string) : attrs := map (fun k => (k, VNone)) l.
Definition init_attrs : attrs :=
  nones ["_is_restart"; "working_dir"; "task"; "opt_selector"; "bounds"; "n_parms"; "max_jobs"; "convergence_checker";
         "x0_generator"; "killing_conditions"; "t_start"; "t_end"; "converged"; "opt_crashed"; "end_timeout";
         "allow_forced_terminations"; "aggressive_kill"; "_too_long"; "summary_files"; "is_log_detailed";
         "split_printstreams"; "overwrite_existing"; "visualisation"; "visualisation_args"; "hunt_frequency";
         "spawning_opts"; "incumbent_sharing"; "status_frequency"; "checkpoint_control"; "opt_log"; "scope";
         "proc_backend"; "opts_daemonic"; "logger"; "optimizer_queue"; "_mp_manager"; "_process"; "_optimizer_packs"]%string.

(** is_initialised, 210-215. *)
Definition is_initialised (m : attrs) : bool := match attr "_is_restart" m with VNone => false | _ => true end.

(** The arguments of setup, 319-341. *)
Record args := mkArgs {
  a_task : pv; a_bounds : list (num * num); a_selector : pv; a_dir : pv; a_overwrite : pv; a_jobs : pv; a_backend : pv;
  a_checker : pv; a_gen : pv; a_hunter : pv; a_share : pv; a_hfreq : pv; a_status : pv; a_control : pv; a_summary : pv;
  a_detailed : pv; a_vis : pv; a_visargs : pv; a_force : pv; a_aggressive : pv; a_timeout : pv; a_split : pv }.

(** What the outside answers: number of CPUs, presence of dill, checkpoint_control.checkpoint_at_init, the import and
    construction of the scope, and checkpoint(). *)
Record env := mkEnv { e_cpus : Z; e_dill : bool; e_at_init : bool; e_scope : res unit; e_chk : res unit }.

(** The defaults KillsAfterConvergence() and RandomGenerator(bounds) (532, 542). *)
Definition default_checker : pv := VObj 0 ["KillsAfterConvergence"; "BaseChecker"]%string true true.
Definition default_gen : pv := VObj 0 ["RandomGenerator"; "BaseGenerator"]%string true false.
(** The two kinds of log (594, 794). *)
Definition log_class (file : bool) : pv := VObj 0 [if file then "FileLogger" else "BaseLogger"]%string true false.

(** Lines 512-523. *)
Definition setup_jobs (e : env) (v : pv) : M attrs unit :=
  if truthy v then
    if isinstance v "int" then
      p <- lift (exceeds v 0) ;;
      if p : bool then put "max_jobs" v else raise ValueError
    else raise TypeError
  else put "max_jobs" (VInt (e_cpus e - 1)).
(** The pattern of lines 525-553: an optional argument of a given class. *)
Definition setup_opt (k cls : string) (v dflt : pv) : M attrs unit :=
  if truthy v then (if isinstance v cls then put k v else raise TypeError) else put k dflt.
(** Lines 598-609. *)
Definition is_backend (v : pv) (s : string) : bool := match v with VStr t => String.eqb t s | _ => false end.
Definition setup_backend (v : pv) : M attrs unit :=
  if is_backend v "processes" || is_backend v "threads" || is_backend v "processes_forced" then
    put "proc_backend" (VBool (negb (is_backend v "threads"))) ;;;
    put "opts_daemonic" (VBool (negb (is_backend v "processes_forced")))
  else put "proc_backend" (VBool true) ;;; put "opts_daemonic" (VBool true).
(** Lines 611-617. *)
Definition setup_timeout (v : pv) : M attrs unit :=
  if truthy v then put "end_timeout" v
  else p <- gets (fun m => truthy (attr "proc_backend" m)) ;;
       put "end_timeout" (if p : bool then VInt 10 else VNone).
(** Lines 581-592; both exceptions caught there are ImportErrors. *)
Definition setup_scope (e : env) (v va : pv) : M attrs unit :=
  if truthy v then
    match e_scope e with
    | Err ImportError => put "visualisation" (VBool false)
    | Err x => put "visualisation" v ;;; put "visualisation_args" va ;;; raise x
    | Ok _ => put "visualisation" v ;;; put "visualisation_args" va
    end
  else ret tt.

(** setup, 480-624.  Warnings are not recorded; resolve() of the working directory is the identity. *)
Definition setup (e : env) (a : args) : M attrs unit :=
  ini <- gets is_initialised ;;
  if ini : bool then ret tt else
  put "working_dir" (if isinstance (a_dir a) "Path" || isinstance (a_dir a) "str" then a_dir a else VStr ".") ;;;
  (if callable (a_task a) then put "task" (a_task a) else raise TypeError) ;;;
  (if isinstance (a_selector a) "BaseSelector" then put "opt_selector" (a_selector a) else raise TypeError) ;;;
  lift (is_bounds_valid (a_bounds a) true) ;;;
  put "bounds" (VBounds (a_bounds a)) ;;;
  put "n_parms" (VInt (Z.of_nat (length (a_bounds a)))) ;;;
  setup_jobs e (a_jobs a) ;;;
  setup_opt "convergence_checker" "BaseChecker" (a_checker a) default_checker ;;;
  setup_opt "x0_generator" "BaseGenerator" (a_gen a) default_gen ;;;
  setup_opt "killing_conditions" "BaseHunter" (a_hunter a) VNone ;;;
  f <- lift (exceeds (a_force a) 0) ;;
  put "allow_forced_terminations" (VBool f) ;;;
  put "aggressive_kill" (a_aggressive a) ;;;
  put "_too_long" (a_force a) ;;;
  put "summary_files" (a_summary a) ;;;
  put "is_log_detailed" (a_detailed a) ;;;
  put "split_printstreams" (VBool (truthy (a_split a))) ;;;
  put "overwrite_existing" (VBool (truthy (a_overwrite a))) ;;;
  put "hunt_frequency" (a_hfreq a) ;;;
  put "spawning_opts" (VBool true) ;;;
  put "incumbent_sharing" (a_share a) ;;;
  st <- lift (to_int (a_status a)) ;;
  put "status_frequency" (VInt st) ;;;
  put "checkpoint_control" (if isinstance (a_control a) "CheckpointingControl" && e_dill e then a_control a else VNone) ;;;
  setup_scope e (a_vis a) (a_visargs a) ;;;
  big <- lift (exceeds (a_summary a) 2) ;;
  put "opt_log" (log_class big) ;;;
  setup_backend (a_backend a) ;;;
  setup_timeout (a_timeout a) ;;;
  put "_is_restart" (VBool false) ;;;
  c <- gets (attr "checkpoint_control") ;;
  if truthy c && e_at_init e then lift (e_chk e) else ret tt.

(** ** Saving *)

(** _checkpoint_manager, 1886-1908: what goes to the file 'manager'.  That everything can be pickled is assumed. *)
Definition no_pickle : list string :=
  ["logger"; "_process"; "_mp_manager"; "_optimizer_packs"; "scope"; "task"; "optimizer_queue"; "is_initialised"; "opt_log"]%string.
Definition saved (m : attrs) : attrs := filter (fun kv => negb (existsb (String.eqb (fst kv)) no_pickle)) m.

(** _checkpoint_task, 1910-1938.  [dump] is dill.dump(task), [own] is task.checkpoint_save(path): it raises (a missing
    method raises AttributeError) or writes its files.  The result says what a later load finds. *)
Inductive task_files := TPickled | TOwn | TNothing.
Definition checkpoint_task (force : bool) (dump own : res unit) : res task_files :=
  let own_files := match own with Ok _ => Ok TOwn | Err KeyboardInterrupt => Err KeyboardInterrupt | Err _ => Ok TNothing end in
  if force then own_files
  else match dump with
       | Ok _ => Ok TPickled
       | Err PickleError => own_files
       | Err x => Err x
       end.

(** ** Loading *)

(** What an archive and the outside answer: extraction, the file 'manager' (None: it cannot be read), the file 'task'
    (None: absent), the scope, the log, the convergence checker, the rebuilding of the optimizers (see Restart_Model). *)
Record archive := mkAr {
  ar_open : res unit; ar_vars : option attrs; ar_task : option (res pv); ar_scope : res unit; ar_log : bool -> res unit;
  ar_checker : res bool; ar_opts : res unit }.

(** The names of methods, which dir(self) lists next to the attributes. *)
Definition methods : list string :=
  ["setup"; "load_checkpoint"; "start_manager"; "checkpoint"; "write_summary_file"; "new_manager"; "load_manager"; "is_initialised"]%string.

Definition caught (e : exn) : bool := match e with KeyboardInterrupt | OutOfFuel => false | _ => true end.

(** Lines 722-756.  [loader] is the result of task_loader(tmp_dir) if one was given. *)
Definition load_task (ar : archive) (loader : option (res pv)) (task : pv) : M attrs unit :=
  try_except
    (put "task" VNone ;;;
     (match ar_task ar with Some (Ok v) => put "task" v | Some (Err x) => raise x | None => ret tt end) ;;;
     t <- gets (attr "task") ;;
     (match loader with
      | Some r => if negb (truthy t) then v <- lift r ;; put "task" v ;;; (if callable v then ret tt else raise AssertionError) else ret tt
      | None => ret tt
      end) ;;;
     t <- gets (attr "task") ;;
     (if negb (truthy t) && truthy task
      then put "task" task ;;; (if callable task then ret tt else raise AssertionError) else ret tt) ;;;
     t <- gets (attr "task") ;;
     match t with VNone => raise AssertionError | _ => ret tt end)
    caught (fun _ => raise CheckpointingError).

(** ['processes' in backend]. *)
Definition mentions_processes (v : pv) : res bool :=
  match v with
  | VStr s => Ok (match String.index 0 "processes" s with Some _ => true | None => false end)
  | _ => Err TypeError
  end.

(** Lines 758-776 for one keyword. *)
Definition override (permit : list string) (kv : string * pv) : M attrs unit :=
  let '(k, v) := kv in
  if String.eqb k "backend" then
    p <- lift (mentions_processes v) ;;
    put "proc_backend" (VBool p) ;;; put "opts_daemonic" (VBool (negb (is_backend v "processes_forced")))
  else if String.eqb k "force_terminations_after" then
    p <- lift (exceeds v 0) ;; put "allow_forced_terminations" (VBool p) ;;; put "_too_long" v
  else if String.eqb k "visualisation_args" then ret tt
  else if String.eqb k "working_dir" then put "working_dir" v
  else if existsb (String.eqb k) permit then (if String.eqb k "is_initialised" then raise AttributeError else put k v)
  else ret tt.

(** load_checkpoint, 696-893.  The time stamps (798-802) are in Session_Model; cpu_history, mem_history and load_history
    are left out. *)
Definition load (ar : archive) (loader : option (res pv)) (task : pv) (kwargs : list (string * pv)) : M attrs unit :=
  ini <- gets is_initialised ;;
  if ini : bool then ret tt else
  lift (ar_open ar) ;;;
  (match ar_vars ar with None => raise CheckpointingError | Some l => for_each l (fun kv => put (fst kv) (snd kv)) end) ;;;
  load_task ar loader task ;;;
  permit <- gets (fun m => dkeys m ++ methods) ;;
  for_each kwargs (override permit) ;;;
  v <- gets (attr "visualisation") ;;
  (if truthy v then lift (ar_scope ar) else ret tt) ;;;
  sf <- gets (attr "summary_files") ;;
  big <- lift (exceeds sf 2) ;;
  lift (ar_log ar big) ;;;
  put "opt_log" (log_class big) ;;;
  put "t_start" VNone ;;; put "t_end" VNone ;;;
  put "opt_crashed" (VBool false) ;;;
  put "converged" (VBool (match ar_checker ar with Ok b => b | Err _ => false end)) ;;;
  lift (ar_opts ar) ;;;
  put "_is_restart" (VBool true).
