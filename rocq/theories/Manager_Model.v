(** * The manager: start, fill, listen, hunt, inspect, share, checkpoint, stop
    Source: glompo/core/manager.py.

    The manager is one thread.  Everything else - child processes, the results queue, the file system, the user's
    selector, checker, hunter, task and generator - is the outside.  Each place where the code looks at the outside
    is one [tick]: an arbitrary list of moves of the outside happens first, a KeyboardInterrupt may be raised, and the
    answer is taken from the [world], about which nothing is assumed.  A run is cut off after [limit] ticks (by the
    pseudo exception OutOfFuel), so that the states of cut off runs are exactly the states met during runs.

    Not modelled: visualisation, logging, summary files, print redirection, wall clock values (time dependent
    decisions are answered by the world), the pipe raising ConnectionResetError on reading. *)
From Verif Require Export Prelude Logger_Model Selectors_Model.
From Coq Require Import Ascii.

(** What children put on the results queue (baseoptimizer.py 76-95, 455-465): evaluations and, at the end, their id. *)
Inductive qitem := QRes (r : iterres) | QEnd (i : nat).
Definition qid (q : qitem) : nat := match q with QRes r => ir_opt r | QEnd i => i end.

(** Signals of a child (baseoptimizer.py 333-354): key 0, key 9, key 1 and any other key. *)
Inductive signal := SDone (msg : string) | SError (msg : string) | SPaused | SOther.
(** Signals to a child (manager.py 1107-1190, 1607, 1625, 1644, 1806-1868). *)
Inductive order := OStop | OCrash | OPause | OPass | OSave | OBest (x : list num) (fx : num).

(** ProcessPackage (common/namedtuples.py) with the observable state of the process: alive, exit code, what it wrote
    to its pipe and the manager did not read, whether its end of the pipe is closed, and its allow_run_event. *)
Record child := mkCh { c_slots : nat; c_alive : bool; c_code : Z; c_sigs : list signal; c_closed : bool; c_run : bool }.

(** common/namedtuples.py Result; the statistics are f_evals, opts_started, opts_killed, opts_conv. *)
Record result := mkR { r_x : option (list num); r_fx : option num; r_stats : option (nat * nat * nat * nat);
                       r_origin : option (nat * string) }.

(** Attributes of GloMPOManager (manager.py 230-330) and the visible part of the outside. *)
Record core := mkK {
  k_packs : list (nat * child);  (* _optimizer_packs *)
  k_grave : list nat;  (* _graveyard *)
  k_victims : list nat;  (* hunt_victims (the keys) *)
  k_f : nat;  (* f_counter *)
  k_o : nat;  (* o_counter *)
  k_conv : nat;  (* conv_counter *)
  k_hunts : nat;  (* hunt_counter *)
  k_last_hunt : nat;  (* last_hunt *)
  k_spawn : bool;  (* spawning_opts *)
  k_crashed : bool;  (* opt_crashed *)
  k_last_spawn : nat * nat;  (* last_opt_spawn *)
  k_result : result;  (* result *)
  k_log : logger;  (* opt_log *)
  k_last_iter : nat;  (* last_iter_checkpoint *)
  k_converged : bool;  (* converged *)
  k_queue : list (list qitem);  (* chunks on optimizer_queue *)
  k_files : list string;  (* STOP_* files in working_dir *)
  k_chkpt : bool;  (* a CHKPT file is in working_dir *)
  k_tick : nat  (* number of interactions with the outside so far *)
}.
Definition set_kpacks v c := mkK v (k_grave c) (k_victims c) (k_f c) (k_o c) (k_conv c) (k_hunts c) (k_last_hunt c) (k_spawn c) (k_crashed c) (k_last_spawn c) (k_result c) (k_log c) (k_last_iter c) (k_converged c) (k_queue c) (k_files c) (k_chkpt c) (k_tick c).
Definition set_kgrave v c := mkK (k_packs c) v (k_victims c) (k_f c) (k_o c) (k_conv c) (k_hunts c) (k_last_hunt c) (k_spawn c) (k_crashed c) (k_last_spawn c) (k_result c) (k_log c) (k_last_iter c) (k_converged c) (k_queue c) (k_files c) (k_chkpt c) (k_tick c).
Definition set_kvictims v c := mkK (k_packs c) (k_grave c) v (k_f c) (k_o c) (k_conv c) (k_hunts c) (k_last_hunt c) (k_spawn c) (k_crashed c) (k_last_spawn c) (k_result c) (k_log c) (k_last_iter c) (k_converged c) (k_queue c) (k_files c) (k_chkpt c) (k_tick c).
Definition set_kf v c := mkK (k_packs c) (k_grave c) (k_victims c) v (k_o c) (k_conv c) (k_hunts c) (k_last_hunt c) (k_spawn c) (k_crashed c) (k_last_spawn c) (k_result c) (k_log c) (k_last_iter c) (k_converged c) (k_queue c) (k_files c) (k_chkpt c) (k_tick c).
Definition set_ko v c := mkK (k_packs c) (k_grave c) (k_victims c) (k_f c) v (k_conv c) (k_hunts c) (k_last_hunt c) (k_spawn c) (k_crashed c) (k_last_spawn c) (k_result c) (k_log c) (k_last_iter c) (k_converged c) (k_queue c) (k_files c) (k_chkpt c) (k_tick c).
Definition set_kconv v c := mkK (k_packs c) (k_grave c) (k_victims c) (k_f c) (k_o c) v (k_hunts c) (k_last_hunt c) (k_spawn c) (k_crashed c) (k_last_spawn c) (k_result c) (k_log c) (k_last_iter c) (k_converged c) (k_queue c) (k_files c) (k_chkpt c) (k_tick c).
Definition set_khunts v c := mkK (k_packs c) (k_grave c) (k_victims c) (k_f c) (k_o c) (k_conv c) v (k_last_hunt c) (k_spawn c) (k_crashed c) (k_last_spawn c) (k_result c) (k_log c) (k_last_iter c) (k_converged c) (k_queue c) (k_files c) (k_chkpt c) (k_tick c).
Definition set_klast_hunt v c := mkK (k_packs c) (k_grave c) (k_victims c) (k_f c) (k_o c) (k_conv c) (k_hunts c) v (k_spawn c) (k_crashed c) (k_last_spawn c) (k_result c) (k_log c) (k_last_iter c) (k_converged c) (k_queue c) (k_files c) (k_chkpt c) (k_tick c).
Definition set_kspawn v c := mkK (k_packs c) (k_grave c) (k_victims c) (k_f c) (k_o c) (k_conv c) (k_hunts c) (k_last_hunt c) v (k_crashed c) (k_last_spawn c) (k_result c) (k_log c) (k_last_iter c) (k_converged c) (k_queue c) (k_files c) (k_chkpt c) (k_tick c).
Definition set_kcrashed v c := mkK (k_packs c) (k_grave c) (k_victims c) (k_f c) (k_o c) (k_conv c) (k_hunts c) (k_last_hunt c) (k_spawn c) v (k_last_spawn c) (k_result c) (k_log c) (k_last_iter c) (k_converged c) (k_queue c) (k_files c) (k_chkpt c) (k_tick c).
Definition set_klast_spawn v c := mkK (k_packs c) (k_grave c) (k_victims c) (k_f c) (k_o c) (k_conv c) (k_hunts c) (k_last_hunt c) (k_spawn c) (k_crashed c) v (k_result c) (k_log c) (k_last_iter c) (k_converged c) (k_queue c) (k_files c) (k_chkpt c) (k_tick c).
Definition set_kresult v c := mkK (k_packs c) (k_grave c) (k_victims c) (k_f c) (k_o c) (k_conv c) (k_hunts c) (k_last_hunt c) (k_spawn c) (k_crashed c) (k_last_spawn c) v (k_log c) (k_last_iter c) (k_converged c) (k_queue c) (k_files c) (k_chkpt c) (k_tick c).
Definition set_klog v c := mkK (k_packs c) (k_grave c) (k_victims c) (k_f c) (k_o c) (k_conv c) (k_hunts c) (k_last_hunt c) (k_spawn c) (k_crashed c) (k_last_spawn c) (k_result c) v (k_last_iter c) (k_converged c) (k_queue c) (k_files c) (k_chkpt c) (k_tick c).
Definition set_klast_iter v c := mkK (k_packs c) (k_grave c) (k_victims c) (k_f c) (k_o c) (k_conv c) (k_hunts c) (k_last_hunt c) (k_spawn c) (k_crashed c) (k_last_spawn c) (k_result c) (k_log c) v (k_converged c) (k_queue c) (k_files c) (k_chkpt c) (k_tick c).
Definition set_kconverged v c := mkK (k_packs c) (k_grave c) (k_victims c) (k_f c) (k_o c) (k_conv c) (k_hunts c) (k_last_hunt c) (k_spawn c) (k_crashed c) (k_last_spawn c) (k_result c) (k_log c) (k_last_iter c) v (k_queue c) (k_files c) (k_chkpt c) (k_tick c).
Definition set_kqueue v c := mkK (k_packs c) (k_grave c) (k_victims c) (k_f c) (k_o c) (k_conv c) (k_hunts c) (k_last_hunt c) (k_spawn c) (k_crashed c) (k_last_spawn c) (k_result c) (k_log c) (k_last_iter c) (k_converged c) v (k_files c) (k_chkpt c) (k_tick c).
Definition set_kfiles v c := mkK (k_packs c) (k_grave c) (k_victims c) (k_f c) (k_o c) (k_conv c) (k_hunts c) (k_last_hunt c) (k_spawn c) (k_crashed c) (k_last_spawn c) (k_result c) (k_log c) (k_last_iter c) (k_converged c) (k_queue c) v (k_chkpt c) (k_tick c).
Definition set_kchkpt v c := mkK (k_packs c) (k_grave c) (k_victims c) (k_f c) (k_o c) (k_conv c) (k_hunts c) (k_last_hunt c) (k_spawn c) (k_crashed c) (k_last_spawn c) (k_result c) (k_log c) (k_last_iter c) (k_converged c) (k_queue c) (k_files c) v (k_tick c).
Definition set_ktick v c := mkK (k_packs c) (k_grave c) (k_victims c) (k_f c) (k_o c) (k_conv c) (k_hunts c) (k_last_hunt c) (k_spawn c) (k_crashed c) (k_last_spawn c) (k_result c) (k_log c) (k_last_iter c) (k_converged c) (k_queue c) (k_files c) (k_chkpt c) v.

(** What happened, for the statements only; the code does not read it. *)
Inductive event :=
  | EvSetup (i : nat) (cls : string)      (* an optimizer was constructed and entered in the log *)
  | EvStart (i : nat) (cls : string) (slots : nat) (* its process was started *)
  | EvStopSpawn                           (* spawning_opts was set to False *)
  | EvSelect                              (* the selector is asked *)
  | EvHunt                                (* a hunt begins *)
  | EvKill (hunter : option nat) (i : nat)(* _shutdown_job; no hunter: a STOP file *)
  | EvAccept (r : iterres)                (* an evaluation is counted *)
  | EvSend (i : nat) (m : order)
  | EvPaused (i : nat)                    (* the report of the child that it is paused is read (1838) *)
  | EvIter                                (* an iteration of the management loop begins *)
  | EvJudge (checker all_dead : bool)     (* the end of iteration decision *)
  | EvSaveLog | EvSaveManager             (* the log, the manager are written to a checkpoint *)
  | EvEnd                                 (* the finally clause *)
  | EvLoad.                               (* the manager was loaded from a checkpoint *)

(** The history is newest first; each event carries the manager's attributes at that moment. *)
Record mstate := mkMS { st_core : core; st_hist : list (core * event) }.

Inductive move :=
  | MSig (i : nat) (sg : signal)
  | MClose (i : nat)
  | MExit (i : nat) (code : Z)
  | MHold (i : nat)                       (* the child clears its allow_run_event *)
  | MPush (ch : list qitem)
  | MFile (name : string)
  | MCheckpointFile.

Definition on_child (i : nat) (f : child -> child) (c : core) : core :=
  match nget i (k_packs c) with
  | Some ch => if c_alive ch then set_kpacks (nset i (f ch) (k_packs c)) c else c
  | None => c
  end.

(** Moves of the outside.  Only living registered children act; what is pushed on the queue stems from optimizers
    which were set up.  Other moves are ignored. *)
Definition apply_move (m : move) (c : core) : core :=
  match m with
  | MSig i sg => on_child i (fun h => if c_closed h then h else mkCh (c_slots h) (c_alive h) (c_code h) (c_sigs h ++ [sg]) (c_closed h) (c_run h)) c
  | MClose i => on_child i (fun h => mkCh (c_slots h) (c_alive h) (c_code h) (c_sigs h) true (c_run h)) c
  | MExit i code => on_child i (fun h => mkCh (c_slots h) false code (c_sigs h) true (c_run h)) c
  | MHold i => on_child i (fun h => mkCh (c_slots h) (c_alive h) (c_code h) (c_sigs h) (c_closed h) false) c
  | MPush ch => if forallb (fun q => Nat.leb 1 (qid q) && Nat.leb (qid q) (k_o c)) ch then set_kqueue (k_queue c ++ [ch]) c else c
  | MFile n => set_kfiles (k_files c ++ [n]) c
  | MCheckpointFile => set_kchkpt true c
  end.
Definition apply_moves (l : list move) (c : core) : core := fold_left (fun c m => apply_move m c) l c.

(** Settings of a run (setup, manager.py 480-624). *)
Record config := mkCfg {
  g_max_jobs : nat; g_hunt_freq : nat; g_killing : bool; g_sharing : bool; g_aggressive : bool; g_proc : bool;
  g_forced : bool;
  g_chk : bool;                 (* checkpoint_control is set *)
  g_iter_freq : option nat;     (* checkpoint_iter_frequency; None: inf *)
  g_at_conv : bool; g_raise_fail : bool }.

(** Answers of the outside at a given tick. *)
Record world := mkW {
  w_moves : nat -> list move;
  w_intr : nat -> bool;                                   (* Ctrl-C *)
  w_err : nat -> option exn;                              (* user or operating system code raises *)
  w_sel : nat -> core -> nat -> res selres;               (* opt_selector.select_optimizer *)
  w_check : nat -> core -> res bool;                      (* convergence_checker *)
  w_kill : nat -> core -> nat -> nat -> res bool;         (* killing_conditions *)
  w_heads : nat -> iterres -> res (list string);          (* headers of the extra columns *)
  w_late : nat -> nat -> bool;                            (* time since feedback or kill signal > _too_long *)
  w_full : nat -> bool;                                   (* optimizer_queue.full() *)
  w_time_chk : nat -> bool;                               (* time based checkpoint is due *)
  w_saved : nat -> nat -> bool }.                         (* the restart file of the optimizer exists *)

Inductive reason := RChecker | RDead | RNone | RInterrupt | RCrash (e : exn).

Definition getc {A} (f : core -> A) : M mstate A := gets (fun s => f (st_core s)).
Definition modc (f : core -> core) : M mstate unit := modify (fun s => mkMS (f (st_core s)) (st_hist s)).
(** Record an event, with the attributes before it, and update the attributes. *)
Definition act (e : event) (f : core -> core) : M mstate unit :=
  modify (fun s => mkMS (f (st_core s)) ((st_core s, e) :: st_hist s)).
Definition note (e : event) : M mstate unit := act e (fun c => c).
(** A method of the log called by the manager. *)
Definition logm {A} (m : M logger A) : M mstate A :=
  fun s => let (r, l) := m (k_log (st_core s)) in (r, mkMS (set_klog l (st_core s)) (st_hist s)).
Definition lift {A} (r : res A) : M mstate A := fun s => (r, s).

(** Python [int(s)] for a decimal without inner underscores and surrounding blanks. *)
Fixpoint digits (s : string) (acc : Z) : option Z :=
  match s with
  | EmptyString => Some acc
  | String a s' => let n := nat_of_ascii a in
                   if (Nat.leb 48 n && Nat.leb n 57)%bool then digits s' (acc * 10 + Z.of_nat (n - 48))%Z else None
  end.
Definition py_int (s : string) : option Z :=
  match s with
  | EmptyString => None
  | String "-" (String a s') => match digits (String a s') 0 with Some n => Some (- n)%Z | None => None end
  | String "+" (String a s') => digits (String a s') 0
  | _ => digits s 0
  end.
(** [_, opt_id = name.split('_'); int(opt_id)] (1564-1565): None stands for the ValueError of either. *)
Fixpoint split_us (s : string) : list string :=
  match s with
  | EmptyString => [EmptyString]
  | String a s' => if Ascii.eqb a "_" then EmptyString :: split_us s'
                   else match split_us s' with [] => [String a EmptyString] | p :: ps => String a p :: ps end
  end.
Definition stop_id (name : string) : option Z :=
  match split_us name with [_; b] => py_int b | _ => None end.

(** ["Traceback" in message]. *)
Definition has_traceback (m : string) : bool := match String.index 0 "Traceback" m with Some _ => true | None => false end.

Definition is_exception (e : exn) : bool := match e with KeyboardInterrupt | OutOfFuel => false | _ => true end.

Section Manager.
  Context (g : config) (w : world) (limit : nat).

  (** One look at the outside; returns the number of the tick. *)
  Definition tick : M mstate nat :=
    fun s => let c := st_core s in
             let t := k_tick c in
             if Nat.leb limit t then (Err OutOfFuel, s)
             else let s' := mkMS (set_ktick (S t) (apply_moves (w_moves w t) c)) (st_hist s) in
                  if w_intr w t then (Err KeyboardInterrupt, s') else (Ok t, s').

  (** Outside code without a modelled result: it may raise. *)
  Definition ext : M mstate unit :=
    t <- tick ;; match w_err w t with Some e => raise e | None => ret tt end.

  (** process.is_alive() *)
  Definition is_alive (i : nat) : M mstate bool :=
    tick ;;; getc (fun c => match nget i (k_packs c) with Some h => c_alive h | None => false end).

  (** signal_pipe.send(m): BrokenPipeError (an OSError) when the other end is closed. *)
  Definition send (i : nat) (m : order) : M mstate unit :=
    tick ;;;
    h <- getc (fun c => nget i (k_packs c)) ;;
    match h with
    | Some h => if c_closed h then raise OSError else note (EvSend i m)
    | None => raise KeyError
    end.

  Definition in_grave (i : nat) : M mstate bool := getc (fun c => nmem i (k_grave c)).
  Definition pack_ids : M mstate (list nat) := getc (fun c => dkeys (k_packs c)).
  Definition bury (i : nat) (c : core) : core := set_kgrave (nadd i (k_grave c)) c.

  (** The two put_metadata calls which always come together. *)
  Definition put_end (i : nat) (cond : string) : M mstate unit :=
    logm (put_metadata i "t_stop" "now") ;;; logm (put_metadata i "end_cond" cond).

  (** The children for which is_alive() holds, asked in turn. *)
  Fixpoint living (ids : list nat) : M mstate (list nat) :=
    match ids with
    | [] => ret []
    | i :: ids' => b <- is_alive i ;; l <- living ids' ;; ret (if b then i :: l else l)
    end.
  Definition slots_of (l : list nat) (c : core) : nat :=
    sum_nat (map (fun i => match nget i (k_packs c) with Some h => c_slots h | None => 0 end) l).

  (** Line 1346. *)
  Definition add_to_log (i : nat) (cls : string) : M mstate unit :=
    note (EvSetup i cls) ;;; logm (add_optimizer i cls "now").
  (** _setup_new_optimizer, 1297-1354.  Returns id, class and slots. *)
  Definition setup_new_optimizer (avail : nat) : M mstate (option (nat * string * nat)) :=
    t <- tick ;;
    note EvSelect ;;;
    c <- getc (fun c => c) ;;
    sel <- lift (w_sel w t c avail) ;;
    match sel with
    | SFalse => act EvStopSpawn (set_kspawn false) ;;; ret None
    | SNone => ret None
    | SOpt cf =>
        modc (fun c => set_ko (S (k_o c)) c) ;;;
        ext ;;;
        i <- getc k_o ;;
        add_to_log i (cf_class cf) ;;;
        ret (Some (i, cf_class cf, cf_workers cf))
    end.

  (** _start_new_job, 1262-1295. *)
  Definition start_new_job (i : nat) (cls : string) (slots : nat) : M mstate unit :=
    ext ;;;
    modc (fun c => set_kpacks (nset i (mkCh slots false 0 [] false true) (k_packs c)) c) ;;;
    ext ;;;
    act (EvStart i cls slots) (fun c => set_kpacks (nset i (mkCh slots true 0 [] false true) (k_packs c)) c).

  (** _fill_optimizer_slots, 1224-1260. *)
  Fixpoint fill_loop (fuel count : nat) (started : bool) : M mstate bool :=
    match fuel with
    | 0 => raise OutOfFuel
    | S fuel' =>
        sp <- getc k_spawn ;;
        if Nat.ltb count (g_max_jobs g) && sp then
          o <- setup_new_optimizer (g_max_jobs g - count) ;;
          match o with
          | Some (i, cls, slots) => start_new_job i cls slots ;;; fill_loop fuel' (count + slots) true
          | None => ret started
          end
        else ret started
    end.
  Definition fill_slots : M mstate unit :=
    ids <- pack_ids ;;
    l <- living ids ;;
    count <- getc (slots_of l) ;;
    bad <- getc (fun c => Nat.eqb (fst (k_last_spawn c)) (k_f c) && Nat.ltb (snd (k_last_spawn c) + 5) (k_o c) && k_crashed c) ;;
    if bad then raise RuntimeError else
    started <- fill_loop (S limit) count false ;;
    ids <- pack_ids ;;
    l <- living ids ;;
    if started : bool
    then modc (fun c => if Nat.eqb (fst (k_last_spawn c)) (k_f c) then c else set_klast_spawn (k_f c, k_o c) c)
    else if Nat.eqb (length l) 0 then raise RuntimeError else ret tt.

  (** _check_signals, 1356-1386.  A closed pipe without unread messages raises EOFError, which is caught: no signal. *)
  Definition check_signals (i : nat) : M mstate bool :=
    b <- in_grave i ;;
    if b : bool then ret false else
    tick ;;;
    h <- getc (fun c => nget i (k_packs c)) ;;
    match h with
    | None => raise KeyError
    | Some h =>
        match c_sigs h with
        | [] => ret false
        | sg :: sgs =>
            modc (fun c => set_kpacks (nset i (mkCh (c_slots h) (c_alive h) (c_code h) sgs (c_closed h) (c_run h)) (k_packs c)) c) ;;;
            match sg with
            | SDone msg => put_end i msg ;;; modc (fun c => set_kconv (S (k_conv c)) (bury i c))
            | SError msg => logm (put_message i msg) ;;; modc (fun c => set_kcrashed (has_traceback msg || k_crashed c) c)
            | _ => ret tt
            end ;;;
            ret true
        end
    end.

  (** _inspect_children, 1388-1446, for one child. *)
  Definition inspect_dead (i : nat) : M mstate unit :=
    b <- in_grave i ;;
    if b : bool then ret tt else
    a <- is_alive i ;;
    if a : bool then ret tt else
    code <- getc (fun c => match nget i (k_packs c) with Some h => c_code h | None => 0%Z end) ;;
    if Z.eqb code 0 then
      found <- check_signals i ;;
      if found : bool then ret tt else
      modc (fun c => bury i (set_kconv (S (k_conv c)) c)) ;;;
      logm (put_message i "Terminated normally without sending a minimization complete signal to the manager.") ;;;
      put_end i "Normal termination (Reason unknown)"
    else
      modc (bury i) ;;;
      logm (put_message i "Terminated in error") ;;;
      put_end i "Error termination".
  Definition inspect_hang (i : nat) : M mstate unit :=
    a <- is_alive i ;;
    t <- tick ;;
    v <- getc (fun c => nmem i (k_victims c)) ;;
    if a && w_late w t i && g_forced g && negb v && g_proc g then
      modc (bury i) ;;;
      logm (put_message i "Force terminated due to no feedback timeout.") ;;;
      put_end i "Forced GloMPO Termination"
    else ret tt.
  Definition inspect_zombie (i : nat) : M mstate unit :=
    v <- getc (fun c => nmem i (k_victims c)) ;;
    if v && g_forced g then
      a <- is_alive i ;;
      t <- tick ;;
      if a && w_late w t i && g_proc g then
        tick ;;;                                   (* join(3) *)
        logm (put_message i "Force terminated due to no feedback after kill signal timeout.") ;;;
        put_end i "Forced GloMPO Termination"
      else ret tt
    else ret tt.
  Definition inspect_child (i : nat) : M mstate unit :=
    inspect_dead i ;;; inspect_hang i ;;; inspect_zombie i.
  Definition inspect_children : M mstate unit :=
    ids <- pack_ids ;; for_each ids inspect_child.

  (** _shutdown_job, 1597-1616.  A terminated process dies whenever the outside makes it exit. *)
  Definition shutdown_job (i : nat) (hunter : option nat) : M mstate unit :=
    act (EvKill hunter i) (fun c => bury i (set_kvictims (nadd i (k_victims c)) c)) ;;;
    (if g_aggressive g && g_proc g then ret tt else send i OStop) ;;;
    put_end i "GloMPO Termination".

  (** _start_hunt, 1525-1553. *)
  Fixpoint hunt_loop (hunter : nat) (ids : list nat) : M mstate (list nat) :=
    match ids with
    | [] => ret []
    | v :: ids' =>
        dead <- in_grave v ;;
        pts <- getc (fun c => has_iter_history v (k_log c)) ;;
        if negb dead && pts && negb (Nat.eqb v hunter) then
          t <- tick ;;
          c <- getc (fun c => c) ;;
          k <- lift (w_kill w t c hunter v) ;;
          dead <- in_grave v ;;
          if k && negb dead then
            shutdown_job v (Some hunter) ;;; l <- hunt_loop hunter ids' ;; ret (v :: l)
          else hunt_loop hunter ids'
        else hunt_loop hunter ids'
    end.
  Definition start_hunt (hunter : nat) : M mstate (list nat) :=
    act EvHunt (fun c => set_klast_hunt (k_f c) (set_khunts (S (k_hunts c)) c)) ;;;
    ids <- pack_ids ;;
    hunt_loop hunter ids.

  (** _update_best_result, 1618-1637, with the assignment to self.result of line 1510. *)
  Definition falsy_fx (o : option num) : bool :=
    match o with None => true | Some (Fin q) => Qeq_bool q 0 | Some _ => false end.
  Definition share_loop (b : brec) : M mstate unit :=
    ids <- pack_ids ;;
    for_each ids (fun i =>
      if Nat.eqb i (b_opt b) then ret tt
      else a <- is_alive i ;; if a : bool then send i (OBest (b_x b) (b_fx b)) else ret tt).
  Definition update_best : M mstate unit :=
    b <- (fun s => (get_best_iter None (k_log (st_core s)), s)) ;;
    old <- getc (fun c => r_fx (k_result c)) ;;
    (if g_sharing g && (falsy_fx old || match old with Some v => nlt (b_fx b) v | None => false end)
     then share_loop b else ret tt) ;;;
    modc (fun c => set_kresult (mkR (Some (b_x b)) (Some (b_fx b))
                                    (Some (k_f c, k_o c, length (k_victims c), k_conv c))
                                    (Some (b_opt b, b_type b))) c).

  (** Lines 1498-1501. *)
  Definition accept (r : iterres) : M mstate unit :=
    act (EvAccept r) (fun c => set_kf (S (k_f c)) c) ;;; logm (put_iteration r).

  (** _process_results, 1448-1523: one element of a chunk.  Returns (accepted?, closed, victims). *)
  Definition process_item (q : qitem) : M mstate (nat * list nat * list nat) :=
    match q with
    | QEnd i =>
        org <- getc (fun c => r_origin (k_result c)) ;;
        match org with
        | Some (b, _) => if Nat.eqb b i then ret (0, [], []) else logm (clear_cache (Some i)) ;;; ret (0, [i], [])
        | None => ret (0, [], [])
        end
    | QRes r =>
        dead <- getc (fun c => nmem (ir_opt r) (k_victims c)) ;;
        if dead : bool then ret (0, [], []) else
        has <- getc (fun c => has_iter_history (ir_opt r) (k_log c)) ;;
        (if has : bool then ret tt else
         hd <- (match ir_extras r with [] => ret [] | _ => t <- tick ;; lift (w_heads w t r) end) ;;
         logm (add_iter_history (ir_opt r) hd)) ;;;
        accept r ;;;
        update_best ;;;
        c <- getc (fun c => c) ;;
        let best_id := match r_origin (k_result c) with Some (b, _) => b | None => 0 end in
        if Nat.ltb 0 best_id && g_killing g && Nat.leb (g_hunt_freq g) (k_f c - k_last_hunt c) then
          vs <- start_hunt best_id ;; ret (1, [], vs)
        else ret (1, [], [])
    end.
  Fixpoint process_chunk (l : list qitem) (acc : nat * list nat * list nat) : M mstate (nat * list nat * list nat) :=
    match l with
    | [] => ret acc
    | q :: l' => x <- process_item q ;;
                 let '(n, cl, vs) := acc in let '(n', cl', vs') := x in
                 process_chunk l' (n + n', cl ++ cl', vs ++ vs')
    end.
  (** optimizer_queue.get(timeout=1): waits, then takes the first chunk. *)
  Definition queue_get : M mstate (option (list qitem)) :=
    tick ;;;
    q <- getc k_queue ;;
    match q with
    | [] => ret None
    | ch :: q' => modc (set_kqueue q') ;;; ret (Some ch)
    end.
  Fixpoint process_loop (fuel : nat) (max : option nat) (acc : nat * list nat * list nat)
    : M mstate (nat * list nat * list nat) :=
    match fuel with
    | 0 => raise OutOfFuel
    | S fuel' =>
        go <- match max with
              | Some m => ret (Nat.ltb (fst (fst acc)) m)
              | None => tick ;;; getc (fun c => match k_queue c with [] => false | _ => true end)
              end ;;
        if go : bool then
          o <- queue_get ;;
          match o with
          | None => ret acc
          | Some ch => x <- process_chunk ch acc ;; process_loop fuel' max x
          end
        else ret acc
    end.
  (** [if max_results:] - 0 counts as no maximum. *)
  Definition process_results (max : option nat) : M mstate (list nat * list nat) :=
    x <- process_loop (S limit) (match max with Some 0 => None | _ => max end) (0, [], []) ;;
    ret (snd (fst x), snd x).

  (** _is_manual_shutdowns, 1555-1574. *)
  Definition remove_file (n : string) (c : core) : core :=
    set_kfiles (filter (fun m => negb (String.eqb m n)) (k_files c)) c.
  Definition manual_shutdown (name : string) : M mstate unit :=
    match stop_id name with
    | None => ret tt
    | Some z =>
        let i := Z.to_nat z in
        known <- getc (fun c => Z.leb 0 z && nmemd i (k_packs c) && negb (nmem i (k_grave c))) ;;
        if known : bool then modc (remove_file name) ;;; shutdown_job i None else ret tt
    end.
  Definition manual_shutdowns : M mstate unit :=
    tick ;;; files <- getc k_files ;; for_each files manual_shutdown.

  (** _checkpoint_optimizers, 1799-1884.  Sets are lists without duplicates. *)
  Definition remove_id (i : nat) (l : list nat) : list nat := filter (fun j => negb (Nat.eqb j i)) l.
  (** Lines 1805-1808. *)
  Fixpoint pause_all (ids : list nat) : M mstate (list nat) :=
    match ids with
    | [] => ret []
    | i :: ids' => a <- is_alive i ;;
                   (if a : bool then send i OPause else ret tt) ;;;
                   l <- pause_all ids' ;; ret (if a then i :: l else l)
    end.
  (** Lines 1827-1849 for one optimizer: (not_chkpt, wait_reply, living). *)
  Definition sync_one (i : nat) (x : list nat * list nat * list nat) : M mstate (list nat * list nat * list nat) :=
    let '(no, wait, live) := x in
    a <- is_alive i ;;
    if a : bool then
      tick ;;;
      h <- getc (fun c => nget i (k_packs c)) ;;
      match h with
      | None => raise KeyError
      | Some h =>
          match c_sigs h with
          | [] => if c_closed h then raise EOFError else ret x
          | sg :: sgs =>
              modc (fun c => set_kpacks (nset i (mkCh (c_slots h) (c_alive h) (c_code h) sgs (c_closed h) (c_run h)) (k_packs c)) c) ;;;
              match sg with
              | SDone msg => put_end i msg ;;; modc (fun c => set_kconv (S (k_conv c)) (bury i c)) ;;; ret (nadd i no, wait, live)
              | SPaused => note (EvPaused i) ;;; ret (no, remove_id i wait, live)
              | _ => raise RuntimeError
              end
          end
      end
    else ret (nadd i no, remove_id i wait, remove_id i live).
  Fixpoint sync_round (ids : list nat) (x : list nat * list nat * list nat) : M mstate (list nat * list nat * list nat) :=
    match ids with
    | [] => ret x
    | i :: ids' => y <- sync_one i x ;; sync_round ids' y
    end.
  Definition add_all (l : list nat) (s : list nat) : list nat := fold_left (fun s i => nadd i s) l s.
  (** Lines 1812-1849. *)
  Fixpoint sync_loop (fuel n_alive : nat) (x : list nat * list nat * list nat) : M mstate (list nat * list nat * list nat) :=
    match fuel with
    | 0 => raise OutOfFuel
    | S fuel' =>
        let '(no, wait, live) := x in
        match wait with
        | [] => ret x
        | _ =>
            t <- tick ;;
            no <- (if w_full w t
                   then p <- process_results (Some n_alive) ;; ret (add_all (snd p) (add_all (fst p) no))
                   else ret no) ;;
            y <- sync_round wait (no, wait, live) ;;
            sync_loop fuel' n_alive y
        end
    end.
  (** Lines 1860-1869. *)
  Definition save_one (no : list nat) (i : nat) : M mstate unit :=
    a <- is_alive i ;;
    if a : bool then (if nmem i no then send i OPass else send i OSave) else ret tt.
  (** Lines 1871-1876. *)
  Fixpoint hold_round (ids : list nat) : M mstate (list nat) :=
    match ids with
    | [] => ret []
    | i :: ids' =>
        tick ;;;
        r <- getc (fun c => match nget i (k_packs c) with Some h => c_run h | None => true end) ;;
        l <- hold_round ids' ;; ret (if r : bool then i :: l else l)
    end.
  Fixpoint hold_loop (fuel : nat) (ids : list nat) : M mstate unit :=
    match fuel with
    | 0 => raise OutOfFuel
    | S fuel' => match ids with [] => ret tt | _ => l <- hold_round ids ;; hold_loop fuel' l end
    end.
  (** Lines 1878-1883. *)
  Definition confirm_one (i : nat) : M mstate unit :=
    t <- tick ;; if w_saved w t i then ret tt else raise CheckpointingError.
  Definition checkpoint_optimizers : M mstate unit :=
    ids <- pack_ids ;;
    messaged <- pause_all ids ;;
    x <- sync_loop (S limit) (length messaged) ([], messaged, messaged) ;;
    let '(no, _, live) := x in
    p <- process_results None ;;
    let no := add_all (snd p) (add_all (fst p) no) in
    tick ;;;
    empty <- getc (fun c => match k_queue c with [] => true | _ => false end) ;;
    (if empty : bool then ret tt else raise AssertionError) ;;;
    ext ;;;
    for_each messaged (save_one no) ;;;
    hold_loop (S limit) live ;;;
    for_each (filter (fun i => negb (nmem i no)) messaged) confirm_one.

  (** _toggle_optimizers(1), 1940-1952. *)
  Definition toggle_one (i : nat) : M mstate unit :=
    a <- is_alive i ;;
    if a : bool then
      modc (fun c => match nget i (k_packs c) with
                     | Some h => set_kpacks (nset i (mkCh (c_slots h) (c_alive h) (c_code h) (c_sigs h) (c_closed h) true) (k_packs c)) c
                     | None => c
                     end)
    else ret tt.

  (** checkpoint, 1098-1196.  Writing the log, the manager, the task and the archive are outside code ([ext]). *)
  Definition checkpoint : M mstate unit :=
    ext ;;;
    try_except
      (ext ;;; note EvSaveLog ;;;
       checkpoint_optimizers ;;;
       ext ;;; note EvSaveManager ;;;
       ext)
      (fun e => match e with CheckpointingError => true | _ => false end)
      (fun e => if g_raise_fail g then raise e else ret tt) ;;;
    conv <- getc k_converged ;;
    (if conv : bool then
       ids <- pack_ids ;;
       for_each ids (fun i => a <- is_alive i ;; if a : bool then send i OStop else ret tt)
     else ret tt) ;;;
    ids <- pack_ids ;;
    for_each ids toggle_one.

  (** _is_manual_checkpoints, 1576-1595. *)
  Definition manual_checkpoints : M mstate unit :=
    tick ;;;
    b <- getc k_chkpt ;;
    if b : bool then modc (set_kchkpt false) ;;; checkpoint else ret tt.

  (** Lines 1010-1013. *)
  Definition purge_one (i : nat) : M mstate unit :=
    a <- is_alive i ;;
    b <- in_grave i ;;
    if negb a && b then modc (fun c => set_kpacks (ndel i (k_packs c)) c) else ret tt.

  (** self.convergence_checker(self) *)
  Definition checker_call : M mstate bool :=
    t <- tick ;; c <- getc (fun c => c) ;; lift (w_check w t c).

  (** Lines 1030-1037. *)
  Definition periodic_checkpoint : M mstate unit :=
    if g_chk g then
      t <- tick ;;
      c <- getc (fun c => c) ;;
      if w_time_chk w t then checkpoint
      else match g_iter_freq g with
           | Some n => if Nat.ltb n (k_f c - k_last_iter c) then modc (fun c => set_klast_iter (k_f c) c) ;;; checkpoint else ret tt
           | None => ret tt
           end
    else ret tt.

  (** Lines 989-1037: one iteration of the management loop.  Returns checker_condition. *)
  Definition iteration : M mstate bool :=
    note EvIter ;;;
    fill_slots ;;;
    ids <- pack_ids ;;
    for_each ids (fun i => check_signals i ;;; ret tt) ;;;
    process_results (Some 10) ;;;
    manual_shutdowns ;;;
    manual_checkpoints ;;;
    inspect_children ;;;
    ids <- pack_ids ;;
    for_each ids purge_one ;;;
    ids <- pack_ids ;;
    l <- living ids ;;
    let all_dead := Nat.eqb (length l) 0 in
    chk <- checker_call ;;
    act (EvJudge chk all_dead) (fun c => set_kconverged (chk || (all_dead && negb (k_spawn c))) c) ;;;
    periodic_checkpoint ;;;
    ret chk.
  Fixpoint main_loop (fuel : nat) (r : reason) : M mstate reason :=
    match fuel with
    | 0 => raise OutOfFuel
    | S fuel' =>
        conv <- getc k_converged ;;
        if conv : bool then ret r
        else chk <- iteration ;; main_loop fuel' (if chk : bool then RChecker else r)
    end.

  (** _stop_all_children, 1639-1676; [why] is its argument crash_reason. *)
  Fixpoint drain_loop (fuel : nat) : M mstate unit :=
    match fuel with
    | 0 => raise OutOfFuel
    | S fuel' => o <- queue_get ;; match o with Some _ => drain_loop fuel' | None => ret tt end
    end.
  Definition stop_one (why : option string) (i : nat) : M mstate unit :=
    has <- getc (fun c => is_ok (get_metadata i "end_cond" (k_log c)) && is_ok (get_metadata i "t_stop" (k_log c))) ;;
    (if has : bool then ret tt else
     modc (bury i) ;;; put_end i (match why with Some m => m | None => "GloMPO Convergence" end)) ;;;
    a <- is_alive i ;;
    if a : bool then tick ;;; is_alive i ;;; ret tt else ret tt.
  Definition stop_all_children (why : option string) : M mstate unit :=
    ids <- pack_ids ;;
    try_except
      (for_each ids (fun i => a <- is_alive i ;; if a : bool then send i (match why with Some _ => OCrash | None => OStop end) else ret tt))
      is_exception (fun _ => ret tt) ;;;
    try_except (drain_loop (S limit)) is_exception (fun _ => ret tt) ;;;
    for_each ids (stop_one why).

  (** Lines 958-1045, the body of the big try: restart the loaded optimizers, loop, final checkpoint, stop. *)
  Definition restart_one (i : nat) : M mstate unit :=
    ext ;;;
    modc (fun c => match nget i (k_packs c) with
                   | Some h => set_kpacks (nset i (mkCh (c_slots h) true 0 [] false true) (k_packs c)) c
                   | None => c
                   end).
  (** The argument of _stop_all_children in the except clauses, 1050-1062. *)
  Definition crash_text (e : exn) : string := match e with KeyboardInterrupt => "User Interrupt" | _ => "GloMPO Crash" end.
  Definition run_body (r : reason) : M mstate reason :=
    ids <- pack_ids ;;
    for_each ids restart_one ;;;
    r <- main_loop (S limit) r ;;
    (if g_chk g && g_at_conv g then checkpoint else ret tt) ;;;
    stop_all_children None ;;;
    ret r.

  (** Lines 1064-1096: the finally clause; it returns, so whatever was raised before is dropped. *)
  Definition finish (r : reason) : M mstate (option reason * result) :=
    act EvEnd (fun c => set_kresult (mkR (match r_x (k_result c) with Some [] => None | x => x end)
                                    (r_fx (k_result c)) (r_stats (k_result c)) (r_origin (k_result c))) c) ;;;
    logm log_close ;;;
    c <- getc (fun c => c) ;;
    ret (Some r, k_result c).

  (** start_manager, 895-1096.  The end condition is returned next to the result (it is stored in result.stats);
      no end condition: the run was not started. *)
  Definition start_manager : M mstate (option reason * result) :=
    pre <- try_except
             (chk <- checker_call ;;
              c <- getc (fun c => c) ;;
              let conv := chk || (Nat.eqb (length (k_packs c)) 0 && negb (k_spawn c)) in
              modc (set_kconverged conv) ;;;
              ret (Some conv))
             is_exception (fun _ => modc (set_kconverged false) ;;; ret None) ;;
    match pre with
    | Some true => c <- getc (fun c => c) ;; ret (None, k_result c)
    | _ =>
        ext ;;;
        fun s => match run_body (match pre with Some _ => RDead | None => RNone end) s with
                 | (Ok r, s1) => finish r s1
                 | (Err OutOfFuel, s1) => (Err OutOfFuel, s1)
                 | (Err e, s1) =>
                     match stop_all_children (Some (crash_text e)) s1 with
                     | (Err OutOfFuel, s2) => (Err OutOfFuel, s2)
                     | (_, s2) => finish (match e with KeyboardInterrupt => RInterrupt | _ => RCrash e end) s2
                     end
                 end
    end.
End Manager.

(** A manager after setup (480-624), before start_manager. *)
Definition fresh (traj : bool) : mstate :=
  mkMS (mkK [] [] [] 0 0 0 0 0 true false (0, 0) (mkR None None None None) (log_init traj) 0 false [] [] false 0) [].

(** A run, possibly cut off after [limit] interactions with the outside. *)
Definition run (g : config) (w : world) (limit : nat) (traj : bool) : res (option reason * result) * mstate :=
  start_manager g w limit (fresh traj).
