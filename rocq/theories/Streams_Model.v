(** * Print streams, log files of optimizers, and the files of the working directory
    Source: glompo/core/_backends.py 16-98, glompo/common/helpers.py 82-114, glompo/core/manager.py 922-968, 1678-1795, 1974-1992. *)
From Verif Require Export Prelude.

(** ** ThreadPrintRedirect and CustomThread, _backends.py 16-98
    One of the two streams (the code treats both alike).  A file is named by working directory and optimizer; a table of a
    redirect maps the ident of a thread to its file and whether that was closed.  start_manager (967) wraps the stream
    there is, and nobody unwraps it: outermost first. *)
Definition path := (nat * nat)%type.
Definition path_eqb (a b : path) : bool := Nat.eqb (fst a) (fst b) && Nat.eqb (snd a) (snd b).
Definition table := list (nat * (path * bool)).
Definition text := string.
Record streams := mkS { t_tables : list table; t_files : list (path * list text); t_console : list text }.
Definition fget (p : path) (l : list (path * list text)) : list text := match dget path_eqb p l with Some t => t | None => [] end.
Definition fput (p : path) (t : list text) (l : list (path * list text)) := dset path_eqb p t l.

(** write, 81-87: the file of the thread if it is open, otherwise the stream below *)
Fixpoint target (i : nat) (ts : list table) : option path :=
  match ts with
  | [] => None
  | t :: ts => match nget i t with Some (p, false) => Some p | _ => target i ts end
  end.
Definition write (i : nat) (m : text) (s : streams) : streams :=
  match target i (t_tables s) with
  | Some p => mkS (t_tables s) (fput p (fget p (t_files s) ++ [m]) (t_files s)) (t_console s)
  | None => mkS (t_tables s) (t_files s) (t_console s ++ [m])
  end.
(** register, 75-79: opens the file anew (w+).  A stream which is no redirect has no such method (30-36: a warning). *)
Definition register (i : nat) (p : path) (s : streams) : streams :=
  match t_tables s with
  | [] => s
  | t :: ts => mkS (nset i (p, false) t :: ts) (fput p [] (t_files s)) (t_console s)
  end.
(** close(ident), 92-95; a missing entry raises KeyError, which 47-48 turn into a warning *)
Definition close (i : nat) (s : streams) : streams :=
  match t_tables s with
  | [] => s
  | t :: ts => match nget i t with Some (p, _) => mkS (nset i (p, true) t :: ts) (t_files s) (t_console s) | None => s end
  end.
(** What happens: a manager starts; a thread with this ident starts, with a file if it is redirected; a thread prints; a thread
    ends; if it crashed it writes a traceback (38-39), and after its file is closed (44-46) the exception raised again (41) makes
    Python's threading write another one.  [redirected]: whether the ending thread has self.redirect. *)
Inductive sevent := Wrap | Start (i : nat) (p : option path) | Print (i : nat) (m : text) | End (i : nat) (redirected : bool) (crash : option (text * text)).
Definition sstep (s : streams) (e : sevent) : streams :=
  match e with
  | Wrap => mkS ([] :: t_tables s) (t_files s) (t_console s)
  | Start i (Some p) => register i p s
  | Start i None => s
  | Print i m => write i m s
  | End i r c =>
    let s := match c with Some (m, _) => write i m s | None => s end in
    let s := if r then close i s else s in
    match c with Some (_, m) => write i m s | None => s end
  end.
Definition sinit : streams := mkS [] [] [].

(** ** SplitOptimizerLogs, helpers.py 82-114
    A handler with level [h_level] and this filter sits on the logger glompo.optimizers, whose level is [l_level].  A record
    first goes to the handlers of its own logger (the file handler the filter may have added before, without a level),
    then to the handler of the parent.  The name of the logger ends with the number of the optimizer, or with None for an
    optimizer without one. *)
Record logs := mkL { g_opened : list nat; g_files : list (nat * list text); g_handlers : list nat; g_out : list text }.
Record lconf := mkLC { l_level : nat; h_level : nat; propagate : bool }.
Definition linit : logs := mkL [] [] [] [].
Definition lfile (i : nat) (s : logs) : list text := match nget i (g_files s) with Some l => l | None => [] end.
Definition filter_record (c : lconf) (name : option nat) (m : text) (s : logs) : res logs :=
  match name with
  | None => Err ValueError
  | Some i =>
    let s := if nmem i (g_opened s) then s
             else mkL (i :: g_opened s) (nset i [m] (g_files s)) (i :: g_handlers s) (g_out s) in
    Ok (if propagate c then mkL (g_opened s) (g_files s) (g_handlers s) (g_out s ++ [m]) else s)
  end.
Definition log_record (c : lconf) (name : option nat) (level : nat) (m : text) (s : logs) : res logs :=
  if Nat.ltb level (l_level c) then Ok s
  else
    let s := match name with
             | Some i => if nmem i (g_handlers s) then mkL (g_opened s) (nset i (lfile i s ++ [m]) (g_files s)) (g_handlers s) (g_out s) else s
             | None => s
             end in
    if Nat.ltb level (h_level c) then Ok s else filter_record c name m s.
Fixpoint log_all (c : lconf) (l : list (option nat * nat * text)) (s : logs) : res logs :=
  match l with
  | [] => Ok s
  | (n, v, m) :: l => match log_record c n v m s with Ok s => log_all c l s | Err e => Err e end
  end.

(** ** The working directory, manager.py 922-968, 1678-1795, 1974-1992
    Each entry carries whether it is a directory and the number of the run which wrote it; the print streams are the files in
    glompo_optimizer_printstreams by optimizer. *)
Record dir := mkDir { d_files : list (string * (bool * nat)); d_streams : option (list (nat * nat)) }.
Fixpoint ends_with (suf s : string) : bool :=
  String.eqb s suf || match s with EmptyString => false | String _ r => ends_with suf r end.
(** glob("pre*suf") *)
Fixpoint glob (pre suf s : string) : bool :=
  match pre, s with
  | EmptyString, _ => ends_with suf s
  | String a p, String b r => Ascii.eqb a b && glob p suf r
  | String _ _, EmptyString => false
  end.
(** The four patterns, 1977-1981, in their order *)
Definition patterns (restart : bool) : list (string -> bool) :=
  [String.eqb "glompo_manager_log.yml"; glob "trajectories" ".png"; glob "opt" "_parms.png"] ++ (if restart then [] else [String.eqb "glompo_log.h5"]).
Definition to_remove (restart : bool) (d : dir) : list string :=
  flat_map (fun p => filter p (map fst (d_files d))) (patterns restart).
(** unlink, 1986-1987: a directory raises *)
Definition drop_file (n : string) (l : list (string * (bool * nat))) := filter (fun e => negb (String.eqb n (fst e))) l.
Fixpoint unlink_all (ns : list string) (l : list (string * (bool * nat))) : res unit * list (string * (bool * nat)) :=
  match ns with
  | [] => (Ok tt, l)
  | n :: ns => match sget n l with
               | Some (false, _) => unlink_all ns (drop_file n l)
               | _ => (Err OSError, l)
               end
  end.
(** _purge_old_results, 1974-1992 *)
Definition purge (restart overwrite : bool) : M dir unit := fun d =>
  match to_remove restart d with
  | [] => (Ok tt, d)
  | ns => if overwrite then
            match unlink_all ns (d_files d) with
            | (Ok _, l) => (Ok tt, mkDir l None)
            | (Err e, l) => (Err e, mkDir l (d_streams d))
            end
          else (Err FileExistsError, d)
  end.
Definition put_file (n : string) (run : nat) (d : dir) : dir := mkDir (sset n (false, run) (d_files d)) (d_streams d).
(** A session of start_manager.  [summary]: summary_files; [split]: split_printstreams; [opts]: the optimizers that ran;
    [plot]: the name of the plot; [matches]: for a restart, whether the log file there has the checksum expected. *)
Record session := mkSe { se_run : nat; se_restart : bool; se_overwrite : bool; se_summary : nat; se_split : bool; se_opts : list nat;
                         se_plot : string; se_matches : bool }.
Definition plot_name (log : bool) : string := if log then "trajectories_log.png" else "trajectories.png".
(** 922-968: the purge, then the check of the log file, then the opening of the log (only FileLogger has a file) and of the
    directory for the streams *)
Definition open_session (w : session) : M dir unit :=
  purge (se_restart w) (se_overwrite w) ;;;
  fun d =>
    let there := dmem String.eqb "glompo_log.h5" (d_files d) in
    if se_restart w && there && negb (se_matches w) then (Err KeyError, d)
    else
      let d := if Nat.ltb 2 (se_summary w) then (if se_restart w && there then d else put_file "glompo_log.h5" (se_run w) d) else d in
      (Ok tt, mkDir (d_files d) (if se_split w then Some (match d_streams d with Some l => l | None => [] end) else d_streams d)).
(** The streams of the optimizers (opened with w) and 1693-1776 *)
Definition close_session (w : session) (d : dir) : dir :=
  let d := if se_split w then mkDir (d_files d) (match d_streams d with Some l => Some (fold_left (fun l o => nset o (se_run w) l) (se_opts w) l) | None => None end) else d in
  let d := if Nat.ltb 0 (se_summary w) then put_file "glompo_manager_log.yml" (se_run w) d else d in
  if Nat.ltb 1 (se_summary w) then put_file (se_plot w) (se_run w) d else d.
Definition run_session (w : session) : M dir unit := open_session w ;;; modify (close_session w).
