(** * Resource usage and status messages
    Source: glompo/core/manager.py _setup_system_monitoring 1955-1962, _build_status_message 1994-2037,
    _summarise_resource_usage 2039-2085, _log_expected_rows 2087-2100; the histories in _checkpoint_manager 1887-1906 and
    load_checkpoint 709-716 and 818-821; the run information in _save_log 1697-1720. *)
From Coq Require Import Qround Ascii DecimalString.
From Verif Require Export Prelude Helpers_Model.

(** ** Samples
    What psutil says about a child process: the bytes it uses, NoSuchProcess (zombies included), or another error such as AccessDenied. *)
Inductive child := Uses (bytes : N) | Gone | Denied.
(** What is read during a status message: cpu_percent, memory_full_info of the manager itself ([None]: an error), its
    children, the load averages over 1, 5 and 15 minutes.  cpu_percent, children and getloadavg are taken not to fail. *)
Record reading := mkRead { r_cpu : Q; r_own : option N; r_kids : list child; r_load : Q * Q * Q }.

(** The attributes concerned.  NaN is [None].  [psutil]: HAS_PSUTIL of this python process; [monitor]: whether _process is set. *)
Definition triple := (option Q * option Q * option Q)%type.
Record mon := mkMon { psutil : bool; monitor : bool; cpu_history : list (option Q); mem_history : list (option N); load_history : list triple }.
Definition add_cpu c m := mkMon (psutil m) (monitor m) (cpu_history m ++ [c]) (mem_history m) (load_history m).
Definition add_mem b m := mkMon (psutil m) (monitor m) (cpu_history m) (mem_history m ++ [b]) (load_history m).
Definition add_load t m := mkMon (psutil m) (monitor m) (cpu_history m) (mem_history m) (load_history m ++ [t]).
Definition start_monitor m := mkMon (psutil m) true (cpu_history m) (mem_history m) (load_history m).

(** A new manager, 285-288. *)
Definition fresh (ps : bool) : mon := mkMon ps false [] [] [].
(** 971-972 and 1960 *)
Definition start (m : mon) : mon := if psutil m then start_monitor m else m.

(** 2024-2029: the sum over the children; NoSuchProcess is skipped, anything else is raised (here RuntimeError). *)
Fixpoint kids_mem (mem : N) (l : list child) : res N :=
  match l with
  | [] => Ok mem
  | Uses b :: l => kids_mem (mem + b)%N l
  | Gone :: l => kids_mem mem l
  | Denied :: _ => Err RuntimeError
  end.

(** 2020-2035.  Without _process, None.oneshot() is an AttributeError. *)
Definition sample (r : reading) : M mon unit :=
  ps <- gets psutil ;;
  if ps then
    p <- gets monitor ;;
    if p then
      modify (add_cpu (Some (r_cpu r))) ;;;                                    (* 2022 *)
      match r_own r with
      | None => raise RuntimeError                                             (* 2024 *)
      | Some own =>
        match kids_mem own (r_kids r) with
        | Err e => raise e
        | Ok mem =>
          modify (add_mem (Some mem)) ;;;                                      (* 2030 *)
          let '(a, b, c) := r_load r in
          modify (add_load (Some a, Some b, Some c))                           (* 2034 *)
        end
      end
    else raise AttributeError
  else ret tt.

(** ** A line of sessions
    [New]: a manager is set up in a process with or without psutil; [Start]: start_manager; [Status]: a status message; [Save]: a
    checkpoint; [Load]: the last checkpoint is loaded in a process with or without psutil.  The state: the manager and the histories
    in the checkpoint (_process is not among what is pickled, line 1895). *)
Inductive event := Start | Status (r : reading) | Save | Load (ps : bool).
Record world := mkW { now : mon; file : option mon }.
Definition nan3 : triple := (None, None, None).
Definition load (ps : bool) (f : mon) : mon :=                                 (* 709-716, 818-821 *)
  add_load nan3 (add_mem None (add_cpu None (mkMon ps false (cpu_history f) (mem_history f) (load_history f)))).
Definition step (e : event) (w : world) : res unit * world :=
  match e with
  | Start => (Ok tt, mkW (start (now w)) (file w))
  | Status r => let (x, m) := sample r (now w) in (x, mkW m (file w))
  | Save => (Ok tt, mkW (now w) (Some (now w)))
  | Load ps => match file w with
               | Some f => (Ok tt, mkW (load ps f) (file w))
               | None => (Err OSError, w)
               end
  end.
(** What was raised is not passed on: a failed status message ends its session, not the manager. *)
Fixpoint play (l : list event) (w : world) : world := match l with [] => w | e :: l => play l (snd (step e w)) end.
Definition begin (ps : bool) : world := mkW (fresh ps) None.

(** ** The summary, 2039-2085
    Floating point numbers are rationals here: sums, quotients and squares are exact, and the square root is rounded to the
    requested number of decimals at once. *)
Local Open Scope Q_scope.
Fixpoint present {A} (l : list (option A)) : list A :=
  match l with [] => [] | Some a :: l => a :: present l | None :: l => present l end.
Definition total (l : list Q) : Q := fold_right Qplus 0 l.
Definition count {A} (l : list A) : Q := inject_Z (Z.of_nat (length l)).
Definition mean (l : list Q) : Q := total l / count l.                          (* np.nanmean of what is not NaN *)
Definition variance (l : list Q) : Q := mean (map (fun x => (x - mean l) * (x - mean l)) l).  (* np.nanstd, ddof = 0, squared *)
Definition ten (k : nat) : Q := inject_Z (10 ^ Z.of_nat k).
Definition round_to (k : nat) (q : Q) : Q := inject_Z (round_even (q * ten k)) / ten k.       (* np.round *)
(** np.round(np.sqrt(v), k) *)
Definition round_sqrt (k : nat) (v : Q) : Q :=
  let w := v * ten k * ten k in
  let n := Z.sqrt (Qfloor w) in
  let h := inject_Z n + (1 # 2) in
  inject_Z (match Qcompare w (h * h) with Lt => n | Gt => n + 1 | Eq => if Z.even n then n else n + 1 end)%Z / ten k.

Definition maxN (l : list N) : N := fold_right N.max 0%N l.
Definition bytes (n : N) : num := Fin (inject_Z (Z.of_N n)).
Definition nanless {A} (l : list (option A)) : bool := match present l with [] => false | _ => true end.
Definition first (t : triple) : option Q := fst (fst t).
Definition second (t : triple) : option Q := snd (fst t).
Definition third (t : triple) : option Q := snd t.

Definition rbind {A B} (a : res A) (f : A -> res B) : res B := match a with Ok v => f v | Err e => Err e end.
Record summary := mkSum { load_ave : list Q; load_std : list Q; mem_ave : string; mem_max : string; cpu_ave : Q; cpu_std : Q }.
(** [len(h) > 0 and not np.all(np.isnan(h))]: some entry is not NaN. *)
Definition summarise (m : mon) : res summary :=
  let cols := [map first (load_history m); map second (load_history m); map third (load_history m)] in
  let some_load := nanless (concat cols) in
  let la := if some_load then map (fun c => round_to 3 (mean (present c))) cols else [0] in
  let ls := if some_load then map (fun c => round_sqrt 3 (variance (present c))) cols else [0] in
  let mems := present (mem_history m) in
  rbind (if nanless (mem_history m) then present_memory 10 (bytes (maxN mems)) 2 else Ok "--"%string) (fun mx =>
  rbind (if nanless (mem_history m) then present_memory 10 (Fin (mean (map (fun n => inject_Z (Z.of_N n)) mems))) 2 else Ok "--"%string) (fun ma =>
  let cpus := present (cpu_history m) in
  let c := nanless (cpu_history m) in
  Ok (mkSum la ls ma mx (if c then round_to 2 (mean cpus) else 0) (if c then round_sqrt 2 (variance cpus) else 0)))).

(** _save_log, 1697-1720: the run information of the summary file; [freq]: whether psutil.cpu_freq() is not None (1714). *)
Definition run_info (freq : bool) (m : mon) : res (option summary) :=
  if psutil m && monitor m then
    rbind (summarise m) (fun s => if freq then Ok (Some s) else Err AttributeError)
  else Ok None.

Local Close Scope Q_scope.
(** ** _build_status_message, 1994-2018: the part about the optimizers *)
Record pack := mkPack { p_id : nat; p_alive : bool; p_slots : nat; p_hist : list num }.
Fixpoint insert (p : pack) (l : list pack) : list pack :=
  match l with [] => [p] | q :: l' => if Nat.leb (p_id p) (p_id q) then p :: l else q :: insert p l' end.
Definition by_id (l : list pack) : list pack := fold_right insert [] l.         (* sorted(self._optimizer_packs.items()) *)

Definition nl : string := String (ascii_of_nat 10) "".
Fixpoint dots (n : nat) : string := match n with 0 => "" | S n => "." ++ dots n end%string.
(** [f'{s:.<{w}}'] *)
Definition pad (w : nat) (s : string) : string := (s ++ dots (w - String.length s))%string.
Definition dec (n : nat) : string := NilZero.string_of_uint (Nat.to_uint n).
Fixpoint last_of (l : list num) : option num := match l with [] => None | [v] => Some v | _ :: l => last_of l end.

(** [f'{n:,}'.replace(',', ' ')]: digits in groups of three from the right. *)
Fixpoint groups (rev_digits : list ascii) (k : nat) : list ascii :=
  match rev_digits with
  | [] => []
  | a :: l => match k with 0 => " "%char :: a :: groups l 2 | S k => a :: groups l k end
  end.
Definition spaced (n : nat) : string :=
  string_of_list_ascii (rev (groups (rev (list_ascii_of_string (dec n))) 3)).

Section Message.
  (** [f'{v:.3E}'] of a float *)
  Variable sci : num -> string.

  Definition opt_line (p : pack) : option string :=
    if p_alive p then
      match last_of (p_hist p) with
      | Some v => Some ("        " ++ pad (if nlt v (Fin 0) then 21 else 22) ("Optimizer " ++ dec (p_id p)) ++ " " ++ sci v ++ nl)%string  (* 2006-2007 *)
      | None => None
      end
    else None.
  Definition live (packs : list pack) : list nat := map p_slots (filter p_alive (by_id packs)).  (* 2001-2003 *)
  (** 2010-2018; [elapsed]: the text of the time *)
  Definition message (elapsed : string) (packs : list pack) (max_jobs evals : nat) (best : option num) : string :=
    ("Status: " ++ nl ++
     "    " ++ pad 26 "Time Elapsed:" ++ " " ++ elapsed ++ nl ++
     "    " ++ pad 26 "Optimizers Alive:" ++ " " ++ dec (length (live packs)) ++ nl ++
     "    " ++ pad 26 "Slots Filled:" ++ " " ++ dec (list_sum (live packs)) ++ "/" ++ dec max_jobs ++ nl ++
     "    " ++ pad 26 "Function Evaluations:" ++ " " ++ spaced evals ++ nl ++
     "    Current Optimizer f_vals:" ++ nl ++
     String.concat "" (present (map opt_line (by_id packs))) ++
     "    " ++ pad 25 "Overall f_best:" ++ " " ++ (match best with Some v => sci v | None => "None" end) ++ nl)%string.
End Message.

(** ** _log_expected_rows, 2087-2100
    The checker as the tree of its combinations; [Some f]: MaxFuncCalls with that limit.  [cond.fmax / 20] is a true division. *)
Inductive checker := Base (limit : option Z) | Both (a b : checker).
Fixpoint bases (c : checker) : list (option Z) := match c with Base l => [l] | Both a b => bases a ++ bases b end.
Definition expected_rows (n_parms : nat) (c : checker) : Q :=
  let r := fold_left (fun acc l => match l with Some f => inject_Z f / 20 | None => acc end)%Q (bases c) 0%Q in
  if Qeq_bool r 0%Q then inject_Z (150 * Z.of_nat n_parms + 5000) else r.
