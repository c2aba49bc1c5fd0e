(** * How a session begins and ends
    Source: glompo/core/manager.py start_manager 895-1096, the parts of _save_log 1678-1795 that record the reason, and
    glompo/common/wrappers.py. *)
From Verif Require Export Prelude.

(** What may be raised: Ctrl-C, SystemExit and the like (BaseException but not Exception), and exceptions with their traceback. *)
Inductive bexn := Interrupt | Exit | Exc (trace : string).

(** Result: x, fx and the stats, of which only end_cond is of interest ([None]: no stats or no end_cond in them) *)
Record answer := mkAn { an_x : option (list num); an_fx : option num; an_cond : option string }.

(** One iteration of the loop, 993-1039: what the work up to the checker raises (994-1019), the result afterwards, whether no
    optimizer is alive, whether spawning is on, what the checker answers or raises, its text, what the rest (1030-1039) raises,
    and the time. *)
Record round := mkRd { rd_work : option bexn; rd_best : answer; rd_dead : bool; rd_spawn : bool; rd_check : bool + bexn;
                       rd_text : string; rd_rest : option bexn; rd_time : nat }.

(** Everything that happens to start_manager, by line. *)
Record events := mkEv {
  e_pre : bool + bexn;               (* 909 *)
  e_pretext : string;                (* 910 *)
  e_idle : bool;                     (* 912: nothing to restart and no spawning *)
  e_prepare : option bexn;           (* 921-958, before the log is open *)
  e_prepare2 : option bexn;          (* 961-977 *)
  e_begin : option bexn;             (* 980-984 *)
  e_start : nat;                     (* 982 *)
  e_restart : option bexn;           (* 988-991 *)
  e_rounds : list round;
  e_leave : option bexn;             (* 1041-1046 *)
  e_stop : option bexn;              (* 1049 *)
  e_stop2 : option bexn;             (* 1056 or 1063 *)
  e_late : nat;                      (* 1070: the time *)
  e_movie : option bexn;             (* 1080, if a movie is recorded *)
  e_fig : option bexn;               (* 1081 *)
  e_save : option bexn;              (* 1084 *)
  e_close : option bexn }.           (* 1092 *)

(** The attributes concerned; [g_yaml] and [g_h5]: the reason in glompo_manager_log.yml and in the log file, [g_stops]: the calls of
    _stop_all_children with their argument. *)
Record mgr := mkMg { g_init : bool; g_result : answer; g_t_end : option nat; g_starts : list nat; g_ends : list nat;
                     g_open : bool; g_summary : nat; g_yaml : option string; g_h5 : option string; g_stops : list (option string) }.
Definition set_result a m := mkMg (g_init m) a (g_t_end m) (g_starts m) (g_ends m) (g_open m) (g_summary m) (g_yaml m) (g_h5 m) (g_stops m).
Definition set_t_end t m := mkMg (g_init m) (g_result m) t (g_starts m) (g_ends m) (g_open m) (g_summary m) (g_yaml m) (g_h5 m) (g_stops m).
Definition set_starts l m := mkMg (g_init m) (g_result m) (g_t_end m) l (g_ends m) (g_open m) (g_summary m) (g_yaml m) (g_h5 m) (g_stops m).
Definition set_ends l m := mkMg (g_init m) (g_result m) (g_t_end m) (g_starts m) l (g_open m) (g_summary m) (g_yaml m) (g_h5 m) (g_stops m).
Definition set_open b m := mkMg (g_init m) (g_result m) (g_t_end m) (g_starts m) (g_ends m) b (g_summary m) (g_yaml m) (g_h5 m) (g_stops m).
Definition set_reasons y h m := mkMg (g_init m) (g_result m) (g_t_end m) (g_starts m) (g_ends m) (g_open m) (g_summary m) y h (g_stops m).
Definition add_stop a m := mkMg (g_init m) (g_result m) (g_t_end m) (g_starts m) (g_ends m) (g_open m) (g_summary m) (g_yaml m) (g_h5 m) (g_stops m ++ [a]).

(** How the call ends; [Running]: the rounds are not enough. *)
Inductive fate := Returns (a : answer) | Raises (e : bexn) | Running.

(** The loop, 993-1039: the reason, or what was raised (with the reason so far), or still running. *)
Inductive left_by := Left (reason : string) | Threw (e : bexn) (reason : string) | Still.
Fixpoint loop (rs : list round) (reason : string) (m : mgr) : left_by * mgr :=
  match rs with
  | [] => (Still, m)
  | r :: rs =>
    let m := set_result (rd_best r) m in
    match rd_work r with
    | Some e => (Threw e reason, m)
    | None =>
      match rd_check r with
      | inr e => (Threw e reason, m)
      | inl c =>
        let m := if c then set_t_end (Some (rd_time r)) m else m in
        let reason := if c then rd_text r else reason in
        match rd_rest r with
        | Some e => (Threw e reason, m)
        | None => if c || (rd_dead r && negb (rd_spawn r)) then (Left reason, m) else loop rs reason m
        end
      end
    end
  end.

(** The body of the try, 979-1049. *)
Definition body (ev : events) (reason : string) (m : mgr) : left_by * mgr :=
  match e_begin ev with
  | Some e => (Threw e reason, m)
  | None =>
    let m := set_starts (g_starts m ++ [e_start ev]) m in
    match e_restart ev with
    | Some e => (Threw e reason, m)
    | None =>
      match loop (e_rounds ev) reason m with
      | (Left reason, m) =>
        match e_leave ev with
        | Some e => (Threw e reason, m)
        | None => let m := add_stop None m in
                  match e_stop ev with Some e => (Threw e reason, m) | None => (Left reason, m) end
        end
      | x => x
      end
    end
  end.

(** _save_log: the reasons recorded, 1693-1695, 1758-1765, 1778-1793. *)
Definition recorded_reason (reason : string) (caught : option string) : string :=
  match caught with Some c => if String.eqb c "" then reason else "Process Crash: " ++ c | None => reason end%string.
Definition save_log (reason : string) (caught : option string) (m : mgr) : mgr :=
  let r := recorded_reason reason caught in
  set_reasons (if Nat.ltb 0 (g_summary m) then Some r else g_yaml m) (if Nat.ltb 2 (g_summary m) then Some r else g_h5 m) m.

Definition index_error : bexn := Exc "IndexError: list assignment index out of range".
Fixpoint replace_last {A} (l : list A) (a : A) : list A := match l with [] => [] | [_] => [a] | b :: l => b :: replace_last l a end.
(** The finally block, 1065-1096.  Its return statement discards whatever was raised before. *)
Definition finally (ev : events) (reason : string) (caught : option string) (m : mgr) : fate * mgr :=
  let t := match g_t_end m with Some t => t | None => e_late ev end in
  let m := set_t_end (Some t) m in
  match (if Nat.eqb (length (g_starts m)) (length (g_ends m))
         then match g_ends m with [] => None | _ => Some (replace_last (g_ends m) t) end
         else Some (g_ends m ++ [t])) with
  | None => (Raises index_error, m)
  | Some ends =>
    let m := set_ends ends m in
    match (match caught with None => e_movie ev | Some _ => None end) with
    | Some e => (Raises e, m)
    | None =>
      match e_fig ev with
      | Some e => (Raises e, m)
      | None =>
        match e_save ev with
        | Some e => (Raises e, m)
        | None =>
          let m := save_log reason caught m in
          let a := g_result m in
          let m := set_result (mkAn (match an_x a with Some [] => None | x => x end) (an_fx a) (Some reason)) m in
          match e_close ev with
          | Some e => (Raises e, m)
          | None => let m := set_open false m in (Returns (g_result m), m)
          end
        end
      end
    end
  end.

(** The try statement, 979-1096.  What the handlers raise is discarded by the finally block as well. *)
Definition guarded (ev : events) (reason : string) (m : mgr) : fate * mgr :=
  match body ev reason m with
  | (Still, m) => (Running, m)
  | (Left reason, m) => finally ev reason None m
  | (Threw Interrupt _, m) => finally ev "User Interrupt" (Some "User Interrupt"%string) (add_stop (Some "User Interrupt"%string) m)
  | (Threw (Exc trace) _, m) => finally ev "GloMPO Crash" (Some trace) (add_stop (Some "GloMPO Crash"%string) m)
  | (Threw Exit reason, m) => finally ev reason None m
  end.

Definition nobody : string := "No optimizers alive, spawning stopped.".
(** start_manager, 895-1096 *)
Definition start_manager (ev : events) (m : mgr) : fate * mgr :=
  if negb (g_init m) then (Returns (mkAn (Some []) (Some PInf) None), m)
  else
    let pre := match e_pre ev with
               | inl c => if c || e_idle ev then inl None else inl (Some nobody)
               | inr (Exc _) => inl (Some "None"%string)
               | inr e => inr e
               end in
    match pre with
    | inr e => (Raises e, m)
    | inl None => (Returns (g_result m), m)
    | inl (Some reason) =>
      match e_prepare ev with
      | Some e => (Raises e, m)
      | None =>
        let m := set_open true m in
        match e_prepare2 ev with
        | Some e => (Raises e, m)
        | None => guarded ev reason m
        end
      end
    end.

(** ** The decorators of wrappers.py
    A call: what the function itself does. *)
Inductive call (A : Type) := Value (a : A) | Throws (e : bexn) | Imports (what : string).
Arguments Value {A}. Arguments Throws {A}. Arguments Imports {A}.
(** catch_user_interrupt, 25-35; [None] for Python's None *)
Definition catch_user_interrupt {A} (c : call A) : call (option A) :=
  match c with Value a => Value (Some a) | Throws Interrupt => Value None | Throws e => Throws e | Imports w => Imports w end.
(** needs_optional_package, 50-68, with the warning *)
Definition needs_optional_package {A} (package : string) (installed : bool) (c : call A) : call (option A) * list string :=
  let warning := ("Unable to construct checkpoint without " ++ package ++ " package installed.")%string in
  if negb installed then (Value None, [warning])
  else match c with
       | Value a => (Value (Some a), [])
       | Imports _ => (Value None, [warning])
       | Throws e => (Throws e, [])
       end.
