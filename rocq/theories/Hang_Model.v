(** * Forced terminations: optimizers that seem to hang
    Source: glompo/core/manager.py 428-431, 556-558 (force_terminations_after), 990-1012 (the loop), 1292, 1356-1386 (_check_signals),
    1388-1446 (_inspect_children), 1473-1506 (_process_results), 1597-1613 (_shutdown_job).
    The manager model (Manager_Model) leaves to an oracle whether an optimizer was silent for too long; here time is explicit, in whole seconds,
    and stands still within a call of _inspect_children.  SIGTERM is taken to end a process at once.  Optimizers that the loop purges from its
    dictionary (1011-1014) are kept: _inspect_children does nothing to a child that is dead and in the graveyard. *)
From Verif Require Export Prelude.
Open Scope nat_scope.

(** What the metadata 'end_cond' of an optimizer says. *)
Inductive fate := Converged | Hunted | Forced | Unknown | Error.
(** A signal in the pipe: (0, reason) or (9, message). *)
Inductive signal := Conv | Message.
(** One optimizer: its process, exit code and pipe; _last_feedback, hunt_victims and _graveyard of the manager; the end condition in the log. *)
Record ost := mkO { o_alive : bool; o_code : nat; o_pipe : list signal; o_last : nat; o_victim : option nat; o_dead : bool; o_fate : option fate }.
(** The clock, the optimizers, the results queue (chunks: the sender and how many results, at least one; the numbers that optimizers send when they
    close change nothing here), whether the optimizers are held for a checkpoint. *)
Record hst := mkH { h_now : nat; h_count : nat; h_opts : list (nat * ost); h_queue : list (nat * nat); h_paused : bool }.
(** force_terminations_after (None: not positive), process backend, aggressive_kill *)
Record hcfg := mkHC { c_limit : option nat; c_proc : bool; c_aggressive : bool }.

Inductive hevent :=
| Start (i : nat)                (* 1292 *)
| Wait (n : nat)
| Pause | Resume                 (* a checkpoint holds and frees the optimizers *)
| Post (i n : nat)               (* an optimizer puts a chunk of n results on the queue *)
| Send (i : nat) (m : signal)    (* an optimizer sends a signal *)
| Exit (i code : nat)            (* its process ends *)
| Handle (i n : nat)             (* the manager takes a chunk off the queue *)
| Hear (i : nat) (m : signal)    (* _check_signals finds a signal *)
| Hunt (i : nat)                 (* _shutdown_job *)
| Inspect.                       (* _inspect_children *)

Definition with_last t o := mkO (o_alive o) (o_code o) (o_pipe o) t (o_victim o) (o_dead o) (o_fate o).
(** 1364-1381 *)
Definition hear (now : nat) (m : signal) (rest : list signal) (o : ost) : ost :=
  match m with
  | Conv => mkO (o_alive o) (o_code o) rest now (o_victim o) true (Some Converged)
  | Message => mkO (o_alive o) (o_code o) rest now (o_victim o) (o_dead o) (o_fate o)
  end.

Section Step.
Variable c : hcfg.

(** 1396-1417 *)
Definition inspect_exit (now : nat) (o : ost) : ost :=
  if negb (o_dead o) && negb (o_alive o) then
    if Nat.eqb (o_code o) 0 then
      match o_pipe o with
      | m :: rest => hear now m rest o
      | [] => mkO false 0 [] (o_last o) (o_victim o) true (Some Unknown)
      end
    else mkO false (o_code o) (o_pipe o) (o_last o) (o_victim o) true (Some Error)
  else o.
Definition late (now t : nat) : bool := match c_limit c with Some n => Nat.ltb n (now - t) | None => false end.
(** 1420-1431 *)
Definition inspect_hang (now : nat) (o : ost) : ost :=
  if o_alive o && late now (o_last o) && match o_victim o with None => true | Some _ => false end && c_proc c
  then mkO false (o_code o) (o_pipe o) (o_last o) None true (Some Forced) else o.
(** 1434-1446 *)
Definition inspect_zombie (now : nat) (o : ost) : ost :=
  match o_victim o with
  | Some t => if o_alive o && late now t && c_proc c then mkO false (o_code o) (o_pipe o) (o_last o) (Some t) (o_dead o) (Some Forced) else o
  | None => o
  end.
Definition inspect (now : nat) (o : ost) : ost := inspect_zombie now (inspect_hang now (inspect_exit now o)).

Definition upd (i : nat) (f : ost -> ost) (s : hst) : hst :=
  match nget i (h_opts s) with Some o => mkH (h_now s) (h_count s) (nset i (f o) (h_opts s)) (h_queue s) (h_paused s) | None => s end.
Definition alive (i : nat) (s : hst) : bool := match nget i (h_opts s) with Some o => o_alive o | None => false end.

(** None: the event cannot happen. *)
Definition hstep (e : hevent) (s : hst) : option hst :=
  match e with
  | Start i => if Nat.eqb i (S (h_count s)) then Some (mkH (h_now s) i (nset i (mkO true 0 [] (h_now s) None false None) (h_opts s)) (h_queue s) (h_paused s)) else None
  | Wait n => Some (mkH (h_now s + n) (h_count s) (h_opts s) (h_queue s) (h_paused s))
  | Pause => Some (mkH (h_now s) (h_count s) (h_opts s) (h_queue s) true)
  | Resume => Some (mkH (h_now s) (h_count s) (h_opts s) (h_queue s) false)
  | Post i n => if alive i s && negb (h_paused s) && Nat.ltb 0 n then Some (mkH (h_now s) (h_count s) (h_opts s) (h_queue s ++ [(i, n)]) (h_paused s)) else None
  | Send i m => if alive i s then Some (upd i (fun o => mkO (o_alive o) (o_code o) (o_pipe o ++ [m]) (o_last o) (o_victim o) (o_dead o) (o_fate o)) s) else None
  | Exit i k => if alive i s then Some (upd i (fun o => mkO false k (o_pipe o) (o_last o) (o_victim o) (o_dead o) (o_fate o)) s) else None
  | Handle i n => match h_queue s with
                  | (j, m) :: q => if Nat.eqb i j && Nat.eqb n m then
                      Some (upd i (fun o => match o_victim o with None => with_last (h_now s) o | Some _ => o end)
                                (mkH (h_now s) (h_count s) (h_opts s) q (h_paused s)))
                      else None
                  | [] => None
                  end
  | Hear i m => match nget i (h_opts s) with
                | Some o => match o_dead o, o_pipe o, m with
                            | false, Conv :: rest, Conv | false, Message :: rest, Message => Some (upd i (hear (h_now s) m rest) s)
                            | _, _, _ => None
                            end
                | None => None
                end
  | Hunt i => match nget i (h_opts s) with
              | Some o => if o_dead o then None
                          else Some (upd i (fun o => mkO (o_alive o && negb (c_aggressive c && c_proc c)) (o_code o) (o_pipe o) (o_last o) (Some (h_now s)) true (Some Hunted)) s)
              | None => None
              end
  | Inspect => Some (mkH (h_now s) (h_count s) (map (fun p => (fst p, inspect (h_now s) (snd p))) (h_opts s)) (h_queue s) (h_paused s))
  end.
Fixpoint hsteps (l : list hevent) (s : hst) : option hst :=
  match l with [] => Some s | e :: l => match hstep e s with Some s => hsteps l s | None => None end end.
End Step.
Definition hinit : hst := mkH 0 0 [] [] false.
