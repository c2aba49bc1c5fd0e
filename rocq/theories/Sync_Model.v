(** * Checkpoints as a conversation: the manager and its optimizers running concurrently
    glompo/core/manager.py (_checkpoint_optimizers 1798-1884, checkpoint 1200-1203, _toggle_optimizers 1940-1953),
    glompo/optimizers/baseoptimizer.py (check_messages 302-331, _prepare_checkpoint 409-428, _minimize 430-465),
    glompo/optimizers/random.py (minimize 40-85), glompo/core/_backends.py (ChunkingQueue 102-185).

    One manager thread and any number of optimizer threads, each with a pipe in both directions (unbounded), the event
    allow_run_event and the common results queue.  A step of a thread is what happens between two points at which others
    can interfere.  A blocked thread does not change the state.  Messages keep only their kind, results only their
    optimizer.  Between checkpoints the manager may do anything it does in its main loop, in any order. *)
From Verif Require Export Prelude.

(** Signals of the manager: 1, 2, (0, path), 3 and (4, ...): baseoptimizer.py 268-274.  The path is the number of the checkpoint. *)
Inductive msg := Stop | Prep | Save (no : nat) | Pass | Share.
(** Signals of an optimizer: 0, 1 and 9: baseoptimizer.py 333-353. *)
Inductive rep := Ended | Paused | Crashed.
(** What is on the results queue: results and the farewells of _minimize. *)
Inductive item := Res (i : nat) | End (i : nat).

(** Where an optimizer is.  [f]: check_messages was called from the end of minimize (random.py 82), not from its loop (68). *)
Inductive place :=
  | Loop                          (* random.py 48-50: head of the loop *)
  | Put                           (* 60: evaluated, the result is about to be put *)
  | Check (f : bool)              (* in the loop of check_messages, 314-329 *)
  | Gate                          (* random.py 69: _pause_signal.wait() *)
  | Wait (f got : bool)           (* in _prepare_checkpoint, 417-423; [got]: a signal 0 or 3 was among those processed *)
  | Clear (f : bool)              (* 425 *)
  | Held (f : bool)               (* 426: waits for the event *)
  | Farewell                      (* random.py 81: about to send 0 *)
  | Bye                           (* baseoptimizer.py 465: about to put its id *)
  | Dead                          (* not pack.process.is_alive() *)
  | Lost.                         (* a checkpoint signal while preparing another one: nested calls, outside the model *)
Record opt := mkOpt {
  o_at : place;
  o_left : nat;                   (* max_iters - used_iters *)
  o_stop : bool;                  (* stop_called *)
  o_in : list msg;                (* pipe, to the optimizer *)
  o_out : list rep;               (* pipe, to the manager *)
  o_run : bool;                   (* allow_run_event *)
  o_made : nat;                   (* evaluations made *)
  o_saved : list (nat * nat);     (* restart files written: number of the checkpoint, evaluations made until then *)
  o_failed : bool }.              (* an exception ended it *)
Definition at_ p o := mkOpt p (o_left o) (o_stop o) (o_in o) (o_out o) (o_run o) (o_made o) (o_saved o) (o_failed o).
Definition stopped o := mkOpt (o_at o) (o_left o) true (o_in o) (o_out o) (o_run o) (o_made o) (o_saved o) (o_failed o).
Definition set_in l o := mkOpt (o_at o) (o_left o) (o_stop o) l (o_out o) (o_run o) (o_made o) (o_saved o) (o_failed o).
Definition set_out l o := mkOpt (o_at o) (o_left o) (o_stop o) (o_in o) l (o_run o) (o_made o) (o_saved o) (o_failed o).
Definition set_run b o := mkOpt (o_at o) (o_left o) (o_stop o) (o_in o) (o_out o) b (o_made o) (o_saved o) (o_failed o).
Definition evaluated o := mkOpt (o_at o) (Nat.pred (o_left o)) (o_stop o) (o_in o) (o_out o) (o_run o) (S (o_made o)) (o_saved o) (o_failed o).
Definition saved k o := mkOpt (o_at o) (o_left o) (o_stop o) (o_in o) (o_out o) (o_run o) (o_made o) ((k, o_made o) :: o_saved o) (o_failed o).
Definition failed o := mkOpt (o_at o) (o_left o) (o_stop o) (o_in o) (o_out o) (o_run o) (o_made o) (o_saved o) true.
Definition send (m : msg) (o : opt) : opt := set_in (o_in o ++ [m]) o.
Definition reply (r : rep) (o : opt) : opt := set_out (o_out o ++ [r]) o.
Definition alive (o : opt) : bool := match o_at o with Dead => false | _ => true end.
(** A new optimizer with a budget of evaluations. *)
Definition fresh (n : nat) : opt := mkOpt Loop n false [] [] true 0 [] false.
(** _minimize, 458-465: an exception. *)
Definition crash (o : opt) : opt := failed (at_ Bye (reply Crashed o)).

(** The local variables of _checkpoint_optimizers: messaged, wait_reply, living, not_chkpt. *)
Record vars := mkVars { v_asked : list nat; v_wait : list nat; v_living : list nat; v_not : list nat }.
Definition drop (i : nat) (l : list nat) : list nat := filter (fun j => negb (Nat.eqb i j)) l.
Definition replied i v := mkVars (v_asked v) (drop i (v_wait v)) (v_living v) (v_not v).
Definition exclude i v := mkVars (v_asked v) (v_wait v) (v_living v) (i :: v_not v).
Definition gone i v := mkVars (v_asked v) (drop i (v_wait v)) (drop i (v_living v)) (i :: v_not v).

(** Where the manager is.  Lists are what a loop still has to visit. *)
Inductive mplace :=
  | Idle                                          (* not in a checkpoint *)
  | MSend (todo asked : list nat)                 (* 1803-1806 *)
  | MLoop (v : vars)                              (* 1813-1824 *)
  | MDrain (k : nat) (cur : list item) (v : vars) (* 1822: _process_results(n_alive); k results to go, cur: rest of the chunk *)
  | MPoll (todo : list nat) (v : vars)            (* 1826-1848 *)
  | MFlush (cur : list item) (v : vars)           (* 1852: _process_results() *)
  | MEmpty (v : vars)                             (* 1857: the assertion *)
  | MSave (todo : list nat) (v : vars)            (* 1861-1870 *)
  | MClear (todo rem : list nat) (v : vars)       (* 1873-1877 *)
  | MFiles (v : vars)                             (* 1880-1883 *)
  | MStop (todo : list nat)                       (* 1201 *)
  | MRelease (todo : list nat)                    (* 1202 *)
  | MUnhandled                                    (* 1843: RuntimeError *)
  | MNotEmpty                                     (* 1857: AssertionError *)
  | MNoFile.                                      (* 1883: CheckpointingError *)

(** [c_cap]: max_queue_size, None for 0 (unbounded); [c_chunk]: max_chunk_size. *)
Record config := mkConf { c_cap : option nat; c_chunk : nat }.
Record sys := mkSys {
  s_opts : list opt;              (* _optimizer_packs, by opt_id *)
  s_queue : list (list item);
  s_fast : bool;                  (* fast_func *)
  s_cache : list item;
  s_seen : list item;             (* taken from the queue and processed *)
  s_no : nat;                     (* number of this (or the next) checkpoint *)
  s_m : mplace }.
Definition set_opts l s := mkSys l (s_queue s) (s_fast s) (s_cache s) (s_seen s) (s_no s) (s_m s).
Definition set_m m s := mkSys (s_opts s) (s_queue s) (s_fast s) (s_cache s) (s_seen s) (s_no s) m.
Definition start : sys := mkSys [] [] false [] [] 0 Idle.

Fixpoint upd {A} (i : nat) (f : A -> A) (l : list A) : list A :=
  match i, l with
  | _, [] => []
  | O, a :: l' => f a :: l'
  | S j, a :: l' => a :: upd j f l'
  end.
(** To the optimizers chosen by [p]. *)
Definition upd_all {A} (p : nat -> bool) (f : A -> A) (l : list A) : list A := map (fun ia => if p (fst ia) then f (snd ia) else snd ia) (combine (seq 0 (length l)) l).
Definition change (i : nat) (f : opt -> opt) (s : sys) : sys := set_opts (upd i f (s_opts s)) s.

(** ** The queue *)
Definition full (c : config) (s : sys) : bool := match c_cap c with None => false | Some n => Nat.leb n (length (s_queue s)) end.
(** put_nowait, 154-174.  None: blocks. *)
Definition put_nowait (c : config) (it : item) (s : sys) : option sys :=
  if s_fast s then
    let cache := s_cache s ++ [it] in
    if Nat.leb (c_chunk c) (length cache) then
      if full c s then None else Some (mkSys (s_opts s) (s_queue s ++ [cache]) true [] (s_seen s) (s_no s) (s_m s))
    else Some (mkSys (s_opts s) (s_queue s) true cache (s_seen s) (s_no s) (s_m s))
  else if full c s then Some (mkSys (s_opts s) (s_queue s) true (s_cache s ++ [it]) (s_seen s) (s_no s) (s_m s))
  else Some (mkSys (s_opts s) (s_queue s ++ [[it]]) false (s_cache s) (s_seen s) (s_no s) (s_m s)).
(** put, 141-152. *)
Definition put (c : config) (it : item) (s : sys) : option sys :=
  if full c s then None
  else if s_fast s then Some (mkSys (s_opts s) (s_queue s ++ [s_cache s ++ [it]]) true [] (s_seen s) (s_no s) (s_m s))
  else Some (mkSys (s_opts s) (s_queue s ++ [[it]]) false (s_cache s) (s_seen s) (s_no s) (s_m s)).

(** ** Steps of an optimizer *)
(** What the environment decides in a step: an evaluation or a save raises an exception; whom the manager stops (hunts) and
    tells a new best when it processes a result; whether that result is ignored (of a hunted optimizer); whether the
    manager has converged; what it does between checkpoints. *)
Inductive action := IRecv (i : nat) | IPop | ISend (i : nat) (stop : bool) | ISpawn (n : nat) | ITerminate (i : nat) | IStart | INothing.
Record choice := mkChoice { h_raise : bool; h_kill : nat -> bool; h_tell : nat -> bool; h_skip : bool; h_conv : bool; h_idle : action }.

Definition ostep (c : config) (h : choice) (i : nat) (s : sys) : sys :=
  match nth_error (s_opts s) i with
  | None => s
  | Some o =>
      match o_at o with
      | Loop => if o_stop o || Nat.eqb (o_left o) 0 then change i (at_ Farewell) s
                else if h_raise h then change i crash s
                else change i (fun o => at_ Put (evaluated o)) s
      | Put => match put_nowait c (Res i) s with None => s | Some s' => change i (at_ (Check false)) s' end
      | Check f =>
          match o_in o with
          | [] => change i (at_ (if f then Bye else Gate)) s
          | m :: l =>
              let s := change i (set_in l) s in
              match m with
              | Stop => change i stopped s
              | Prep => change i (fun o => at_ (Wait f false) (reply Paused o)) s
              | Save k => if h_raise h then change i crash s else change i (saved k) s
              | Pass | Share => s
              end
          end
      | Gate => if o_run o then change i (at_ Loop) s else s
      | Wait f got =>
          match o_in o with
          | [] => if got then change i (at_ (Clear f)) s else s
          | m :: l =>
              let s := change i (set_in l) s in
              match m with
              | Stop => change i stopped s
              | Prep => change i (at_ Lost) s
              | Save k => if h_raise h then change i crash s else change i (fun o => at_ (Wait f true) (saved k o)) s
              | Pass => change i (at_ (Wait f true)) s
              | Share => s
              end
          end
      | Clear f => change i (fun o => at_ (Held f) (set_run false o)) s
      | Held f => if o_run o then change i (at_ (Check f)) s else s
      | Farewell => change i (fun o => at_ (Check true) (reply Ended o)) s
      | Bye => match put c (End i) s with None => s | Some s' => change i (at_ Dead) s' end
      | Dead | Lost => s
      end
  end.

(** ** Steps of the manager *)
(** One result of a chunk, 1480-1521: the optimizers stopped are added to not_chkpt, and one whose farewell is read. *)
Definition handle (h : choice) (it : item) (s : sys) : sys :=
  let s := mkSys (s_opts s) (s_queue s) (s_fast s) (s_cache s) (s_seen s ++ [it]) (s_no s) (s_m s) in
  match it with
  | End _ => s
  | Res _ => set_opts (upd_all (h_tell h) (send Share) (upd_all (h_kill h) (send Stop) (s_opts s))) s
  end.
Definition noted (h : choice) (n : nat) (it : item) (v : vars) : vars :=
  match it with
  | End i => if h_skip h then v else exclude i v                              (* 1482: not the one holding the best *)
  | Res _ => mkVars (v_asked v) (v_wait v) (v_living v) (filter (h_kill h) (seq 0 n) ++ v_not v)
  end.
Definition is_alive (i : nat) (s : sys) : bool := match nth_error (s_opts s) i with Some o => alive o | None => false end.
Definition all_ids (s : sys) : list nat := seq 0 (length (s_opts s)).
Definition pop (s : sys) (m : list item -> mplace) (otherwise : mplace) : sys :=
  match s_queue s with
  | [] => set_m otherwise s
  | ch :: q => mkSys (s_opts s) q (s_fast s) (s_cache s) (s_seen s) (s_no s) (m ch)
  end.

Definition mstep (c : config) (h : choice) (s : sys) : sys :=
  match s_m s with
  | Idle =>
      match h_idle h with
      | IRecv i => change i (fun o => set_out (tl (o_out o)) o) s
      | IPop => match s_queue s with [] => s | ch :: q => mkSys (s_opts s) q (s_fast s) (s_cache s) (s_seen s ++ ch) (s_no s) Idle end
      | ISend i b => change i (send (if b then Stop else Share)) s
      | ISpawn n => set_opts (s_opts s ++ [fresh n]) s
      | ITerminate i => change i (at_ Dead) s
      | IStart => set_m (MSend (all_ids s) []) s
      | INothing => s
      end
  | MSend [] asked => set_m (MLoop (mkVars asked asked asked [])) s
  | MSend (i :: todo) asked =>
      if is_alive i s then set_m (MSend todo (asked ++ [i])) (change i (send Prep) s) else set_m (MSend todo asked) s
  | MLoop v => match v_wait v with
               | [] => set_m (MFlush [] v) s
               | _ => if full c s then set_m (MDrain (length (v_asked v)) [] v) s else set_m (MPoll (v_wait v) v) s
               end
  | MDrain k cur v =>
      match cur with
      | it :: cur' =>
          set_m (MDrain (match it with Res _ => if h_skip h then k else Nat.pred k | End _ => k end) cur' (noted h (length (s_opts s)) it v)) (handle h it s)
      | [] => match k with
              | O => set_m (MPoll (v_wait v) v) s
              | S _ => pop s (fun ch => MDrain k ch v) (MPoll (v_wait v) v)
              end
      end
  | MPoll [] v => set_m (MLoop v) s
  | MPoll (i :: todo) v =>
      match nth_error (s_opts s) i with
      | None => s                                                             (* KeyError: unreachable *)
      | Some o =>
          if alive o then
            match o_out o with
            | [] => set_m (MPoll todo v) s
            | r :: l =>
                let s := change i (set_out l) s in
                match r with
                | Ended => set_m (MPoll todo (exclude i v)) s
                | Paused => set_m (MPoll todo (replied i v)) s
                | Crashed => set_m MUnhandled s
                end
            end
          else set_m (MPoll todo (gone i v)) s
      end
  | MFlush (it :: cur) v => set_m (MFlush cur (noted h (length (s_opts s)) it v)) (handle h it s)
  | MFlush [] v => pop s (fun ch => MFlush ch v) (MEmpty v)
  | MEmpty v => match s_queue s with [] => set_m (MSave (v_asked v) v) s | _ => set_m MNotEmpty s end
  | MSave [] v => set_m (MClear (v_living v) (v_living v) v) s
  | MSave (i :: todo) v =>
      let s' := if is_alive i s then change i (send (if nmem i (v_not v) then Pass else Save (s_no s))) s else s in
      set_m (MSave todo v) s'
  | MClear [] [] v => set_m (MFiles v) s
  | MClear [] rem v => set_m (MClear rem rem v) s
  | MClear (i :: todo) rem v =>
      match nth_error (s_opts s) i with
      | None => s
      | Some o => set_m (MClear todo (if o_run o then rem else drop i rem) v) s
      end
  | MFiles v =>
      if forallb (fun i => nmem i (v_not v) || match nth_error (s_opts s) i with Some o => nmem (s_no s) (map fst (o_saved o)) | None => false end) (v_asked v)
      then set_m (if h_conv h then MStop (all_ids s) else MRelease (all_ids s)) s
      else set_m MNoFile s
  | MStop [] => set_m (MRelease (all_ids s)) s
  | MStop (i :: todo) => set_m (MStop todo) (if is_alive i s then change i (send Stop) s else s)
  | MRelease [] => mkSys (s_opts s) (s_queue s) (s_fast s) (s_cache s) (s_seen s) (S (s_no s)) Idle
  | MRelease (i :: todo) => set_m (MRelease todo) (if is_alive i s then change i (set_run true) s else s)
  | MUnhandled | MNotEmpty | MNoFile => s
  end.

(** ** Runs: [None] is the manager, [Some i] an optimizer. *)
Definition label := (option nat * choice)%type.
Definition step (c : config) (l : label) (s : sys) : sys :=
  match fst l with None => mstep c (snd l) s | Some i => ostep c (snd l) i s end.
Fixpoint steps (c : config) (ls : list label) (s : sys) : sys :=
  match ls with [] => s | l :: ls' => steps c ls' (step c l s) end.
