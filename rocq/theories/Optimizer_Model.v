(** * Optimizers: glompo/optimizers/baseoptimizer.py and glompo/optimizers/random.py

    One optimizer, from the start of _minimize to its end.  The manager is an environment: [o_ev] says what each poll of
    the signal pipe finds, [o_gate] what each wait on the pause event does.  The task, the random numbers, callbacks and the
    results queue are oracles.  What the optimizer does to the outside is recorded in [o_tr].  Vectors are passed by value
    (the source passes arrays by reference; RandomOptimizer makes a new one for every evaluation). *)
From Verif Require Import Prelude Logger_Model.

(** ** Messages from the manager *)
Inductive msg :=
  | MKey (k : nat)                       (* an integer *)
  | MTuple (k : nat) (args : list string)(* a tuple with a key; the arguments are opaque *)
  | MEmpty                               (* the empty tuple *)
  | MOdd.                                (* anything else *)
Inductive event := Silent | Arrives (m : msg) | HungUp.

(** What checkpoint_save (361-395) writes for a RandomOptimizer: the attributes which are neither callable nor start with
    '_' nor are 'logger', 'is_restart', 'opt_id', 'n_iter'. *)
Record snapshot := mkSnap {
  n_workers : nat; n_inc : option (string * string); n_detailed : bool;
  n_max : nat; n_used : nat; n_rx : option (list num); n_rfx : num; n_succ : bool; n_stop : bool }.

Inductive act :=
  | AEval (detailed : bool) (x : list num)   (* the task is evaluated *)
  | AReport (r : iterres)                    (* put_nowait on the results queue *)
  | ARefused (r : iterres)                   (* put_nowait raised queue.Full *)
  | ASend (k : nat)                          (* message_manager *)
  | ASave (p : string) (n : snapshot)
  | AClear | ARelease                        (* the pause event *)
  | AStop                                    (* callstop, or the callbacks ask to stop *)
  | ABye (i : nat).                          (* the id on the results queue, 465 *)

Record opt := mkOpt {
  o_id : nat; o_workers : nat; o_detailed : bool; o_restart : bool;
  o_inc : option (string * string);
  o_max : nat; o_used : nat; o_rx : option (list num); o_rfx : num; o_succ : bool; o_stop : bool;
  o_ev : list event; o_gate : list bool; o_calls : nat; o_tr : list act }.

Definition set_inc v s := mkOpt (o_id s) (o_workers s) (o_detailed s) (o_restart s) v (o_max s) (o_used s) (o_rx s) (o_rfx s) (o_succ s) (o_stop s) (o_ev s) (o_gate s) (o_calls s) (o_tr s).
Definition set_used v s := mkOpt (o_id s) (o_workers s) (o_detailed s) (o_restart s) (o_inc s) (o_max s) v (o_rx s) (o_rfx s) (o_succ s) (o_stop s) (o_ev s) (o_gate s) (o_calls s) (o_tr s).
Definition set_result x f s := mkOpt (o_id s) (o_workers s) (o_detailed s) (o_restart s) (o_inc s) (o_max s) (o_used s) x f (o_succ s) (o_stop s) (o_ev s) (o_gate s) (o_calls s) (o_tr s).
Definition set_succ v s := mkOpt (o_id s) (o_workers s) (o_detailed s) (o_restart s) (o_inc s) (o_max s) (o_used s) (o_rx s) (o_rfx s) v (o_stop s) (o_ev s) (o_gate s) (o_calls s) (o_tr s).
Definition set_stop v s := mkOpt (o_id s) (o_workers s) (o_detailed s) (o_restart s) (o_inc s) (o_max s) (o_used s) (o_rx s) (o_rfx s) (o_succ s) v (o_ev s) (o_gate s) (o_calls s) (o_tr s).
Definition set_ev v s := mkOpt (o_id s) (o_workers s) (o_detailed s) (o_restart s) (o_inc s) (o_max s) (o_used s) (o_rx s) (o_rfx s) (o_succ s) (o_stop s) v (o_gate s) (o_calls s) (o_tr s).
Definition set_gate v s := mkOpt (o_id s) (o_workers s) (o_detailed s) (o_restart s) (o_inc s) (o_max s) (o_used s) (o_rx s) (o_rfx s) (o_succ s) (o_stop s) (o_ev s) v (o_calls s) (o_tr s).
Definition set_calls v s := mkOpt (o_id s) (o_workers s) (o_detailed s) (o_restart s) (o_inc s) (o_max s) (o_used s) (o_rx s) (o_rfx s) (o_succ s) (o_stop s) (o_ev s) (o_gate s) v (o_tr s).
Definition log (a : act) (s : opt) : opt := mkOpt (o_id s) (o_workers s) (o_detailed s) (o_restart s) (o_inc s) (o_max s) (o_used s) (o_rx s) (o_rfx s) (o_succ s) (o_stop s) (o_ev s) (o_gate s) (o_calls s) (o_tr s ++ [a]).
Definition act_ (a : act) : M opt unit := modify (log a).

(** ** _MessagingWrapper, 53-104 *)
(** The task: the [k]-th evaluation may answer differently from the others. [t_det] is None when the task has no
    detailed_call. [q_full k]: the [k]-th put finds the queue full. *)
Record task := mkTask { t_call : nat -> list num -> res num; t_det : option (nat -> list num -> res (list num)); q_full : nat -> bool }.

(** __init__, 69-80. *)
Definition wrap (t : task) : M opt unit :=
  fun s => if o_detailed s && match t_det t with None => true | Some _ => false end then (Err AttributeError, s) else (Ok tt, s).

(** _calculate, 88-104: the value of the detailed call or a tuple with the plain value; [detailed] is caller == 'detailed_call'. *)
Definition calculate (t : task) (detailed : bool) (x : list num) : M opt (list num) :=
  fun s =>
    let k := o_calls s in
    let is_det := o_detailed s || detailed in
    match (if is_det then match t_det t with None => None | Some d => Some (d k x) end
           else Some (match t_call t k x with Ok v => Ok [v] | Err e => Err e end)) with
    | None => (Err AttributeError, s)          (* no detailed_call *)
    | Some calc =>
        let s := set_calls (S k) (log (AEval is_det x) s) in
        match calc with
        | Err e => (Err e, s)
        | Ok [] => (Err IndexError, s)
        | Ok ((fx :: extras) as calc) =>
            let r := mkIR (o_id s) x fx extras in
            if q_full t k then (Err QueueFull, log (ARefused r) s) else (Ok calc, log (AReport r) s)
        end
    end.

(** __call__ (82-83) and detailed_call (85-86) with the returns of 102-104. *)
Inductive value := Scalar (v : num) | Whole (l : list num).
Definition wcall (t : task) (x : list num) : M opt value :=
  calc <- calculate t false x ;; match calc with v :: _ => ret (Scalar v) | [] => raise IndexError end.
Definition wdetailed (t : task) (x : list num) : M opt value := calc <- calculate t true x ;; ret (Whole calc).

(** A sequence of uses of the wrapped task by any optimizer, which may catch what is raised. *)
Definition use (t : task) (c : bool * list num) : M opt value := if fst c then wdetailed t (snd c) else wcall t (snd c).
Fixpoint uses (t : task) (cs : list (bool * list num)) (s : opt) : list (res value) * opt :=
  match cs with
  | [] => ([], s)
  | c :: cs' => let (r, s1) := use t c s in let (rs, s2) := uses t cs' s1 in (r :: rs, s2)
  end.

(** ** BaseOptimizer *)
Definition snap (s : opt) : snapshot :=
  mkSnap (o_workers s) (o_inc s) (o_detailed s) (o_max s) (o_used s) (o_rx s) (o_rfx s) (o_succ s) (o_stop s).
(** checkpoint_load, 219-247: the base class is initialised with the arguments of the manager (load_checkpoint 849-857), then the
    saved attributes are set; load_checkpoint sets workers again. *)
Definition load (n : snapshot) (id slots : nat) (ev : list event) (gate : list bool) : opt :=
  mkOpt id slots (n_detailed n) true (n_inc n) (n_max n) (n_used n) (n_rx n) (n_rfx n) (n_succ n) (n_stop n) ev gate 0 [].

(** self._pause_signal.wait(). *)
Definition wait_gate : M opt unit :=
  fun s => match o_gate s with
           | [] => (Ok tt, s)
           | true :: g => (Ok tt, set_gate g s)
           | false :: g => (Err Blocked, set_gate g s)
           end.
Fixpoint drop_silent (l : list event) : list event := match l with Silent :: l' => drop_silent l' | _ => l end.

(** check_messages (302-331) with the table of lines 268-272, and _prepare_checkpoint (409-428); each calls the other, and the
    fuel bounds the total number of rounds.  [acc] is processed_signals. *)
Fixpoint check (fuel : nat) (acc : list nat) : M opt (list nat) :=
  match fuel with
  | 0 => raise OutOfFuel
  | S k =>
    fun s =>
      match o_ev s with
      | [] => (Ok acc, s)
      | Silent :: r => (Ok acc, set_ev r s)
      | HungUp :: _ => (Err EOFError, s)
      | Arrives m :: r =>
          (match m with
           | MKey key =>
               if Nat.ltb key 5 then execute k key [] ;;; check k (acc ++ [key]) else check k acc
           | MTuple key args =>
               if Nat.ltb key 5 then execute k key args ;;; check k (acc ++ [key]) else check k acc
           | MEmpty => raise IndexError
           | MOdd => check k acc
           end) (set_ev r s)
      end
  end
with execute (fuel : nat) (key : nat) (args : list string) : M opt unit :=
  match fuel with
  | 0 => raise OutOfFuel
  | S k =>
    match key, args with
    | 0, [p] | 0, [p; _] => fun s => act_ (ASave p (snap s)) s
    | 1, [] | 1, [_] => act_ AStop ;;; modify (set_stop true)
    | 2, [] => act_ (ASend 1) ;;; prepare k []
    | 3, [] => ret tt
    | 4, [x; fx] => modify (set_inc (Some (x, fx)))
    | _, _ => raise TypeError
    end
  end
with prepare (fuel : nat) (processed : list nat) : M opt unit :=
  match fuel with
  | 0 => raise OutOfFuel
  | S k =>
    if negb (nmem 0 processed) && negb (nmem 3 processed) then
      (fun s => match drop_silent (o_ev s) with
                | [] => (Err Blocked, set_ev [] s)
                | l => (processed <- check k [] ;; prepare k processed) (set_ev l s)
                end)
    else act_ AClear ;;; wait_gate ;;; act_ ARelease
  end.
(** Three rounds for every message are enough. *)
Definition check_messages : M opt (list nat) := fun s => check (4 + 3 * length (o_ev s)) [] s.

(** ** RandomOptimizer.minimize, random.py 45-88 *)
(** np.random.uniform(lo, hi): lo + (hi - lo) * u for a number u of [0, 1). *)
Definition point (u : nat -> Q) (bounds : list (Q * Q)) : list num :=
  map (fun jb => Fin (fst (snd jb) + (snd (snd jb) - fst (snd jb)) * u (fst jb))) (combine (seq 0 (length bounds)) bounds).

Record setup := mkSetup {
  e_task : task;
  e_rand : nat -> nat -> Q;                   (* evaluation, coordinate *)
  e_bounds : list (Q * Q);
  e_callbacks : option (nat -> res bool);
  e_queue : bool }.                           (* is there a results queue *)

Definition scalar (v : value) : num := match v with Scalar v => v | Whole _ => NaN end.

(** The loop of lines 53-78; [n] is max_iters - used_iters, which only the loop changes. *)
Fixpoint mloop (e : setup) (n : nat) (best_f : num) : M opt unit :=
  match n with
  | 0 => ret tt
  | S n' =>
    stop <- gets o_stop ;;
    if (stop : bool) then ret tt else
    (fun s => (Ok tt, set_used (S (o_used s)) s)) ;;;
    x <- gets (fun s => point (e_rand e (o_calls s)) (e_bounds e)) ;;
    v <- wcall (e_task e) x ;;
    let fx := scalar v in
    match e_callbacks e with
    | None => ret tt
    | Some cb => fun s => match cb (o_calls s) with
                          | Err x => (Err x, s)
                          | Ok true => (Ok tt, set_stop true (log AStop s))
                          | Ok false => (Ok tt, s)
                          end
    end ;;;
    when (e_queue e) (check_messages ;;; wait_gate) ;;;
    (if nlt fx best_f then modify (set_result (Some x) fx) ;;; mloop e n' fx else mloop e n' best_f)
  end.
Definition minimize (e : setup) : M opt unit :=
  fun s =>
    (mloop e (o_max s - o_used s) (if o_restart s then o_rfx s else PInf) ;;;
     modify (set_succ true) ;;;
     when (e_queue e) (act_ (ASend 0) ;;; check_messages ;;; ret tt)) s.

(** _minimize, 430-465.  [sends]: the pipe still works when a crash is reported.  The value of minimize is the result object;
    None is returned when an interrupt was caught. *)
Definition minimize_ (e : setup) (sends : bool) : M opt unit :=
  fun s =>
    match (wrap (e_task e) ;;; minimize e) s with
    | (Err Blocked, s') => (Err Blocked, s')
    | (Err OutOfFuel, s') => (Err OutOfFuel, s')
    | (Ok _, s') => (Ok tt, log (ABye (o_id s')) s')
    | (Err KeyboardInterrupt, s') | (Err BrokenPipeError, s') => (Ok tt, log (ABye (o_id s')) s')
    | (Err x, s') => if sends then (Err x, log (ABye (o_id s')) (log (ASend 9) s')) else (Err BrokenPipeError, log (ABye (o_id s')) s')
    end.

(** A new RandomOptimizer, random.py 25-39 with baseoptimizer.py 251-276. *)
Definition fresh (id workers : nat) (detailed : bool) (iters : nat) (ev : list event) (gate : list bool) : opt :=
  mkOpt id workers detailed false None iters 0 None PInf false false ev gate 0 [].
