(** * The wrappers around external optimizers
    Source: glompo/optimizers/cmawrapper.py, gfls.py, nevergrad.py, scipy.py; MinimizeResult, inject and callstop of
    glompo/optimizers/baseoptimizer.py 27-50, 274, 356-358, 397-399.

    The algorithms themselves (pycma, optsam, nevergrad, scipy) are not in the repository.  What they ask for, when they
    stop by themselves, what the manager sends and in which order parallel evaluations finish are inputs here, without any
    restriction.  Logging, printing, pickled result files and the waits on the pause flag are left out; the task does not
    raise. *)
From Verif Require Export Prelude.

(** MinimizeResult, baseoptimizer.py 45-50 *)
Record result (X : Type) := mkR { r_success : bool; r_x : option X; r_fx : num }.
Arguments mkR {X}. Arguments r_success {X}. Arguments r_x {X}. Arguments r_fx {X}.
Definition new_result {X} : result X := mkR false None PInf.

(** The reasons given to callstop which do not count as success (cmawrapper.py 275, gfls.py 177), and others. *)
Inductive reason := ManagerSignal | Crash | Other.
Definition reason_success (r : reason) : bool := match r with Other => true | _ => false end.
(** Messages of the manager that the methods here act on; saving a checkpoint changes nothing in the running optimizer. *)
Inductive msg (X : Type) := MStop (r : reason) | MInject (x : X) (fx : num) | MSave.
Arguments MStop {X}. Arguments MInject {X}. Arguments MSave {X}.

Section CMA.
Context {X : Type}.
(** CMAEvolutionStrategy as far as the wrapper uses it: countiter, callbackstop, everything told, the injected vectors. *)
Record es := mkE { e_iter : nat; e_flag : bool; e_told : list (X * num); e_inj : list X }.
(** es.result[:2]: the best of all told pairs, the first one of equal ones.  A value which is not less than infinity is never
    the best. *)
Fixpoint best (b : option X * num) (l : list (X * num)) : option X * num :=
  match l with [] => b | (x, v) :: r => best (if nlt v (snd b) then (Some x, v) else b) r end.
Definition es_result (e : es) : option X * num := best (None, PInf) (e_told e).

(** CMAOptimizer, cmawrapper.py 61-105, with the strategy of the running minimize. *)
Record cma := mkC { c_es : es; c_result : result X; c_inc : option X * option num; c_ctr : nat; c_injs : list (nat * X);
                    c_pop : option nat }.
(** Settings: workers, whether a manager listens (_results_queue), injection_frequency. *)
Record cfg := mkCfg { g_workers : nat; g_queue : bool; g_freq : option nat }.

(** callstop, 270-275 *)
Definition callstop (r : reason) (c : cma) : cma :=
  mkC (mkE (e_iter (c_es c)) true (e_told (c_es c)) (e_inj (c_es c)))
      (mkR (reason_success r) (r_x (c_result c)) (r_fx (c_result c))) (c_inc c) (c_ctr c) (c_injs c) (c_pop c).
(** check_messages *)
Definition handle (c : cma) (m : msg X) : cma :=
  match m with
  | MStop r => callstop r c
  | MInject x v => mkC (c_es c) (c_result c) (Some x, Some v) (c_ctr c) (c_injs c) (c_pop c)
  | MSave => c
  end.
Definition handle_all (l : list (msg X)) (c : cma) : cma := fold_left handle l c.

(** The inputs of one iteration: whether the strategy stops before it, what it asks for, the messages waiting after each
    finished evaluation of a parallel iteration, which futures can be cancelled if the stop comes, what the user's callback
    returns, the messages waiting after the iteration. *)
Record inp := mkI { i_stop : bool; i_ask : list X; i_during : list (list (msg X)); i_cancel : nat -> bool; i_callback : bool;
                    i_after : list (msg X) }.

(** as_completed, 253-263: one round for each future; the second component tells whether the futures were cancelled. *)
Fixpoint completions (n : nat) (l : list (list (msg X))) (c : cma) : cma * bool :=
  match n with
  | 0 => (c, false)
  | S n => let c := handle_all (hd [] l) c in if e_flag (c_es c) then (c, true) else completions n (tl l) c
  end.
(** 264: the values of the futures which are not cancelled, by slot *)
Fixpoint collect (f : X -> num) (gone : nat -> bool) (slot : nat) (xs : list X) : list num :=
  match xs with [] => [] | x :: r => (if gone slot then [] else [f x]) ++ collect f gone (S slot) r end.
(** _parallel_map, 240-268 *)
Definition parallel_map (g : cfg) (f : X -> num) (i : inp) (c : cma) : list num * cma :=
  if Nat.ltb 1 (g_workers g) then
    let '(c, stopped) := if g_queue g then completions (length (i_ask i)) (i_during i) c else (c, false) in
    (collect f (fun k => stopped && i_cancel i k) 0 (i_ask i), c)
  else (map f (i_ask i), c).

(** min(fx) *)
Definition min_of (l : list num) : res num :=
  match l with [] => Err ValueError | v :: r => Ok (fold_left (fun a b => if nlt b a then b else a) r v) end.
(** a < b where a may be None *)
Definition opt_lt (a : option num) (b : num) : res bool := match a with None => Err TypeError | Some a => Ok (nlt a b) end.

(** 185-189 and 212-217; x is the last population asked for *)
Definition read_result (ok : bool) (xs : option (list X)) (c : cma) : res cma :=
  let '(bx, bv) := es_result (c_es c) in
  match (if neq bv PInf then match xs with None => Err TypeError | Some [] => Err IndexError | Some (a :: _) => Ok (Some a) end else Ok bx) with
  | Ok x => Ok (mkC (c_es c) (mkR ok x bv) (c_inc c) (c_ctr c) (c_injs c) (c_pop c))
  | Err e => Err e
  end.

(** es.tell, 183: the pairs are stored and countiter is increased. *)
Definition tell (xs : list X) (fx : list num) (c : cma) : cma :=
  mkC (mkE (S (e_iter (c_es c))) (e_flag (c_es c)) (e_told (c_es c) ++ combine xs fx) (e_inj (c_es c))) (c_result c) (c_inc c) (c_ctr c)
      (c_injs c) (c_pop c).
(** 180-181 *)
Definition first_incumbent (i : nat) (x0 : X) (fx : list num) (c : cma) : res cma :=
  if Nat.eqb i 1 then match fx with [] => Err IndexError | v :: _ => Ok (mkC (c_es c) (c_result c) (Some x0, Some v) (c_ctr c) (c_injs c) (c_pop c)) end
  else Ok c.
(** 204-208; the vector of an incumbent whose value is known is known *)
Definition injection (g : cfg) (i : nat) (fx : list num) (c : cma) : res cma :=
  match min_of fx with
  | Err e => Err e
  | Ok m =>
    match opt_lt (snd (c_inc c)) m with
    | Err e => Err e
    | Ok false => Ok c
    | Ok true =>
      match g_freq g, fst (c_inc c) with
      | Some (S k), Some x =>
        if Nat.ltb (S k + c_ctr c) i then
          Ok (mkC (mkE (e_iter (c_es c)) (e_flag (c_es c)) (e_told (c_es c)) (e_inj (c_es c) ++ [x])) (c_result c) (c_inc c) i
                  (c_injs c ++ [(i, x)]) (c_pop c))
        else Ok c
      | _, _ => Ok c
      end
    end
  end.

(** One round of the loop, 168-208, for iteration i: [inl c]: the loop is left. *)
Definition round (g : cfg) (f : X -> num) (x0 : X) (i : nat) (w : inp) (c : cma) : res (cma + cma) :=
  let '(fx, c) := parallel_map g f w c in
  if negb (Nat.eqb (length (i_ask w)) (length fx)) then Ok (inl c)
  else match first_incumbent i x0 fx c with
  | Err e => Err e
  | Ok c =>
    match read_result (r_success (c_result c)) (Some (i_ask w)) (tell (i_ask w) fx c) with
    | Err e => Err e
    | Ok c =>
      let c := if i_callback w then callstop Other c else c in
      let c := if g_queue g then handle_all (i_after w) c else c in
      match injection g i fx c with Err e => Err e | Ok c => Ok (inr c) end
    end
  end.

(** The loop for the inputs [ws]; when they are used up it is still running. *)
Inductive outcome := Done (c : cma) (xs : option (list X)) | Running (c : cma) (xs : option (list X)).
Fixpoint loop (g : cfg) (f : X -> num) (x0 : X) (i : nat) (xs : option (list X)) (ws : list inp) (c : cma) : res outcome :=
  match ws with
  | [] => Ok (Running c xs)
  | w :: ws =>
    if e_flag (c_es c) || i_stop w then Ok (Done c xs)
    else match round g f x0 (S i) w c with
    | Err e => Err e
    | Ok (inl c) => Ok (Done c (Some (i_ask w)))
    | Ok (inr c) => loop g f x0 (S i) (Some (i_ask w)) ws c
    end
  end.
(** 212-217 *)
Definition finish (c : cma) (xs : option (list X)) : res cma :=
  read_result (nfinite (snd (es_result (c_es c))) && r_success (c_result c)) xs c.

(** The population size of minimize, 143-148: [set] is the one in cmasettings, [auto] the default of the formula for the
    dimension of x0.  The second component is the size the strategy works with: when neither cmasettings nor task_settings
    have one, pycma takes its own default, which is the same formula. *)
Definition popsize (set : option nat) (auto workers : nat) (c : cma) : cma * nat :=
  match c_pop c with
  | Some (S _) => (c, match set with Some n => n | None => auto end)
  | _ => let n := if Nat.ltb 1 workers then workers else auto in
         (mkC (c_es c) (c_result c) (c_inc c) (c_ctr c) (c_injs c) (Some n), n)
  end.
(** __init__, 77-86, and a fresh start of minimize, 156-162: the strategy and the result are new, injection_counter and
    popsize are not.  c_injs is history only. *)
Definition new_cma (set : option nat) : cma := mkC (mkE 0 false [] []) new_result (None, None) 0 [] set.
Definition fresh (x0 : X) (c : cma) : cma := mkC (mkE 0 false [] [x0]) new_result (c_inc c) (c_ctr c) [] (c_pop c).

(** minimize after 156: a fresh start or, when loaded from a checkpoint, with the state loaded. *)
Definition cma_minimize (restart : bool) (g : cfg) (f : X -> num) (x0 : X) (ws : list inp) (c : cma) : res (cma + cma) :=
  let c := if restart then c else fresh x0 c in
  match loop g f x0 (e_iter (c_es c)) None ws c with
  | Err e => Err e
  | Ok (Running c _) => Ok (inr c)
  | Ok (Done c xs) => match finish c xs with Ok c => Ok (inl c) | Err e => Err e end
  end.
End CMA.
Arguments cma : clear implicits. Arguments es : clear implicits. Arguments inp : clear implicits. Arguments outcome : clear implicits.

(** ** GFLS, gfls.py 95-177 *)
Section GFLS.
Context {X : Type}.
(** Everything that gfls.ask() returned, by number; the futures not told yet; what was told, ncall; the result object and the
    stop condition. *)
Record gfls := mkG { s_asked : list X; s_futures : list nat; s_told : list (nat * num); s_ncall : nat; s_result : result X;
                     s_stop : bool }.
(** 102-111: a fresh start (of a new object), and a restart which forgets the futures *)
Definition new_gfls : gfls := mkG [] [] [] 0 new_result false.
Definition restart_gfls (s : gfls) : gfls := mkG (s_asked s) [] (s_told s) (s_ncall s) (s_result s) (s_stop s).
(** callstop, 174-177 *)
Definition gfls_callstop (r : reason) (s : gfls) : gfls :=
  mkG (s_asked s) (s_futures s) (s_told s) (s_ncall s) (mkR (reason_success r) (r_x (s_result s)) (r_fx (s_result s))) true.
(** The while loop of 159-162: asks until there are [workers] futures. *)
Fixpoint submit (n : nat) (xs : list X) (s : gfls) : gfls :=
  match n, xs with
  | S n, x :: xs => submit n xs (mkG (s_asked s ++ [x]) (s_futures s ++ [length (s_asked s)]) (s_told s) (S (s_ncall s)) (s_result s) (s_stop s))
  | _, _ => s
  end.
(** The inputs of one round: the vectors asked for (as many as are needed), which of the futures is popped from the finished
    ones, whether a hook or the user's callback gives a stop condition, and the messages. *)
Record ginp := mkGI { gi_ask : list X; gi_pop : nat; gi_hook : bool; gi_msgs : list (msg X) }.
(** get_evaluation and tell, 121-122 and 152-172: the answer is the number of the vector, so that its value is that of the
    function there *)
Definition evaluate (workers : nat) (f : X -> num) (w : ginp) (s : gfls) : res gfls :=
  let s := if Nat.ltb 1 workers then submit (workers - length (s_futures s)) (gi_ask w) s else submit 1 (gi_ask w) s in
  match nth_error (s_futures s) (gi_pop w) with
  | None => Err Blocked
  | Some k =>
    match nth_error (s_asked s) k with
    | None => Err Blocked
    | Some x => Ok (mkG (s_asked s) (filter (fun j => negb (Nat.eqb j k)) (s_futures s)) (s_told s ++ [(k, f x)]) (s_ncall s) (s_result s) (s_stop s))
    end
  end.
Definition gfls_handle (s : gfls) (m : msg X) : gfls := match m with MStop r => gfls_callstop r s | _ => s end.
(** 124-136 *)
Definition gfls_round (workers : nat) (queue : bool) (f : X -> num) (w : ginp) (s : gfls) : res gfls :=
  match evaluate workers f w s with
  | Err e => Err e
  | Ok s =>
    let s := if gi_hook w then mkG (s_asked s) (s_futures s) (s_told s) (s_ncall s) (s_result s) true else s in
    Ok (if queue then fold_left gfls_handle (gi_msgs w) s else s)
  end.
(** The loop, 120: the result is None while it is running. *)
Fixpoint gfls_loop (workers : nat) (queue : bool) (f : X -> num) (ws : list ginp) (s : gfls) : res (gfls * option (result X)) :=
  if s_stop s then Ok (s, Some (s_result s))
  else match ws with
  | [] => Ok (s, None)
  | w :: ws => match gfls_round workers queue f w s with Err e => Err e | Ok s => gfls_loop workers queue f ws s end
  end.
End GFLS.
Arguments gfls : clear implicits. Arguments ginp : clear implicits.

(** ** Nevergrad, nevergrad.py *)
(** What is given as callbacks, and what the attribute of the wrapper holds; a callback is its number. *)
Inductive given := GNone | GOne (cb : nat) | GSeq (l : list nat).
Inductive held := HMissing | HNone | HOne (cb : nat) | HList (l : list nat).
(** 115-126 *)
Definition wrap (u : given) : held := match u with GOne c => HList [c] | GNone => HList [] | GSeq _ => HMissing end.
(** 59 *)
Definition assigned (u : given) : held := match u with GOne c => HOne c | GNone => HNone | GSeq l => HList l end.
(** The optimizer with its callback object: how often that is registered, the stop flag, how many messages 0 were sent, the
    calls made to user callbacks; whether ng's loop was told to end (_num_ask, 156). *)
Record ngs := mkN { n_held : held; n_reg : nat; n_stop : bool; n_sent : nat; n_calls : list nat; n_end : bool }.
(** One tell: its value, what the user callbacks return, the stop messages waiting. *)
Record ninp := mkNI { ni_fx : num; ni_cb : nat -> bool; ni_stop : bool }.
Definition big : num := Fin (1000000000000000000000000000000 # 1).
(** The list in line 141: every callback is called. *)
Definition user_callbacks (h : held) : res (list nat) :=
  match h with HMissing => Err AttributeError | HNone => Err TypeError | HOne _ => Err TypeError | HList l => Ok l end.
(** __call__, 128-157 *)
Definition ng_callback (queue : bool) (zero : num) (w : ninp) (s : ngs) : res ngs :=
  if n_stop s then Ok s
  else
    let cond := nle big (ni_fx w) || nle (ni_fx w) zero in
    match (if cond then Ok ([], true) else match user_callbacks (n_held s) with Err e => Err e | Ok l => Ok (l, existsb (ni_cb w) l) end) with
    | Err e => Err e
    | Ok (called, cond) =>
      let stop := queue && (cond || ni_stop w) in
      Ok (mkN (n_held s) (n_reg s) stop (n_sent s + if stop then 1 else 0) (n_calls s ++ called) (n_end s || stop))
    end.
(** ng calls each registered callback at every tell. *)
Fixpoint repeat_callback (k : nat) (queue : bool) (zero : num) (w : ninp) (s : ngs) : res ngs :=
  match k with 0 => Ok s | S k => match ng_callback queue zero w s with Err e => Err e | Ok s => repeat_callback k queue zero w s end end.
Definition ng_tell (queue : bool) (zero : num) (w : ninp) (s : ngs) : res ngs := repeat_callback (n_reg s) queue zero w s.
Fixpoint ng_tells (queue : bool) (zero : num) (ws : list ninp) (s : ngs) : res ngs :=
  match ws with [] => Ok s | w :: ws => match ng_tell queue zero w s with Err e => Err e | Ok s => ng_tells queue zero ws s end end.
(** minimize up to 69: a fresh start and one from a checkpoint.  The checkpoint (95-107) holds the callback object without
    callbacks and with the registrations of ng's optimizer; ng's own counters (n_end) are in it, the messages are not. *)
Definition ng_start (u : given) : ngs := mkN (wrap u) 1 false 0 [] false.
Definition ng_restart (u : given) (s : ngs) : ngs := mkN (assigned u) (S (n_reg s)) false 0 [] (n_end s).
(** checkpoint_save, 95-107: the object saved and the one which goes on. *)
Definition ng_save (s : ngs) : ngs * ngs := (mkN HNone (n_reg s) (n_stop s) (n_sent s) (n_calls s) (n_end s), s).
(** 84-88: one more evaluation, of the recommended vector *)
Definition ng_result {X} (f : X -> num) (x : X) : result X := mkR (nlt (f x) PInf) (Some x) (f x).

(** ** scipy, scipy.py 68-101 *)
(** callback, 68-75; the answers of callbacks may be None.  An empty sequence is falsy. *)
Definition sp_callback (u : given) (ans : nat -> option bool) : res (option bool) :=
  match u with
  | GNone => Ok None
  | GOne _ => Err TypeError
  | GSeq l => Ok (fold_left (fun r c => match ans c with Some b => Some b | None => r end) l None)
  end.
(** 87-101; [general_opt] is False from line 66 on *)
Definition sp_result {X} (x : X) (fun_ : num) (success : bool) : result X :=
  let general_opt := false in mkR (if general_opt then success else false) (Some x) fun_.
