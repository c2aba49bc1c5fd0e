(** * Convergence checkers
    Source: glompo/convergence/*.py. *)
From Verif Require Export Core_Model.

(** What the checkers read of the manager: f_counter, o_counter, conv_counter, len(hunt_victims), result.fx,
    the clock, t_start ([None] before start_manager) and t_used. *)
Record mview := mkV {
  v_f : nat; v_o : nat; v_conv : nat; v_kills : nat; v_fx : option num;
  v_now : Q; v_start : option Q; v_used : Q }.

Inductive checker :=
  | MaxFuncCalls (fmax : Z)
  | MaxOptsStarted (omax : Z)
  | MaxKills (kills_max : Z)
  | NOptConverged (nconv : Z)
  | TargetCost (target atol : num)
  | MaxSeconds (session_max overall_max : option Q)
  | KillsAfterConvergence (n_killed n_converged : Z).

(** Python truth of an optional number. *)
Definition truthy (o : option Q) : bool := match o with Some q => negb (Qeq_bool q 0) | None => false end.

(** MaxSeconds.__init__, tmax.py 29-33. *)
Definition make_max_seconds (session_max overall_max : option Q) : res checker :=
  if xorb (truthy session_max) (truthy overall_max) then Ok (MaxSeconds session_max overall_max) else Err AssertionError.

(** Private state of KillsAfterConvergence: enough_conv and kill_count, nkillsafterconv.py 14-15. *)
Definition cpriv := (bool * nat)%type.
Definition cpriv0 : cpriv := (false, 0).

Definition geZ (n : nat) (z : Z) : bool := Z.leb z (Z.of_nat n).

(** MaxSeconds.__call__, tmax.py 35-44. *)
Definition elapsed (v : mview) : Q := if truthy (v_start v) then match v_start v with Some t => v_now v - t | None => 0 end else 0.
Definition call_max_seconds (session_max overall_max : option Q) (v : mview) : res bool :=
  let t := elapsed v in
  let (t, cond) := if truthy overall_max then (t + v_used v, overall_max)%Q else (t, session_max) in
  match cond with
  | Some c => Ok (Qle_bool c t)
  | None => Err TypeError
  end.

(** The __call__ methods: fmax.py 13-15, omax.py 13-15, nkills.py 13-15, nconv.py 16-18, ftarget.py 14-20,
    tmax.py 35-44, nkillsafterconv.py 19-25. *)
Definition check_call (k : checker) (v : mview) (p : cpriv) : res bool * cpriv :=
  match k with
  | MaxFuncCalls n => (Ok (geZ (v_f v) n), p)
  | MaxOptsStarted n => (Ok (geZ (v_o v) n), p)
  | MaxKills n => (Ok (geZ (v_kills v) n), p)
  | NOptConverged n => (Ok (geZ (v_conv v) n), p)
  | TargetCost t a => (Ok (match v_fx v with Some fx => nle fx (nplus t a) | None => false end), p)
  | MaxSeconds s o => (call_max_seconds s o v, p)
  | KillsAfterConvergence nk nc =>
      let (enough, count) := p in
      let p := if geZ (v_conv v) nc && negb enough then (true, v_kills v) else (enough, count) in
      let (enough, count) := p in
      (Ok (enough && Z.leb nk (Z.of_nat (v_kills v) - Z.of_nat count)), p)
  end.

(** A tree of checkers: object [i] is the checker [kinds i]. *)
Definition check_behav (kinds : nat -> checker) (i : nat) (v : mview) (p : cpriv) : res bool * cpriv :=
  check_call (kinds i) v p.
Definition check_init : cstate cpriv := mkC (fun _ => None) (fun _ => cpriv0).
