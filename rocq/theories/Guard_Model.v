(** * The guard against optimizers that crash at once, and the annealing generator
    Source: glompo/core/manager.py 272-280, 1224-1260, 1375-1378; glompo/generators/annealing.py. *)
From Coq Require Export QArith Qabs.
From Verif Require Export Prelude.
Close Scope Q_scope.
Open Scope nat_scope.

(** ** _fill_optimizer_slots, 1224-1260
    f_counter, o_counter, last_opt_spawn and opt_crashed. *)
Record guard := mkG { g_f : nat; g_o : nat; g_last : nat * nat; g_crashed : bool }.
(** 272, 275-280 *)
Definition ginit : guard := mkG 0 0 (0, 0) false.
Inductive alarm := Crashing | NoSlots.
(** What the manager does: fill the slots; read a message of an optimizer (with "Traceback" in it or not); accept an evaluation.
    Filling starts one optimizer for each element of the list, which is the number of evaluations that the generator makes by
    itself (annealing.py 113-114; no other generator has any); [alive]: whether any optimizer is alive afterwards. *)
Inductive gevent := Fill (starts : list nat) (alive : bool) | Message (traceback : bool) | Evaluation.
Definition start_one (s : guard) (k : nat) : guard := mkG (g_f s + k) (S (g_o s)) (g_last s) (g_crashed s).
Definition fill (starts : list nat) (alive : bool) (s : guard) : guard + alarm :=
  if Nat.eqb (fst (g_last s)) (g_f s) && Nat.ltb (snd (g_last s) + 5) (g_o s) && g_crashed s then inr Crashing
  else
    let s := fold_left start_one starts s in
    match starts with
    | [] => if alive then inl s else inr NoSlots
    | _ => inl (if Nat.eqb (fst (g_last s)) (g_f s) then s else mkG (g_f s) (g_o s) (g_f s, g_o s) (g_crashed s))
    end.
Definition gstep (s : guard) (e : gevent) : guard + alarm :=
  match e with
  | Fill l a => fill l a s
  | Message t => inl (mkG (g_f s) (g_o s) (g_last s) (t || g_crashed s))
  | Evaluation => inl (mkG (S (g_f s)) (g_o s) (g_last s) (g_crashed s))
  end.
Fixpoint gsteps (l : list gevent) (s : guard) : guard + alarm :=
  match l with [] => inl s | e :: l => match gstep s e with inl s => gsteps l s | inr a => inr a end end.

(** ** AnnealingGenerator, annealing.py 54-131
    Locations are rational vectors.  What scipy does is an input: the [n]-th run of the chain ends at a location with an energy
    after some evaluations, the [n]-th reset of the state likewise; [cold]: whether the temperature for this iteration is below
    the restart temperature. *)
Definition loc := list Q.
Record scipy := mkSc { chain : nat -> loc * num * nat; reset : nat -> loc * num * nat; cold : nat -> bool }.
(** The attributes, the number of chain runs and resets so far, nfev, and the two counters of the manager and its log. *)
Record anneal := mkA { a_iter : Z; a_last : loc; a_loc : loc; a_energy : num; a_runs : nat; a_resets : nat; a_nfev : nat;
                       m_f : nat; m_log : nat }.
(** np.isclose with its default tolerances *)
Definition rtol : Q := 1 # 100000.
Definition atol : Q := 1 # 100000000.
Definition isclose (a b : Q) : bool := Qle_bool (Qabs (a - b)) (atol + rtol * Qabs b).
Definition all_close (x y : loc) : bool := forallb (fun p => isclose (fst p) (snd p)) (combine x y).
(** state.reset *)
Definition reset_state (sc : scipy) (s : anneal) : anneal :=
  let '(x, fx, n) := reset sc (a_resets s) in
  mkA (a_iter s) (a_last s) x fx (a_runs s) (S (a_resets s)) (a_nfev s + n) (m_f s) (m_log s).
(** reset_temperature, 128-131 *)
Definition reset_temperature (sc : scipy) (s : anneal) : anneal :=
  let s := reset_state sc s in mkA 0 (a_last s) (a_loc s) (a_energy s) (a_runs s) (a_resets s) (a_nfev s) (m_f s) (m_log s).
(** 109-114 *)
Definition run_chain (sc : scipy) (s : anneal) : anneal :=
  let '(x, fx, n) := chain sc (a_runs s) in
  mkA (a_iter s) (a_last s) x fx (S (a_runs s)) (a_resets s) (a_nfev s + n) (m_f s + n) (m_log s + n).
(** The while loop, 97-123; [reps] as at the beginning of a round *)
Fixpoint rounds (sc : scipy) (fuel reps : nat) (s : anneal) : res anneal :=
  match fuel with
  | 0 => Err OutOfFuel
  | S fuel =>
    let s := if cold sc (Z.to_nat (a_iter s)) then reset_temperature sc s else s in
    let s := run_chain sc s in
    if all_close (a_loc s) (a_last s) then
      if Nat.leb 5 (S reps) then rounds sc fuel 0 (reset_temperature sc s) else rounds sc fuel (S reps) s
    else Ok s
  end.
(** __init__, 54-85, with [empty] for the content of np.empty *)
Definition anneal_init (sc : scipy) (empty : loc) (f : nat) : anneal := reset_state sc (mkA (-1) empty [] PInf 0 0 0 f f).
(** generate, 87-126 *)
Definition generate (sc : scipy) (fuel : nat) (best : num * loc) (s : anneal) : res (loc * anneal) :=
  let s := mkA (a_iter s + 1) (a_last s) (a_loc s) (a_energy s) (a_runs s) (a_resets s) (a_nfev s) (m_f s) (m_log s) in
  let s := if nlt (fst best) (a_energy s)
           then mkA (a_iter s) (a_last s) (snd best) (fst best) (a_runs s) (a_resets s) (a_nfev s) (m_f s) (m_log s) else s in
  match rounds sc fuel 0 s with
  | Ok s => Ok (a_loc s, mkA (a_iter s) (a_loc s) (a_loc s) (a_energy s) (a_runs s) (a_resets s) (a_nfev s) (m_f s) (m_log s))
  | Err e => Err e
  end.
