(** * Hunters
    Source: glompo/hunters/*.py.  The log is the in-memory log of [Logger_Model].
    Numbers are exact; square roots are avoided by comparing squares (both sides
    of the comparison are non-negative), except for StepSize and ValueAnnealing,
    which are in HuntersR_Model.  numpy runs with its default error settings, so
    FloatingPointError (evalsunmoving.py 48-50) is not raised and NaN propagates. *)
From Verif Require Export Logger_Model.

Definition nums_of (l : list cell) : list num := flat_map (fun c => match c with CF v => [v] | _ => [] end) l.
Definition points_of (l : list cell) : list (list num) := flat_map (fun c => match c with CX x => [x] | _ => [] end) l.

(** log.get_history(i, "fx") and log.get_history(i, "x"). *)
Definition fx_history (i : nat) (l : logger) : res (list num) :=
  match get_history i "fx" l with Ok c => Ok (nums_of c) | Err e => Err e end.
Definition x_history (i : nat) (l : logger) : res (list (list num)) :=
  match get_history i "x" l with Ok c => Ok (points_of c) | Err e => Err e end.

(** Python min of a list: the first element no later one is smaller than. *)
Definition pymin (l : list num) : res num :=
  match l with
  | [] => Err ValueError
  | a :: l' => Ok (fold_left (fun m v => if nlt v m then v else m) l' a)
  end.

Definition rbind {A B} (r : res A) (k : A -> res B) : res B := match r with Ok a => k a | Err e => Err e end.

(** MinFuncCalls.__init__ and __call__, min_fcalls.py 21-33; [min_pts] is an int. *)
Definition make_min_func_calls (min_pts : Z) : res nat :=
  if Z.ltb 0 min_pts then Ok (Z.to_nat min_pts) else Err ValueError.
Definition min_func_calls (min_pts : nat) (l : logger) (hunter victim : nat) : res bool :=
  Ok (Nat.leb min_pts (len_opt victim l)).

(** BestUnmoving.__call__, bestunmoving.py 31-46. *)
Definition best_unmoving (calls : nat) (tol : num) (l : logger) (hunter victim : nat) : res bool :=
  rbind (fx_history victim l) (fun vals =>
  if Nat.leb (len_opt victim l) calls then Ok false
  else rbind (pymin (drop_last_n calls vals)) (fun best_at_calls =>
       rbind (pymin vals) (fun best_at_end =>
       Ok (nle (nabs (nminus best_at_end best_at_calls)) (nabs (nmul best_at_calls tol)))))).

(** numpy.mean and the square of numpy.std; both are NaN for an empty list (0/0). *)
Definition nsum (l : list num) : num := fold_right nplus (Fin 0) l.
Definition nmean (l : list num) : num :=
  match l with [] => NaN | _ => nmul (Fin (1 # Pos.of_nat (length l))) (nsum l) end.
Definition nsq (a : num) : num := nmul a a.
Definition nvar (l : list num) : num := let m := nmean l in nmean (map (fun v => nsq (nminus v m)) l).

(** EvaluationsUnmoving.__call__, evalsunmoving.py 34-53: st_dev <= abs(vals[-1] * tol), squared. *)
Definition evals_unmoving (calls : nat) (tol : num) (l : logger) (hunter victim : nat) : res bool :=
  rbind (fx_history victim l) (fun vals =>
  if Nat.ltb (len_opt victim l) calls then Ok false
  else let var := nvar (last_n calls vals) in
       match rev vals with
       | [] => Err IndexError
       | v :: _ => Ok (nle var (nsq (nmul v tol)))
       end).

(** LastPointsInvalid.__call__, lastptsinvalid.py 30-36. *)
Definition last_points_invalid (n_iters : nat) (l : logger) (hunter victim : nat) : res bool :=
  rbind (fx_history victim l) (fun vals =>
  let fcalls := last_n n_iters vals in
  Ok (Nat.leb n_iters (length fcalls) && negb (existsb nfinite fcalls))).

(** TypeHunter.__call__, type.py 38-44; a class is represented by its name, which is what is compared. *)
Definition type_hunter (opt_to_kill : string) (l : logger) (hunter victim : nat) : res bool :=
  match get_metadata victim "opt_type" l with
  | Ok ty => Ok (String.eqb opt_to_kill ty)
  | Err e => Err e
  end.

(** Square of helpers.distance, common/helpers.py 232-240, for points of equal length. *)
Fixpoint dist2 (p q : list num) : num :=
  match p, q with
  | a :: p', b :: q' => nplus (nsq (nminus a b)) (dist2 p' q')
  | _, _ => Fin 0
  end.

(** is_bounds_valid, common/helpers.py 187-229, with raise_invalid=True. *)
Fixpoint bounds_valid (bounds : list (num * num)) : res bool :=
  match bounds with
  | [] => Ok true
  | (lo, hi) :: bs =>
      if nle hi lo then Err ValueError
      else if negb (nfinite lo && nfinite hi) then Err ValueError
      else bounds_valid bs
  end.

(** The attributes relative_distance, (trans_space_dist)^2 and test_all of ParameterDistance. *)
Record pdist := mkPD { pd_rel : num; pd_space2 : num; pd_all : bool }.

(** ParameterDistance.__init__, parameterdistance.py 45-56 ([relative_distance] is a number). *)
Definition make_parameter_distance (bounds : list (num * num)) (rel : num) (test_all : bool) : res pdist :=
  if nlt (Fin 0) rel then
    rbind (bounds_valid bounds) (fun _ => Ok (mkPD rel (dist2 (map fst bounds) (map snd bounds)) test_all))
  else Err ValueError.

(** The loop of lines 67-89: opt_dist / space <= rel, squared. *)
Fixpoint pd_loop (pd : pdist) (compare_to : list nat) (l : logger) (victim : nat) : res bool :=
  match compare_to with
  | [] => Ok false
  | j :: js =>
      if Nat.eqb j victim then pd_loop pd js l victim
      else rbind (x_history j l) (fun hx =>
           match rev hx with
           | [] => pd_loop pd js l victim
           | h1 :: _ =>
               rbind (x_history victim l) (fun vx =>
               match rev vx with
               | [] => Err IndexError
               | v1 :: _ => if nle (dist2 h1 v1) (nmul (nsq (pd_rel pd)) (pd_space2 pd)) then Ok true
                            else pd_loop pd js l victim
               end)
           end)
  end.

(** ParameterDistance.__call__, lines 58-92. *)
Definition parameter_distance (pd : pdist) (l : logger) (hunter victim : nat) : res bool :=
  pd_loop pd (if pd_all pd then seq 1 (n_optimizers l) else [hunter]) l victim.

(** TimeAnnealing.__init__ and __call__, timeannealing.py 36-54.  [u] is random.random(), so that
    random.uniform(0, crit) is crit * u. *)
Definition make_time_annealing (crit : Q) : res Q := if Qle_bool crit 0 then Err ValueError else Ok crit.
Definition time_annealing (crit u : Q) (l : logger) (hunter victim : nat) : res bool :=
  let n_hunter := len_opt hunter l in
  match len_opt victim l with
  | 0 => Err ZeroDivisionError
  | S n => let ratio := (inject_Z (Z.of_nat n_hunter) / inject_Z (Z.of_nat (S n)))%Q in
           Ok (negb (Qle_bool (crit * u) ratio))
  end.
