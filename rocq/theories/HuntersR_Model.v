(** * The hunters which need square roots, logarithms and exponentials
    Source: glompo/hunters/stepsize.py and valueannealing.py, over the real numbers. *)
From Coq Require Export Reals Qreals.
From Verif Require Export Hunters_Model.

(** helpers.distance, common/helpers.py 232-240.  [None] stands for an infinite or NaN result, which compares
    False with any finite number. *)
Fixpoint rsum2 (p q : list num) : option R :=
  match p, q with
  | Fin a :: p', Fin b :: q' =>
      match rsum2 p' q' with Some r => Some ((Q2R a - Q2R b) ^ 2 + r)%R | None => None end
  | _ :: _, _ :: _ => None
  | _, _ => Some 0%R
  end.
Definition rdistance (p q : list num) : option R := option_map sqrt (rsum2 p q).

(** map(distance, trials[1:], trials[:-1]) *)
Fixpoint steps (trials : list (list num)) : list (option R) :=
  match trials with
  | a :: ((b :: _) as t) => rdistance b a :: steps t
  | _ => []
  end.

(** numpy.mean of the list. *)
Fixpoint osum (l : list (option R)) : option R :=
  match l with
  | [] => Some 0%R
  | Some a :: l' => option_map (Rplus a) (osum l')
  | None :: _ => None
  end.
Definition omean (l : list (option R)) : option R :=
  match l with [] => None | _ => option_map (fun s => s / INR (length l))%R (osum l) end.

(** StepSize.__init__, stepsize.py 35-42: the stored diagonal of the search space. *)
Definition make_step_size (bounds : list (num * num)) : res (option R) :=
  rbind (bounds_valid bounds) (fun _ => Ok (rdistance (map fst bounds) (map snd bounds))).

(** StepSize.__call__, lines 44-61; [space] is trans_space_dist, [tol] is finite. *)
Definition step_size (space : R) (calls : nat) (tol : R) (l : logger) (hunter victim : nat) : res bool :=
  rbind (x_history victim l) (fun xs =>
  let trials := last_n calls xs in
  Ok (if Nat.leb calls (length trials) then
        match omean (steps trials) with
        | Some m => if Rle_dec m (tol * space) then true else false
        | None => false
        end
      else false)).

(** ValueAnnealing.__init__, valueannealing.py 31-35: strictness = log(med_kill_chance). *)
Definition strictness (med_kill_chance : R) : R := ln med_kill_chance.

(** ValueAnnealing.__call__, lines 37-57; [u] is the uniform draw.  A hunter at -inf gives NaN, a victim at +inf a
    survival probability of exp(-inf) = 0. *)
Definition value_annealing (med_kill_chance u : R) (l : logger) (hunter victim : nat) : res bool :=
  rbind (get_best_iter (Some hunter) l) (fun bh =>
  rbind (get_best_iter (Some victim) l) (fun bv =>
  let fh := b_fx bh in
  let fv := b_fx bv in
  Ok (if neq fh (Fin 0) || nle fv fh then false
      else match fh, fv with
           | Fin a, Fin b =>
               let prob := exp (Rabs ((Q2R a - Q2R b) / Q2R a) * strictness med_kill_chance) in
               if Rlt_dec prob u then true else false
           | Fin _, PInf => if Rlt_dec 0 u then true else false
           | _, _ => false
           end))).
