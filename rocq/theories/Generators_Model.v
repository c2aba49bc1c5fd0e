(** * Generators of starting points
    Source: glompo/generators/*.py.

    Random numbers are arguments.  Points are vectors of rationals: the rounding of floating point arithmetic is
    not modelled.  The AnnealingGenerator runs the internals of scipy and is not modelled. *)
From Verif Require Export Prelude Helpers_Model.

Definition vec := list Q.

(** What the generators look at: [manager.result.x], [manager.f_counter], [manager.o_counter],
    [manager.opt_log._best_iters] (in the order of the dictionary, optimizer 0 first; [None]: no point yet, [x] is
    the empty list) and [manager.opt_log.get_best_iter()]. *)
Record best := mkBest { b_id : nat; b_x : option vec; b_fx : num }.
Record view := mkView { v_result : option vec; v_f : nat; v_o : nat; v_bests : list best; v_best : best; v_bounds : list (Q * Q) }.

(** Bounds accepted by [is_bounds_valid] are finite. *)
Fixpoint finite_bounds (l : list (num * num)) : list (Q * Q) :=
  match l with
  | (Fin a, Fin b) :: l' => (a, b) :: finite_bounds l'
  | _ :: l' => finite_bounds l'
  | [] => []
  end.
Definition checked (bounds : list (num * num)) : res (list (Q * Q)) :=
  match is_bounds_valid bounds true with
  | Ok _ => Ok (finite_bounds bounds)
  | Err e => Err e
  end.

(** [(bounds[:, 1] - bounds[:, 0]) * np.random.random(n) + bounds[:, 0]]; [u] are the random numbers. *)
Fixpoint uniform (bounds : list (Q * Q)) (u : nat -> Q) : vec :=
  match bounds with
  | [] => []
  | b :: bs => ((snd b - fst b) * u 0%nat + fst b)%Q :: uniform bs (fun j => u (S j))
  end.

(** ** RandomGenerator, random.py 16-24 *)
Definition random_generate (bounds : list (Q * Q)) (u : nat -> Q) : vec := uniform bounds u.

(** ** SinglePointGenerator, single.py 16-28 *)
Definition single_init (bounds : list (num * num)) (x : option vec) (u : nat -> Q) : res vec :=
  match checked bounds with
  | Err e => Err e
  | Ok bs => Ok (match x with Some v => v | None => uniform bs u end)
  end.
Definition single_generate (vector : vec) : vec := vector.

(** ** IncumbentGenerator, best.py 24-29 *)
Definition incumbent_generate (bounds : list (Q * Q)) (v : view) (u : nat -> Q) : vec :=
  match v_result v with None => uniform bounds u | Some x => x end.

(** ** PerturbationGenerator, peterbation.py 29-52
    [truncnorm.rvs(a, b, mu, sigma)]: ValueError unless a < b and 0 <= sigma; [mu] for sigma = 0; otherwise
    [mu + sigma * z] with [z] drawn from [a, b]: [draw i a b].  For sigma = 0 numpy divides by zero: [a] and [b]
    are infinite or NaN, and a < b just when mu is strictly inside. *)
Definition truncnorm (lo hi mu sigma z : Q) : res Q :=
  match Qcompare sigma 0 with
  | Lt => Err ValueError
  | Eq => if negb (Qle_bool mu lo) && negb (Qle_bool hi mu) then Ok mu else Err ValueError
  | Gt => Ok (mu + sigma * z)%Q
  end.
Fixpoint perturb (i : nat) (bounds : list (Q * Q)) (loc scale : vec) (draw : nat -> Q -> Q -> Q) : res vec :=
  match bounds, loc with
  | [], _ | _, [] => Ok []
  | b :: bs, mu :: loc' =>
      match scale with
      | [] => Err IndexError                                                  (* 47: self.scale[i] *)
      | sigma :: scale' =>
          let lo := ((fst b - mu) / sigma)%Q in
          let hi := ((snd b - mu) / sigma)%Q in
          match truncnorm (fst b) (snd b) mu sigma (draw i lo hi) with
          | Err e => Err e
          | Ok x => match perturb (S i) bs loc' scale' draw with Err e => Err e | Ok v => Ok (x :: v) end
          end
      end
  end.
Definition perturb_init (x0 : vec) (bounds : list (num * num)) : res (list (Q * Q)) :=
  if negb (Nat.eqb (length bounds) (length x0)) then Err ValueError           (* 34-35 *)
  else checked bounds.
Definition perturb_generate (bounds : list (Q * Q)) (loc scale : vec) (draw : nat -> Q -> Q -> Q) : res vec :=
  perturb 0 bounds loc scale draw.

(** ** ExploitExploreGenerator, exploit_explore.py *)
(** __init__, 39-54; [None]: [max_func_calls] is not an int. *)
Definition exploit_init (bounds : list (num * num)) (max_func_calls : option Z) (focus : Q) : res (list (Q * Q)) :=
  match max_func_calls with
  | None => Err TypeError
  | Some m =>
      if Z.ltb m 2 then Err ValueError
      else if Qle_bool focus 0 then Err ValueError
      else checked bounds
  end.

(** numpy's minimum, maximum and sum: NaN if any entry is NaN. *)
Definition npmin2 (a b : num) : num := if nnan a || nnan b then NaN else if nlt b a then b else a.
Definition npmax2 (a b : num) : num := if nnan a || nnan b then NaN else if nlt a b then b else a.
Definition npmin (l : list num) : num := match l with [] => NaN | a :: l' => fold_left npmin2 l' a end.
Definition npmax (l : list num) : num := match l with [] => NaN | a :: l' => fold_left npmax2 l' a end.
Definition npsum (l : list num) : num := fold_left nplus l (Fin 0).
(** Division by a sum which is NaN, or positive and finite; infinite ones do not occur (an entry of [revert] is
    infinite only beside one that is NaN). *)
Definition npdiv (a s : num) : num :=
  match a, s with Fin p, Fin q => Fin (p / q) | _, _ => NaN end.

(** [np.random.choice(range(n), p=prob)]: with the draw [r] in [0, 1) the first index whose cumulated probability
    exceeds [r].  Probabilities which are NaN: ValueError in newer versions of numpy ([nan_pick = None]), the index 0
    in older ones ([Some 0]). *)
Fixpoint pick (prob : list num) (r acc : Q) : nat :=
  match prob with
  | Fin p :: l => if Qle_bool (acc + p) r then S (pick l r (acc + p)) else 0
  | _ => 0
  end.
Definition choice (prob : list num) (r : Q) (nan_pick : option nat) : res nat :=
  if existsb nnan prob then match nan_pick with None => Err ValueError | Some i => Ok i end
  else Ok (pick prob r 0).

(** [alpha * incumbent + (1 - alpha) * random]: vectors of different lengths are refused by numpy.  (A vector of
    length 1 would be stretched: see [blend].) *)
Fixpoint mix (a : Q) (x y : vec) : vec :=
  match x, y with p :: x', q :: y' => (a * p + (1 - a) * q)%Q :: mix a x' y' | _, _ => [] end.
Definition blend (a : Q) (x y : vec) : res vec :=
  if Nat.eqb (length x) (length y) then Ok (mix a x y)
  else match x, y with
       | [p], _ => Ok (map (fun q => a * p + (1 - a) * q)%Q y)
       | _, [q] => Ok (map (fun p => a * p + (1 - a) * q)%Q x)
       | _, _ => Err ValueError
       end.

Definition find_best (id : nat) (l : list best) : option best := find (fun b => Nat.eqb (b_id b) id) l.

(** The blending parameter, 78-79; [pow] is [** focus]. *)
Definition f_calls (f max : nat) : Q :=
  let q := (inject_Z (Z.of_nat f) / inject_Z (Z.of_nat max))%Q in if Qle_bool 1 q then 1%Q else q.

(** generate, 56-86. *)
Definition exploit_generate (bounds : list (Q * Q)) (max : nat) (pow : Q -> Q) (v : view)
    (u : nat -> Q) (r : Q) (nan_pick : option nat) : res vec :=
  let random := uniform bounds u in                                           (* 58 *)
  let f_track := tl (map b_fx (v_bests v)) in                                 (* 61 *)
  match f_track with
  | [] => Ok random                                                           (* 63-64 *)
  | _ =>
      let shift := map (fun f => nminus f (npmin f_track)) f_track in         (* 67 *)
      let revert := map (fun s => nminus (npmax shift) s) shift in            (* 68 *)
      if forallb (fun x => neq x (Fin 0)) revert then Ok random               (* 69-70 *)
      else
        let prob := map (fun x => npdiv x (npsum revert)) revert in           (* 71 *)
        match choice prob r nan_pick with                                     (* 73 *)
        | Err e => Err e
        | Ok select =>
            match find_best (select + 1) (v_bests v) with                     (* 74 *)
            | None => Err KeyError
            | Some b =>
                let incumbent := match b_x b with Some x => x | None => [] end in
                blend (pow (f_calls (v_f v) max)) incumbent random            (* 78-83 *)
            end
        end
  end.

(** ** BasinHoppingGenerator, basinhopping.py *)
Record bh := mkBH { h_accept : Z; h_step : Q; h_id : nat; h_fx : num }.
(** __init__, 59-75. *)
Definition bh_init (max_step : Q) : bh := mkBH (-1) max_step 0 PInf.

(** x += uniform(-step, step): [u] in [0, 1). *)
Fixpoint jump (step : Q) (x : vec) (u : nat -> Q) : vec :=
  match x with [] => [] | p :: x' => (p + (- step + (step + step) * u 0%nat))%Q :: jump step x' (fun j => u (S j)) end.

(** generate, 77-123.  [other]: the optimizer chosen from the others (98); [metropolis fx fx']: whether w >= rand for
    the values of the other and the best (99-101); [u]: the random numbers of the uniform draws. *)
Definition bh_generate (target factor : Q) (interval : nat) (s : bh) (v : view)
    (other : list nat -> nat) (metropolis : num -> num -> bool) (u : nat -> Q) : res vec * bh :=
  let b := v_best v in
  if neq (b_fx b) PInf then (Ok (uniform (v_bounds v) u), s)                  (* 80-84 *)
  else
    let s := if nle (b_fx b) (h_fx s) && negb (Nat.eqb (b_id b) (h_id s))      (* 87-91 *)
             then mkBH (h_accept s + 1) (h_step s) (b_id b) (b_fx b) else s in
    let avail := filter (fun i => negb (Nat.eqb i 0) && negb (Nat.eqb i (b_id b))) (map b_id (v_bests v)) in (* 94-96 *)
    let pick := match avail with
                | [] => Ok (b, s)
                | _ => match find_best (other avail) (v_bests v) with         (* 98 *)
                       | None => Err KeyError
                       | Some o => if metropolis (b_fx o) (b_fx b)            (* 99-104 *)
                                   then Ok (o, mkBH (h_accept s + 1) (h_step s) (h_id s) (h_fx s)) else Ok (b, s)
                       end
                end in
    match pick with
    | Err e => (Err e, s)
    | Ok (b, s) =>
        if Nat.eqb interval 0 then (Err ZeroDivisionError, s)                 (* 107 *)
        else
          let step :=
            if Nat.eqb (v_o v mod interval) 0 then
              if Nat.eqb (v_o v) 0 then None                                  (* 110: division by zero *)
              else
                let rate := (inject_Z (h_accept s) / inject_Z (Z.of_nat (v_o v)))%Q in
                if negb (Qle_bool rate target) then Some (h_step s / factor)%Q (* 112-113 *)
                else if negb (Qle_bool target rate) then Some (h_step s * factor)%Q (* 115-116 *)
                else Some (h_step s)
            else Some (h_step s) in
          match step with
          | None => (Err ZeroDivisionError, s)
          | Some st =>
              let s := mkBH (h_accept s) st (h_id s) (h_fx s) in
              match b_x b with                                                (* 120-123 *)
              | Some x => (Ok (jump st x u), s)
              | None => (Err AttributeError, s)
              end
          end
    end.
