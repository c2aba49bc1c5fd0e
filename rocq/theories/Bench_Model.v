(** * The benchmark functions: glompo/benchmark_fncs.py

    Over the real numbers: no rounding.  A vector is a list; numpy's elementwise operations are [map]; the length of the
    argument is the number of dimensions (an array of another length is outside the model).  The pause [delay] is left out.
    Random numbers drawn at construction or call are arguments. *)
From Coq Require Export Reals Lra List Lia.
Export ListNotations.
Local Open Scope R_scope.

Definition sum (l : list R) : R := fold_right Rplus 0 l.                      (* np.sum *)
Definition prod (l : list R) : R := fold_right Rmult 1 l.                     (* np.prod *)
(** np.arange(1, n + 1) *)
Definition arange (n : nat) : list R := map INR (seq 1 n).
Definition map2 {A B C} (f : A -> B -> C) (a : list A) (b : list B) : list C := map (fun ab => f (fst ab) (snd ab)) (combine a b).

(** What a test case offers: BaseTestCase, 35-90. *)
Record case := mkCase { dims : nat; call : list R -> R; min_x : list R; min_fx : R; bounds : list (R * R) }.

(** Ackley, 93-148 *)
Definition ackley (d : nat) (a b c : R) : case := {|
  dims := d;
  call x := - a * exp (- b * sqrt (1 / INR d * sum (map (fun v => v ^ 2) x))) + - exp (1 / INR d * sum (map (fun v => cos (c * v)) x)) + (a + exp 1);
  min_x := repeat 0 d; min_fx := 0; bounds := repeat (-32768 / 1000, 32768 / 1000) d |}.

(** Alpine01, 151-187 *)
Definition alpine01 (d : nat) : case := {|
  dims := d;
  call x := sum (map (fun v => Rabs (sin v * v + 1 / 10 * v)) x);
  min_x := repeat 0 d; min_fx := 0; bounds := repeat (-10, 10) d |}.

(** Alpine02, 190-223; the power binds stronger than the minus. *)
Definition alpine02 (d : nat) : case := {|
  dims := d;
  call x := - prod (map (fun v => sin v * sqrt v) x);
  min_x := repeat (7917 / 1000) d; min_fx := - (2808 / 1000) ^ d; bounds := repeat (0, 10) d |}.

(** Deceptive, 226-292; [mins]: the random location.  [power]: x ** b for x >= 0. *)
Definition power (x b : R) : R := if Req_EM_T x 0 then (if Req_EM_T b 0 then 1 else 0) else Rpower x b.
(** _g, 265-280 *)
Definition dec_g (a x : R) : R :=
  if Rle_dec 0 x then
    if Rle_dec x (8 / 10 * a) then 8 / 10 - x / a
    else if Rle_dec x a then 5 * x / a - 4
    else if Rle_dec x ((1 + 4 * a) / 5) then 5 * (x - a) / (a - 1) + 1
    else if Rle_dec x 1 then (x - 1) / (1 - a) + 8 / 10
    else 0
  else 0.
Definition deceptive (d : nat) (b : R) (mins : list R) (shift : bool) : case := {|
  dims := d;
  call x := let calc := - power (1 / INR d * sum (map2 dec_g mins x)) b in if shift then calc + 1 else calc;
  min_x := mins; min_fx := if shift then 0 else -1; bounds := repeat (0, 1) d |}.

(** Easom, 295-341 *)
Definition easom (shift : bool) : case := {|
  dims := 2;
  call x := let calc := - cos (nth 0 x 0) * cos (nth 1 x 0) * exp (- (nth 0 x 0 - PI) ^ 2 - (nth 1 x 0 - PI) ^ 2) in if shift then calc + 1 else calc;
  min_x := [PI; PI]; min_fx := if shift then 0 else -1; bounds := repeat (-100, 100) 2 |}.

(** Griewank, 344-380 *)
Definition griewank (d : nat) : case := {|
  dims := d;
  call x := 1 + 1 / 4000 * sum (map (fun v => v ^ 2) x) - prod (map2 (fun v i => cos (v / sqrt i)) x (arange (length x)));
  min_x := repeat 0 d; min_fx := 0; bounds := repeat (-600, 600) d |}.

(** ExpLeastSquaresCost, 441-534.  [u]: u_train; [noise]: the factors of sigma_fixed, one for each training point. *)
Definition els_g (u : list R) (p : list R) : list R := map (fun t => sum (map (fun q => exp (- q * t)) p)) u.
Definition els (u p_true noise : list R) (lo hi : R) (eval_noise : R) : case :=
  let g_train := map2 (fun g n => g * (1 + n)) (els_g u p_true) noise in {|
  dims := length p_true;
  call x := sum (map (fun e => (e * (1 + eval_noise)) ^ 2) (map2 Rminus (els_g u x) g_train));
  min_x := p_true; min_fx := sum (map2 (fun g t => (g - t) ^ 2) (els_g u p_true) g_train); bounds := repeat (lo, hi) (length p_true) |}.

(** Line 506: the arrays of g_train_core and of the n_train random numbers must fit; [u_given]: the length of a u_train given
    explicitly, 500-501. *)
Definition els_constructible (u_given : option nat) (n_train : nat) : bool :=
  match u_given with None => true | Some k => Nat.eqb k n_train || Nat.eqb k 1 || Nat.eqb n_train 1 end.

(** Levy, 683-730 *)
Definition levy_w (x : R) : R := 1 + (x - 1) / 4.
Definition levy (d : nat) : case := {|
  dims := d;
  call x := let w := map levy_w x in
    sin (PI * hd 0 w) ^ 2 + sum (map (fun v => (v - 1) ^ 2 * (1 + 10 * sin (PI * v + 1) ^ 2)) w)
    + (last w 0 - 1) ^ 2 * (1 + sin (2 * PI * last w 0) ^ 2);
  min_x := repeat 1 d; min_fx := 0; bounds := repeat (-10, 10) d |}.

(** Qing, 799-835 *)
Definition qing (d : nat) : case := {|
  dims := d;
  call x := sum (map2 (fun v i => (v ^ 2 - i) ^ 2) x (arange d));
  min_x := map sqrt (arange d); min_fx := 0; bounds := repeat (-500, 500) d |}.

(** Rana, 838-881 *)
Definition rana_call (x : list R) : R :=
  let x0 := hd 0 x in
  sum (map (fun v => v * sin (sqrt (Rabs (x0 - v + 1))) * cos (sqrt (Rabs (x0 + v + 1)))
                     + (x0 + 1) * sin (sqrt (Rabs (x0 + v + 1))) * cos (sqrt (Rabs (x0 - v + 1)))) x).
Definition rana (d : nat) : case := {|
  dims := d; call := rana_call; min_x := repeat (-500) d; min_fx := rana_call (repeat (-500) d);
  bounds := repeat (-500000001 / 1000000, 500000001 / 1000000) d |}.

(** Rastrigin, 884-918 *)
Definition rastrigin (d : nat) : case := {|
  dims := d;
  call x := 10 * INR d + sum (map (fun v => v ^ 2 - 10 * cos (2 * PI * v)) x);
  min_x := repeat 0 d; min_fx := 0; bounds := repeat (-512 / 100, 512 / 100) d |}.

(** Rosenbrock, 921-953 *)
Fixpoint rosen (x : list R) : R :=
  match x with a :: ((b :: _) as x') => 100 * (b - a ^ 2) ^ 2 + (1 - a) ^ 2 + rosen x' | _ => 0 end.
Definition rosenbrock (d : nat) : case := {|
  dims := d; call := rosen; min_x := repeat 1 d; min_fx := 0; bounds := repeat (-2048 / 1000, 2048 / 1000) d |}.

(** Schwefel, 956-1000 *)
Definition schwefel (d : nat) (shift : bool) : case := {|
  dims := d;
  call x := let calc := sum (map (fun v => - v * sin (sqrt (Rabs v))) x) in if shift then calc + 4189830 / 10000 * INR d else calc;
  min_x := repeat (4209687 / 10000) d; min_fx := if shift then 1 / 10000 * INR d else - (4189829 / 10000) * INR d;
  bounds := repeat (-500, 500) d |}.

(** Shekel, 1003-1085: rows of [a] cut to the dimensions, [c]. *)
Definition shekel_table (m : nat) : list (list R * R) :=
  let first4 := [([4; 4; 4; 4], 1 / 10); ([1; 1; 1; 1], 2 / 10); ([8; 8; 8; 8], 2 / 10); ([6; 6; 6; 6], 4 / 10)] in
  match m with
  | 5%nat => first4 ++ [([3; 7; 3; 7], 6 / 10)]
  | 7%nat => first4 ++ [([3; 7; 3; 7], 4 / 10); ([2; 9; 2; 9], 6 / 10); ([5; 5; 3; 3], 3 / 10)]
  | 10%nat => first4 ++ [([3; 7; 3; 7], 4 / 10); ([2; 9; 2; 9], 6 / 10); ([5; 5; 3; 3], 3 / 10);
                         ([8; 1; 8; 1], 7 / 10); ([6; 2; 6; 2], 5 / 10); ([7; 36 / 10; 7; 36 / 10], 5 / 10)]
  | _ => []                                                                   (* ValueError at construction *)
  end.
Definition shekel (d m : nat) (shift : bool) : case := {|
  dims := d;
  call x := let calc := - sum (map (fun ac => / (snd ac + sum (map2 (fun v a => (v - a) ^ 2) x (firstn d (fst ac))))) (shekel_table m)) in
    if shift then calc + 12 else calc;
  min_x := repeat 4 d; min_fx := -106 / 10; bounds := repeat (-32768 / 1000, 32768 / 1000) d |}.

(** Shubert, 1088-1179; min_x is None, and so is min_fx for more than two dimensions. *)
Definition shubert_g (f : R -> R) (x : R) : R := sum (map (fun j => j * f ((j + 1) * x + j)) (arange 5)).
Definition shubert_call (style : nat) (shift : bool) (x : list R) : R :=
  match style with
  | 1%nat => let calc := prod (map (shubert_g cos) x) in if shift then calc + 186731 / 1000 else calc
  | 3%nat => let calc := sum (map (shubert_g sin) x) in if shift then calc + 24062499 / 1000000 else calc
  | _ => let calc := sum (map (shubert_g cos) x) in if shift then calc + 29016015 / 1000000 else calc
  end.
Definition shubert_min_fx (d style : nat) (shift : bool) : option R :=
  if Nat.ltb 2 d then None
  else Some (if shift then 0 else match style with 1%nat => -1867309 / 10000 | 3%nat => -24062499 / 1000000 | _ => -29016015 / 1000000 end).

(** Stochastic, 1182-1218; [e]: the random factors of one call. *)
Definition stochastic (d : nat) (e : list R) : case := {|
  dims := d;
  call x := sum (map2 (fun ev i => fst ev * Rabs (snd ev - 1 / i)) (combine e x) (arange d));
  min_x := map (fun i => 1 / i) (arange d); min_fx := 0; bounds := repeat (-5, 5) d |}.

(** StyblinskiTang, 1221-1254 *)
Definition styblinski (d : nat) : case := {|
  dims := d;
  call x := 1 / 2 * sum (map (fun v => v ^ 4 - 16 * v ^ 2 + 5 * v) x);
  min_x := repeat (- (2903534018185960 / 10 ^ 15)) d; min_fx := - (3916616570377142 / 10 ^ 14) * INR d; bounds := repeat (-500, 500) d |}.

(** Trigonometric, 1257-1293 *)
Definition trigonometric (d : nat) : case := {|
  dims := d;
  call x := 1 + sum (map (fun v => let core := (v - 9 / 10) ^ 2 in 8 * sin (7 * core) ^ 2 + 6 * sin (14 * core) ^ 2 + core) x);
  min_x := repeat (9 / 10) d; min_fx := 1; bounds := repeat (-500, 500) d |}.

(** Vincent, 1296-1330 *)
Definition vincent (d : nat) : case := {|
  dims := d;
  call x := - sum (map (fun v => sin (10 * ln v)) x);
  min_x := repeat (770628098 / 10 ^ 8) d; min_fx := - INR d; bounds := repeat (1 / 4, 10) d |}.

(** ZeroSum, 1333-1376 *)
Definition zerosum (d : nat) : case := {|
  dims := d;
  call x := if Req_EM_T (sum x) 0 then 0 else sqrt (Rabs (sum x) * 10000) + 1;
  min_x := repeat (770628098 / 10 ^ 8) d; min_fx := - INR d; bounds := repeat (-10, 10) d |}.

(** Langermann, 383-438 *)
Definition langermann_term (x : list R) (a b c : R) : R :=
  c * cos (PI * ((nth 0 x 0 - a) ^ 2 + (nth 1 x 0 - b) ^ 2)) / exp (((nth 0 x 0 - a) ^ 2 + (nth 1 x 0 - b) ^ 2) / PI).
Definition langermann (shift : bool) : case := {|
  dims := 2;
  call x := let calc := - sum (map (fun p => langermann_term x (fst (fst p)) (snd (fst p)) (snd p)) [(3, 5, 1); (5, 2, 2); (2, 1, 5); (1, 4, 2); (7, 9, 3)]) in
            if shift then calc + 52 / 10 else calc;
  min_x := [200299219 / 10 ^ 8; 1006096 / 10 ^ 6]; min_fx := if shift then 378741 / 10 ^ 7 else - (51621259 / 10 ^ 7); bounds := repeat (0, 10) 2 |}.

(** Michalewicz, 733-795, with [m] a natural number; [None] is the infinity returned for other numbers of dimensions. *)
Definition michalewicz (m : nat) (x : list R) : R :=
  - sum (map (fun p => sin (snd p) * sin (INR (fst p) * snd p ^ 2 / PI) ^ (2 * m)) (combine (seq 1 (length x)) x)).
Definition michalewicz_min_fx (d : nat) : option R :=
  if Nat.eqb d 2 then Some (- (18013 / 10 ^ 4)) else if Nat.eqb d 5 then Some (- (4687658 / 10 ^ 6)) else if Nat.eqb d 10 then Some (- (966015 / 10 ^ 5)) else None.
Definition michalewicz_min_x (d : nat) : list R := repeat 0 d.
Definition michalewicz_bounds (d : nat) : list (R * R) := repeat (0, PI) d.

(** ** Lennard-Jones, 537-680
    A configuration of atoms is a list of points (the code reshapes a flat vector to that). *)
Definition coord (X : list (list R)) (i c : nat) : R := nth c (nth i X []) 0.
(** np.triu_indices(n, 1) *)
Definition triu (n : nat) : list (nat * nat) := flat_map (fun i => map (fun j => (i, j)) (seq (S i) (n - S i))) (seq 0 n).
(** _common_calc, 641-661: coinciding atoms are put at an infinite distance, whose powers with negative exponents are 0. *)
Definition dist_sq (d : nat) (X : list (list R)) (ij : nat * nat) : R :=
  sum (map (fun c => (coord X (fst ij) c - coord X (snd ij) c) ^ 2) (seq 0 d)).
Definition lj_pair (sigma r2 : R) : R :=
  if Req_EM_T r2 0 then 0 else (sigma ^ 2 / r2) ^ 6 - (sigma ^ 2 / r2) ^ 3.
(** __call__, 606-614 *)
Definition lj (n d : nat) (eps sigma : R) (X : list (list R)) : R :=
  sum (map (fun ij => lj_pair sigma (dist_sq d X ij)) (triu n)) * (4 * eps).
(** jacobian, 616-639: the entry of atom [k], coordinate [c]. *)
Definition lj_factor (eps sigma r2 : R) : R :=
  if Req_EM_T r2 0 then 0 else -24 * eps * (2 * sigma ^ 11 * / r2 ^ 7 - sigma ^ 5 * / r2 ^ 4).
Definition lj_jacobian (n d : nat) (eps sigma : R) (X : list (list R)) (k c : nat) : R :=
  sum (map (fun ij =>
    let g := lj_factor eps sigma (dist_sq d X ij) * (coord X (fst ij) c - coord X (snd ij) c) in
    (if Nat.eqb (fst ij) k then g else 0) + (if Nat.eqb (snd ij) k then - g else 0)) (triu n)).
(** min_fx, 668-676: [None] is NaN.  self._dims is the number of parameters, n * d. *)
Definition lj_has_estimate (n d : nat) : bool := Nat.eqb (n * d) 3.
