(** * C26-C27: hunters *)
From Coq Require Import Reals Qreals Lra.
From Verif Require Import Prelude Prelude_Proofs Logger_Model Logger_Spec Logger_Proofs Hunters_Model HuntersR_Model Hunters_Spec Hunters_Proofs.

(** Three optimizers; the first has four evaluations. *)
Definition ex_ops : list lop :=
  [ AddOpt 1 "CMA" "t0"; AddHist 1 []; AddOpt 2 "GFLS" "t1"; AddHist 2 []; AddOpt 3 "CMA" "t2"; AddHist 3 [];
    PutIter (mkIR 1 [Fin 1; Fin 2] (Fin 10) []); PutIter (mkIR 1 [Fin 1; Fin 3] (Fin 6) []);
    PutIter (mkIR 1 [Fin 1; Fin 2] (Fin 5) []); PutIter (mkIR 1 [Fin 1; Fin 1] (Fin 7) []);
    PutIter (mkIR 2 [Fin 4; Fin 5] PInf []); PutIter (mkIR 2 [Fin 4; Fin 5] NaN []);
    PutIter (mkIR 3 [Fin 4; Fin 5] NaN []); PutIter (mkIR 3 [Fin 4; Fin 5] (Fin 3) []) ].
Definition ex_log : logger := lexec ex_ops (log_init false).

(** The histories which the theorems below speak about are those of any log filled as C03 describes. *)
Theorem C26_recorded : forall traj pre mid post i ty t hd,
  no_eval_of i pre = true -> no_eval_of i mid = true -> keeps i mid = true -> keeps i post = true ->
  let ops := pre ++ [AddOpt i ty t] ++ mid ++ [AddHist i hd] ++ post in
  recorded (lexec ops (log_init traj)) i (map ir_x (own i (evals ops))) (map ir_fx (own i (evals ops))).
Proof. intros traj pre mid post i ty t hd H1 H2 H3 H4 ops. split; apply (log_history traj pre mid post i ty t hd H1 H2 H3 H4). Qed.
Print Assumptions C26_recorded.

Example C26_recorded_ex :
  recorded ex_log 1 [[Fin 1; Fin 2]; [Fin 1; Fin 3]; [Fin 1; Fin 2]; [Fin 1; Fin 1]] [Fin 10; Fin 6; Fin 5; Fin 7].
Proof. split; reflexivity. Qed.

Theorem C26_min_func_calls : forall l h v xs fs n, recorded l v xs fs ->
  (min_func_calls n l h v = Ok true <-> n <= length fs).
Proof. exact min_func_calls_spec. Qed.
Print Assumptions C26_min_func_calls.

Example C26_min_func_calls_ex : min_func_calls 4 ex_log 2 1 = Ok true /\ min_func_calls 5 ex_log 2 1 = Ok false.
Proof. split; reflexivity. Qed.

(** BestUnmoving: compares the best of all but the last [calls] values with the best of all. *)
Theorem C26_best_unmoving : forall l h v xs old new calls tol,
  recorded l v xs (old ++ new) -> length new = calls -> 0 < calls -> old <> [] ->
  (forall f, In f (old ++ new) -> nnan f = false) ->
  exists a b, least a old /\ least b (old ++ new) /\
    best_unmoving calls tol l h v = Ok (nle (nabs (nminus b a)) (nabs (nmul a tol))).
Proof. exact best_unmoving_spec. Qed.
Print Assumptions C26_best_unmoving.

Example C26_best_unmoving_ex :
  best_unmoving 2 (Fin (1#10)) ex_log 3 1 = Ok false /\ best_unmoving 2 (Fin (1#5)) ex_log 3 1 = Ok true.
Proof. split; reflexivity. Qed.

Theorem C26_best_unmoving_short : forall l h v xs fs calls tol, recorded l v xs fs -> length fs <= calls ->
  best_unmoving calls tol l h v = Ok false.
Proof. exact best_unmoving_short. Qed.
Print Assumptions C26_best_unmoving_short.

Example C26_best_unmoving_short_ex : best_unmoving 4 PInf ex_log 3 1 = Ok false.
Proof. reflexivity. Qed.

(** A victim whose very first evaluation is NaN is never killed by BestUnmoving, however long it stagnates. *)
Theorem C26_best_unmoving_nan : forall l h v xs fs calls tol, recorded l v xs (NaN :: fs) -> 0 < calls ->
  best_unmoving calls tol l h v = Ok false.
Proof. exact best_unmoving_nan. Qed.
Print Assumptions C26_best_unmoving_nan.

Example C26_best_unmoving_nan_ex : recorded ex_log 3 [[Fin 4; Fin 5]; [Fin 4; Fin 5]] [NaN; Fin 3].
Proof. split; reflexivity. Qed.

(** EvaluationsUnmoving: standard deviation of the last [calls] values against the last value. *)
Theorem C26_evals_unmoving : forall l h v xs old new z calls tol,
  recorded l v xs (old ++ map Fin (new ++ [z])) -> length (new ++ [z]) = calls ->
  exists b, evals_unmoving calls (Fin tol) l h v = Ok b /\
    (b = true <-> (std_dev (reals (new ++ [z])) <= Rabs (Q2R z * Q2R tol))%R).
Proof. exact evals_unmoving_spec. Qed.
Print Assumptions C26_evals_unmoving.

Example C26_evals_unmoving_ex :
  recorded ex_log 1 [[Fin 1; Fin 2]; [Fin 1; Fin 3]; [Fin 1; Fin 2]; [Fin 1; Fin 1]] ([Fin 10; Fin 6] ++ map Fin ([5%Q] ++ [7%Q])) /\
  evals_unmoving 2 (Fin (1#7)) ex_log 3 1 = Ok true /\ evals_unmoving 2 (Fin (1#8)) ex_log 3 1 = Ok false.
Proof. repeat split. Qed.

Theorem C26_evals_unmoving_short : forall l h v xs fs calls tol, recorded l v xs fs -> length fs < calls ->
  evals_unmoving calls tol l h v = Ok false.
Proof. exact evals_unmoving_short. Qed.
Print Assumptions C26_evals_unmoving_short.

Example C26_evals_unmoving_short_ex : evals_unmoving 5 PInf ex_log 3 1 = Ok false.
Proof. reflexivity. Qed.

(** With an infinity or NaN among the last [calls] values the answer is False. *)
Theorem C26_evals_unmoving_nonfinite : forall l h v xs old new calls tol f,
  recorded l v xs (old ++ new) -> length new = calls -> In f new -> nfinite f = false ->
  evals_unmoving calls tol l h v = Ok false.
Proof. exact evals_unmoving_nonfinite. Qed.
Print Assumptions C26_evals_unmoving_nonfinite.

Example C26_evals_unmoving_nonfinite_ex : evals_unmoving 2 (Fin 5) ex_log 1 2 = Ok false /\ evals_unmoving 1 (Fin 5) ex_log 1 3 = Ok true.
Proof. split; reflexivity. Qed.

Theorem C26_last_points_invalid : forall l h v xs fs n, recorded l v xs fs -> 0 < n ->
  (last_points_invalid n l h v = Ok true <->
   exists old new, fs = old ++ new /\ length new = n /\ forall f, In f new -> nfinite f = false).
Proof. exact last_points_invalid_spec. Qed.
Print Assumptions C26_last_points_invalid.

Example C26_last_points_invalid_ex :
  last_points_invalid 2 ex_log 1 2 = Ok true /\ last_points_invalid 3 ex_log 1 2 = Ok false /\ last_points_invalid 2 ex_log 1 3 = Ok false.
Proof. repeat split. Qed.

Theorem C26_type_hunter : forall ty l h v t, get_metadata v "opt_type" l = Ok t -> (type_hunter ty l h v = Ok true <-> ty = t).
Proof. exact type_hunter_spec. Qed.
Print Assumptions C26_type_hunter.

Example C26_type_hunter_ex : type_hunter "CMA" ex_log 2 1 = Ok true /\ type_hunter "CMA" ex_log 1 2 = Ok false.
Proof. split; reflexivity. Qed.

(** ParameterDistance against the hunter. *)
Theorem C26_parameter_distance : forall l h v lo hi rel pd ph pv,
  length lo = length hi -> make_parameter_distance (combine (map Fin lo) (map Fin hi)) (Fin rel) false = Ok pd ->
  h <> v -> last_point l h ph -> last_point l v pv ->
  exists b, parameter_distance pd l h v = Ok b /\
    (b = true <-> (euclid (reals ph) (reals pv) <= Q2R rel * euclid (reals lo) (reals hi))%R).
Proof.
  intros l h v lo hi rel pd ph pv Hlen Hmk Hne Hh Hv. apply make_pd_inv in Hmk as [Hrel ->]; [|exact Hlen].
  destruct (pd_loop_spec l v pv lo hi rel false [h] Hrel Hv) as [b [Hb Hiff]].
  { intros j [<-|[]]. right. eauto. }
  exists b. split; [exact Hb|]. rewrite Hiff. split.
  - intros [j [p [[<-|[]] [_ [Hp Hle]]]]]. rewrite (last_point_unique l h ph p Hh Hp) in Hle. exact Hle.
  - intro Hle. exists h, ph. splits; auto. left. reflexivity.
Qed.
Print Assumptions C26_parameter_distance.

Definition ex_pd (rel : Q) (all : bool) : res pdist :=
  make_parameter_distance (combine (map Fin [0; 0]%Q) (map Fin [3; 4]%Q)) (Fin rel) all.
Example C26_parameter_distance_ex :
  ex_pd 1 false = Ok (mkPD (Fin 1) (Fin 25) false) /\
  parameter_distance (mkPD (Fin 1) (Fin 25) false) ex_log 2 1 = Ok true /\
  parameter_distance (mkPD (Fin (9#10)) (Fin 25) false) ex_log 2 1 = Ok false.
Proof. repeat split. Qed.

(** ParameterDistance against all: correct while every optimizer with points has an id up to log.n_optimizers. *)
Theorem C26_parameter_distance_all : forall l h v lo hi rel pd pv,
  length lo = length hi -> make_parameter_distance (combine (map Fin lo) (map Fin hi)) (Fin rel) true = Ok pd ->
  last_point l v pv ->
  (forall j, 1 <= j <= n_optimizers l -> no_point l j \/ exists p, last_point l j p) ->
  (forall j p, last_point l j p -> 1 <= j <= n_optimizers l) ->
  exists b, parameter_distance pd l h v = Ok b /\
    (b = true <-> exists j p, j <> v /\ last_point l j p /\
                  (euclid (reals p) (reals pv) <= Q2R rel * euclid (reals lo) (reals hi))%R).
Proof.
  intros l h v lo hi rel pd pv Hlen Hmk Hv Hin Hout. apply make_pd_inv in Hmk as [Hrel ->]; [|exact Hlen].
  destruct (pd_loop_spec l v pv lo hi rel true (seq 1 (n_optimizers l)) Hrel Hv) as [b [Hb Hiff]].
  { intros j Hj. apply in_seq in Hj. apply Hin. lia. }
  exists b. split; [exact Hb|]. rewrite Hiff. split.
  - intros [j [p [_ H]]]. eauto.
  - intros [j [p [H1 [H2 H3]]]]. exists j, p. splits; auto. apply in_seq. specialize (Hout j p H2). lia.
Qed.
Print Assumptions C26_parameter_distance_all.

Example C26_parameter_distance_all_ex :
  parameter_distance (mkPD (Fin (1#10)) (Fin 25) true) ex_log 1 2 = Ok true /\
  parameter_distance (mkPD (Fin (1#10)) (Fin 25) true) ex_log 2 1 = Ok false.
Proof. repeat split. Qed.

(** After a history was discarded (clear_cache) log.n_optimizers is smaller than the largest id, and with
    test_all=True the last optimizers are not compared: optimizers 2 and 3 stand on the same point and neither
    condition is noticed for the victim 2. *)
Theorem C26_parameter_distance_refuted : exists l pd h v j p,
  ex_pd (1#10) true = Ok pd /\ j <> v /\ last_point l v p /\ last_point l j p /\ parameter_distance pd l h v = Ok false.
Proof.
  exists (snd (clear_cache (Some 1) ex_log)), (mkPD (Fin (1#10)) (Fin 25) true), 3, 2, 3, [4; 5]%Q. splits.
  - reflexivity.
  - discriminate.
  - exists [[Fin 4; Fin 5]], [PInf; NaN]. split; vm_compute; reflexivity.
  - exists [[Fin 4; Fin 5]], [NaN; Fin 3]. split; vm_compute; reflexivity.
  - vm_compute. reflexivity.
Qed.
Print Assumptions C26_parameter_distance_refuted.

(** StepSize: mean step over the last [calls] points.  The code uses <= where its documentation says "less than". *)
Theorem C26_step_size : forall l h v old new fs space calls tol,
  recorded l v (old ++ map (map Fin) new) fs -> length new = calls -> 2 <= calls ->
  exists b, step_size space calls tol l h v = Ok b /\
    (b = true <-> (path_length (map reals new) / INR (calls - 1) <= tol * space)%R).
Proof. exact step_size_spec. Qed.
Print Assumptions C26_step_size.

Example C26_step_size_ex :
  recorded ex_log 1 ([[Fin 1; Fin 2]; [Fin 1; Fin 3]] ++ map (map Fin) [[1; 2]; [1; 1]]%Q) [Fin 10; Fin 6; Fin 5; Fin 7].
Proof. split; reflexivity. Qed.

Theorem C26_step_size_short : forall l h v xs fs space calls tol, recorded l v xs fs -> length xs < calls ->
  step_size space calls tol l h v = Ok false.
Proof. exact step_size_short. Qed.
Print Assumptions C26_step_size_short.

Example C26_step_size_short_ex : forall tol, step_size 1 3 tol ex_log 1 2 = Ok false.
Proof. intro tol. apply (C26_step_size_short ex_log 1 2 [[Fin 4; Fin 5]; [Fin 4; Fin 5]] [PInf; NaN]); [split; reflexivity| cbn; lia]. Qed.

(** StepSize with calls=1 averages nothing and never kills. *)
Theorem C26_step_size_one : forall l h v old new fs space tol, recorded l v (old ++ [new]) fs -> step_size space 1 tol l h v = Ok false.
Proof. exact step_size_one. Qed.
Print Assumptions C26_step_size_one.

Example C26_step_size_one_ex : recorded ex_log 2 ([[Fin 4; Fin 5]] ++ [[Fin 4; Fin 5]]) [PInf; NaN].
Proof. split; reflexivity. Qed.

(** The stored size of the search space is its diagonal. *)
Theorem C26_space : forall lo hi, length lo = length hi -> box lo hi ->
  make_step_size (combine (map Fin lo) (map Fin hi)) = Ok (Some (euclid (reals lo) (reals hi))).
Proof. exact make_step_size_spec. Qed.
Print Assumptions C26_space.

Example C26_space_ex : box [0; 0]%Q [3; 4]%Q.
Proof.
  split; [reflexivity|]. split; [cbn; lia|].
  intros [|[|k]] a b Ha Hb; [injection Ha as <-; injection Hb as <-; reflexivity | injection Ha as <-; injection Hb as <-; reflexivity|].
  destruct k; discriminate Ha.
Qed.

(** C27: TimeAnnealing kills exactly the draws above ratio / crit ... *)
Theorem C27_time_annealing : forall l h v n m crit u, len_opt h l = n -> len_opt v l = m -> 0 < m -> (0 < crit)%Q ->
  exists b, time_annealing crit u l h v = Ok b /\
    (b = true <-> (inject_Z (Z.of_nat n) / inject_Z (Z.of_nat m) / crit < u)%Q).
Proof. exact time_annealing_spec. Qed.
Print Assumptions C27_time_annealing.

Example C27_time_annealing_ex :
  len_opt 1 ex_log = 4 /\ len_opt 2 ex_log = 2 /\ time_annealing 1 (2#3) ex_log 2 1 = Ok true /\ time_annealing 1 (1#3) ex_log 2 1 = Ok false.
Proof. repeat split. Qed.

(** ... so a victim with a ratio of at least crit_ratio survives whatever is drawn. *)
Theorem C27_time_annealing_survives : forall l h v n m crit u, len_opt h l = n -> len_opt v l = m -> 0 < m ->
  (0 < crit)%Q -> (u <= 1)%Q -> (crit <= inject_Z (Z.of_nat n) / inject_Z (Z.of_nat m))%Q ->
  time_annealing crit u l h v = Ok false.
Proof. exact time_annealing_never. Qed.
Print Assumptions C27_time_annealing_survives.

Example C27_time_annealing_survives_ex : time_annealing 2 1 ex_log 1 2 = Ok false.
Proof. reflexivity. Qed.

(** C27: ValueAnnealing never kills a victim at least as good as the hunter. *)
Theorem C27_value_annealing_survives : forall l h v fh fv mkc u, best_fx l h fh -> best_fx l v fv -> nle fv fh = true ->
  value_annealing mkc u l h v = Ok false.
Proof. exact va_never. Qed.
Print Assumptions C27_value_annealing_survives.

Example C27_value_annealing_survives_ex : best_fx ex_log 1 (Fin 5) /\ best_fx ex_log 3 (Fin 3) /\ nle (Fin 3) (Fin 5) = true.
Proof. split; [|split]; try reflexivity; eexists; (split; [vm_compute; reflexivity| reflexivity]). Qed.

(** C27: otherwise it kills exactly the draws above [survival], a number in (0, 1]: a victim is killed with
    probability 1 - survival, which grows with the victim's value. *)
Theorem C27_value_annealing : forall l h v a b mkc u, best_fx l h (Fin a) -> best_fx l v (Fin b) -> ~ (a == 0)%Q -> (a < b)%Q ->
  exists r, value_annealing mkc u l h v = Ok r /\ (r = true <-> (survival mkc (Q2R a) (Q2R b) < u)%R).
Proof. exact va_spec. Qed.
Print Assumptions C27_value_annealing.

Example C27_value_annealing_ex : best_fx ex_log 3 (Fin 3) /\ best_fx ex_log 1 (Fin 5) /\ (3 < 5)%Q.
Proof. split; [|split]; try reflexivity; eexists; (split; [vm_compute; reflexivity| reflexivity]). Qed.

Theorem C27_survival_monotone : forall mkc a b c, (0 < mkc < 1)%R -> (a <> 0)%R -> (a < b)%R -> (b < c)%R ->
  (0 < survival mkc a c < survival mkc a b)%R /\ (survival mkc a b <= 1)%R.
Proof.
  intros mkc a b c H1 H2 H3 H4. pose proof (survival_range mkc a b H1). pose proof (survival_range mkc a c H1).
  pose proof (survival_decreasing mkc a b c H1 H2 H3 H4). lra.
Qed.
Print Assumptions C27_survival_monotone.

Example C27_survival_monotone_ex : (0 < 1/4 < 1 /\ 3 <> 0 /\ 3 < 5 /\ 5 < 6)%R.
Proof. repeat split; lra. Qed.

(** C27 refuted: documented is that a victim twice as large as the hunter is killed with probability
    med_kill_chance; it survives with that probability.  With med_kill_chance 1/4, hunter 1 and victim 2, all draws
    between 1/4 and 1 kill, so the probability is 3/4. *)
Definition ex_log2 : logger :=
  lexec [AddOpt 1 "A" ""; AddOpt 2 "B" ""; AddHist 1 []; AddHist 2 []; PutIter (mkIR 1 [] (Fin 1) []); PutIter (mkIR 2 [] (Fin 2) [])] (log_init false).

Theorem C27_value_annealing_refuted : exists l mkc, (0 < mkc < 1)%R /\ (mkc <> 1 - mkc)%R /\
  best_fx l 1 (Fin 1) /\ best_fx l 2 (Fin 2) /\
  forall u, exists r, value_annealing mkc u l 1 2 = Ok r /\ (r = true <-> (mkc < u)%R).
Proof.
  exists ex_log2, (1/4)%R.
  splits; try lra.
  - eexists. split; vm_compute; reflexivity.
  - eexists. split; vm_compute; reflexivity.
  - intro u. destruct (va_spec ex_log2 1 2 1%Q 2%Q (1/4)%R u) as [r [H1 H2]].
    + eexists. split; vm_compute; reflexivity.
    + eexists. split; vm_compute; reflexivity.
    + discriminate.
    + reflexivity.
    + exists r. split; [exact H1|]. rewrite H2. replace (Q2R 2) with (2 * Q2R 1)%R by (unfold Q2R; cbn; field).
      rewrite survival_twice; [tauto| lra|]. rewrite RMicromega.Q2R_1. lra.
Qed.
Print Assumptions C27_value_annealing_refuted.

(** The general statement behind it: at twice the hunter's value survival has probability med_kill_chance. *)
Theorem C27_survival_twice : forall mkc a, (0 < mkc)%R -> (a <> 0)%R -> survival mkc a (2 * a) = mkc.
Proof. exact survival_twice. Qed.
Print Assumptions C27_survival_twice.

Example C27_survival_twice_ex : survival (1/4) 3 6 = (1/4)%R.
Proof. replace 6%R with (2 * 3)%R by lra. apply survival_twice; lra. Qed.
