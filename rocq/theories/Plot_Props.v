(** * C78, C79: the plots of the log *)
From Verif Require Import Prelude Prelude_Proofs Plot_Spec Plot_Proofs Logger_Proofs Helpers_Model Helpers_Spec Helpers_Proofs Helpers_Props.

(** A run of two optimizers: the first converges, the second is killed after an infinite value. *)
Definition px : list lop :=
  [ AddOpt 1 "CMAOptimizer" "t"; AddHist 1 []; PutIter (mkIR 1 [Fin 1] (Fin 400000) []); AddOpt 2 "RandomOptimizer" "t"; AddHist 2 ["r"];
    PutIter (mkIR 2 [Fin 5] (Fin 200) [Fin 1]); PutIter (mkIR 1 [Fin 2] (Fin 3) []); PutMeta 1 "end_cond" "Optimizer convergence tolfun";
    PutIter (mkIR 2 [Fin 6] PInf [Fin 1]); ClearCache (Some 1); PutMeta 2 "end_cond" "GloMPO Termination"; AddOpt 3 "GFLS" "t" ].
(** A stand-in for the logarithm *)
Definition lgx (q : Q) : Q := q / 10.

(** C78: with a trajectory plot requested (summary_files > 1), the plot shows every optimizer once, with exactly its own evaluations at their
    overall numbers, its type, and at its last point the marker of the end condition written last. *)
Theorem C78_trajectory lg log ops : managed ops = true -> exists cs,
  plot_trajectory lg log false (lexec ops (log_init true)) = Ok cs /\ map cv_opt cs = seq 1 (length (registered ops)) /\
  Forall (shows ops (if log then sign_log lg else fun v => v)) cs.
Proof. apply plot_shows. Qed.
Print Assumptions C78_trajectory.
Example C78_trajectory_met : managed px = true /\ plot_trajectory lgx false false (lexec px (log_init true)) =
  Ok [ mkCv 1 "CMAOptimizer" [(1, Fin 400000); (3, Fin 3)] (Some ((3, Fin 3), Converged));
       mkCv 2 "RandomOptimizer" [(2, Fin 200); (4, PInf)] (Some ((4, PInf), Killed)); mkCv 3 "GFLS" [] None ].
Proof. vm_compute. auto. Qed.

(** C78: with best_fx the plot exists exactly when no evaluation was NaN: a single one, of any optimizer, and nothing is drawn. *)
Theorem C78_best_fx lg log ops : managed ops = true ->
  (plot_trajectory lg log true (lexec ops (log_init true)) = Err AssertionError <-> exists r, In r (evals ops) /\ ir_fx r = NaN) /\
  ((forall r, In r (evals ops) -> ir_fx r <> NaN) -> exists cs, plot_trajectory lg log true (lexec ops (log_init true)) = Ok cs).
Proof. apply plot_best_nan. Qed.
Print Assumptions C78_best_fx.
Example C78_best_fx_met : managed (px ++ [PutIter (mkIR 2 [] NaN [])]) = true /\
  plot_trajectory lgx false true (lexec (px ++ [PutIter (mkIR 2 [] NaN [])]) (log_init true)) = Err AssertionError /\
  plot_trajectory lgx false true (lexec px (log_init true)) =
  Ok [ mkCv 1 "CMAOptimizer" [(1, Fin 400000); (3, Fin 3)] (Some ((3, Fin 3), Converged));
       mkCv 2 "RandomOptimizer" [(2, Fin 200); (4, Fin 200)] (Some ((4, Fin 200), Killed)); mkCv 3 "GFLS" [] None ].
Proof. vm_compute. auto. Qed.

(** ... and otherwise shows of every optimizer, at each of its evaluations, the smallest value it had found until then. *)
Lemma draw_best_shows lg log ops n op s i : PInv ops n op s -> 1 <= i <= n -> (forall r, In r (evals ops) -> ir_fx r <> NaN) ->
  exists c, draw lg log true s i = Ok c /\ cv_opt c = i /\ shows_best ops (if log then sign_log lg else fun v => v) c.
Proof.
  intros H Hi Hn. destruct (PInv_get ops n op s i H Hi) as [ty [H1 [H2 [H3 [H4 H5]]]]].
  unfold draw. rewrite H1, H2, H3. unfold values.
  destruct (proj2 (C45_accepts_numbers (map value_of (map CF (map ir_fx (own i (evals ops)))))) ) as [y Ey].
  { exists (map ir_fx (own i (evals ops))). split; [rewrite !map_map; reflexivity|]. intro X. apply in_map_iff in X as (r & X & Hr).
    apply filter_In in Hr as [Hr _]. exact (Hn r Hr X). }
  rewrite Ey, ids_of_map. destruct (C45_running_minimum _ _ Ey) as (l & El & Ll & Hl).
  assert (El' : l = map ir_fx (own i (evals ops))).
  { rewrite !map_map in El. cbn in El. rewrite <- map_map in El. clear -El. revert l El. induction (map ir_fx (own i (evals ops))) as [|a m IH]; intros [|b l] E; try discriminate E; [reflexivity|].
    cbn in E. injection E as -> E. f_equal. auto. }
  change (fun v : num => v) with (@id num) at 1. rewrite (scale_map lg log), !map_length.
  assert (Hlen : length (nown i 1 (evals ops)) = length y). { rewrite Ll, El', map_length, <- (nown_snd i (evals ops) 1), map_length. reflexivity. }
  rewrite Hlen, Nat.eqb_refl. eexists. split; [reflexivity|]. split; [reflexivity|]. exists (pts_of i (evals ops)), y. cbn [cv_opt cv_pts].
  split; [apply pts_of_points|]. split; [unfold pts_of; rewrite map_length; lia|].
  assert (Es : map snd (pts_of i (evals ops)) = l).
  { rewrite El', <- (nown_snd i (evals ops) 1). unfold pts_of. rewrite !map_map. reflexivity. }
  assert (Ef : map fst (pts_of i (evals ops)) = map fst (nown i 1 (evals ops))) by (unfold pts_of; rewrite map_map; reflexivity).
  rewrite Es, Ef. split; [reflexivity| exact Hl].
Qed.
Theorem C78_best_shows lg log ops : managed ops = true -> (forall r, In r (evals ops) -> ir_fx r <> NaN) -> exists cs,
  plot_trajectory lg log true (lexec ops (log_init true)) = Ok cs /\ map cv_opt cs = seq 1 (length (registered ops)) /\
  Forall (shows_best ops (if log then sign_log lg else fun v => v)) cs.
Proof.
  intros Hm Hx. destruct (PInv_log ops Hm) as [n [op H]]. destruct (PInv_n _ _ _ _ H Hm) as [Hn1 Hn2].
  unfold plot_trajectory. rewrite Hn1, <- Hn1, Hn2. assert (Hs : forall i, In i (seq 1 n) -> 1 <= i <= n) by (intros i Hi; apply in_seq in Hi; lia).
  induction (seq 1 n) as [|i ids IH]; [exists []; auto|]. cbn [draw_all].
  destruct (draw_best_shows lg log ops n op _ i H (Hs i (or_introl eq_refl)) Hx) as (c & -> & Hc & Hb).
  destruct IH as (cs & -> & H1 & H2); [intros j Hj; apply Hs; right; exact Hj|]. exists (c :: cs). cbn. rewrite Hc, H1. auto.
Qed.
Print Assumptions C78_best_shows.
Example C78_best_shows_met : managed px = true /\ Forall (fun r => ir_fx r <> NaN) (evals px) /\
  plot_trajectory lgx true true (lexec px (log_init true)) =
  Ok [ mkCv 1 "CMAOptimizer" [(1, Fin (400000 / 10)); (3, Fin (3 / 10))] (Some ((3, Fin (3 / 10)), Converged));
       mkCv 2 "RandomOptimizer" [(2, Fin (200 / 10)); (4, Fin (200 / 10))] (Some ((4, Fin (200 / 10)), Killed)); mkCv 3 "GFLS" [] None ].
Proof. split; [reflexivity|]. split; [repeat constructor; discriminate| vm_compute; reflexivity]. Qed.

(** C78: the pictures of the trials show the vectors evaluated by the optimizer that was asked for, or by each of them; 0 is taken for all of them, and
    the picture of an unknown optimizer is empty. *)
Theorem C78_trials ops : managed ops = true -> let s := lexec ops (log_init true) in let n := length (registered ops) in
  let picture i := (i, map CX (map ir_x (own i (evals ops)))) in
  plot_trials None s = Ok (map picture (seq 1 n)) /\ plot_trials (Some 0) s = plot_trials None s /\
  (forall i, 1 <= i <= n -> plot_trials (Some i) s = Ok [picture i]) /\ forall i, n < i -> plot_trials (Some i) s = Ok [(i, [])].
Proof.
  intros Hm s n0 picture. destruct (PInv_log ops Hm) as [n [op H]]. fold s in H. destruct (PInv_n _ _ _ _ H Hm) as [Hn1 Hn2].
  assert (En : n0 = n) by (unfold n0; congruence). rewrite En. clear En n0.
  assert (Hx : forall i, 1 <= i <= n -> get_history i "x" s = Ok (map CX (map ir_x (own i (evals ops))))).
  { intros i Hi. destruct (p_opt _ _ _ _ H i Hi) as [e [ty [H1 [H2 [H3 [H4 H5]]]]]]. unfold get_history, has_iter_history. rewrite H1.
    assert (Hh : e_cols e = [] /\ own i (evals ops) = [] \/ exists ks ids, positions_of i (evals ops) ids /\ e_cols e = hist_cols ids ks (own i (evals ops))).
    { destruct (nmem i op); [right; exact H5|left; exact H5]. }
    destruct Hh as [[Hc Ho]|[ks [ids [Hp Hc]]]]; rewrite Hc; [cbn; rewrite Ho|]; reflexivity. }
  assert (Hall : forall ids, (forall i, In i ids -> 1 <= i <= n) -> trials ids s = Ok (map picture ids)).
  { induction ids as [|i ids IH]; intro Hi; [reflexivity|]. cbn. rewrite (Hx i (Hi i (or_introl eq_refl))), IH; [reflexivity|].
    intros j Hj. apply Hi. right. exact Hj. }
  unfold plot_trials, trial_ids. splits.
  - rewrite Hn2. apply Hall. intros i Hi. apply in_seq in Hi. lia.
  - reflexivity.
  - intros i Hi. destruct i as [|i]; [lia|]. apply (Hall [S i]). intros j [<-|[]]. exact Hi.
  - intros i Hi. destruct i as [|i]; [lia|]. cbn. unfold get_history, has_iter_history.
    destruct (nget (S i) (l_store s)) as [e|] eqn:E; [|reflexivity]. assert (E' : In (S i) (dkeys (l_store s))) by (apply nget_some_in; eauto). clear E. rename E' into E.
    rewrite (p_keys _ _ _ _ H) in E. apply in_seq in E. lia.
Qed.
Print Assumptions C78_trials.
Example C78_trials_met : managed px = true /\ plot_trials None (lexec px (log_init true)) =
  Ok [(1, [CX [Fin 1]; CX [Fin 2]]); (2, [CX [Fin 5]; CX [Fin 6]]); (3, [])] /\ plot_trials (Some 4) (lexec px (log_init true)) = Ok [(4, [])].
Proof. vm_compute. auto. Qed.

(** C78: without that request the log drops finished optimizers.  The pictures of the parameters then belong to the wrong optimizers: with
    optimizer 1 dropped, optimizer 2 gets none, an empty one is made for 1, and a trajectory plot raises. *)
Theorem C78_cleared_refuted : exists ops, managed ops = true /\ length (registered ops) = 2 /\
  plot_trials None (lexec ops (log_init false)) = Ok [(1, [])] /\ plot_trials (Some 2) (lexec ops (log_init false)) = Ok [(2, [CX [Fin 7]])] /\
  plot_trajectory lgx false false (lexec ops (log_init false)) = Err KeyError.
Proof.
  exists [AddOpt 1 "A" "t"; AddHist 1 []; PutIter (mkIR 1 [Fin 1] (Fin 1) []); AddOpt 2 "A" "t"; AddHist 2 []; PutIter (mkIR 2 [Fin 7] (Fin 0) []); ClearCache (Some 1)].
  vm_compute. auto.
Qed.
Print Assumptions C78_cleared_refuted.

(** C78: the markers agree with the legend for every end condition the manager writes itself, and for the messages of the optimizers that
    announce a convergence, provided that these do not quote the text of a kill. *)
Theorem C78_marks e : match e with
                      | EError d => number_text d
                      | EMessage t => t = plain_message \/ exists d, t = detailed_message d /\ contains "GloMPO Termination" d = false
                      | _ => True
                      end -> mark_of (text e) = legend e.
Proof.
  destruct e as [h r| |d| |t| | |]; intro H; try reflexivity; [apply mark_error, H|]. destruct H as [->|[d [-> H]]]; [reflexivity|].
  cbn [text legend]. change (mark_of ("Optimizer convergence" ++ (" " ++ d))%string = Converged). rewrite mark_convergence.
  rewrite contains_skip; [rewrite H; reflexivity|nochar].
Qed.
Print Assumptions C78_marks.
Example C78_marks_met : number_text "-11" /\ mark_of (text (EError "-11")) = Crashed /\
  mark_of (detailed_message "{'tolfun': 1e-11}") = Converged /\ mark_of (text (EKilled "3" "Traceback in Error termination")) = Killed.
Proof. splits; try reflexivity. intros c H. cbn in *. tauto. Qed.

(** C78: an optimizer of nevergrad that converges gets no marker, whatever its values. *)
Theorem C78_nevergrad_never above below zero : float_text zero ->
  mark_of (text (EMessage (nevergrad_message (bool_text above) (bool_text below) zero))) = NoMark /\ mark_of (text (EMessage nevergrad_callback)) = NoMark.
Proof. intro H. split; [apply mark_nevergrad, H|reflexivity]. Qed.
Print Assumptions C78_nevergrad_never.
Theorem C78_nevergrad_refuted : exists t, t = nevergrad_message "False" "True" "0.0001" /\ legend (EMessage t) = Converged /\ mark_of (text (EMessage t)) = NoMark.
Proof. eexists. splits; [reflexivity|reflexivity|vm_compute; reflexivity]. Qed.
Print Assumptions C78_nevergrad_refuted.

(** C79: the summary plot is logarithmic exactly when all values (NaN and +inf aside) have the same sign and they spread over more than 10^5. *)
Theorem C79_scale traj ops : managed ops = true -> let l := map ir_fx (evals ops) in
  exists b, pick_scale (lexec ops (log_init traj)) = Ok b /\
  (b = true <-> exists lo hi, least l lo /\ greatest l hi /\ (nlt (Fin 0) lo = true \/ nlt hi (Fin 0) = true) /\ nlt (Fin 100000) (nminus hi lo) = true).
Proof.
  intros Hm. apply pick_scale_iff. apply (managed_disciplined ops 0 []); [exact Hm| |discriminate].
  intro i. split; [discriminate|lia].
Qed.
Print Assumptions C79_scale.
Example C79_scale_met : managed px = true /\ pick_scale (lexec px (log_init true)) = Ok true /\
  pick_scale (lexec (px ++ [PutIter (mkIR 2 [] (Fin (-(1))) [])]) (log_init true)) = Ok false.
Proof. vm_compute. auto. Qed.

(** C79: on that scale nothing is lost: finite values stay finite, and a larger value is never drawn below a smaller one. *)
Theorem C79_order lg traj ops : (forall a b, (0 < a)%Q -> (a <= b)%Q -> (lg a <= lg b)%Q) -> managed ops = true ->
  pick_scale (lexec ops (log_init traj)) = Ok true ->
  forall r r', In r (evals ops) -> In r' (evals ops) ->
  nfinite (sign_log lg (ir_fx r)) = nfinite (ir_fx r) /\
  (nle (ir_fx r) (ir_fx r') = true -> nle (sign_log lg (ir_fx r)) (sign_log lg (ir_fx r')) = true).
Proof.
  intros Hlg Hm Hp r r' Hr Hr'. destruct (C79_scale traj ops Hm) as [b [Hb Hi]]. rewrite Hp in Hb. injection Hb as <-.
  destruct (proj1 Hi eq_refl) as [lo [hi [H1 [H2 [H3 _]]]]].
  assert (He : exists lo hi, least (map ir_fx (evals ops)) lo /\ greatest (map ir_fx (evals ops)) hi /\ (nlt (Fin 0) lo = true \/ nlt hi (Fin 0) = true)) by eauto.
  split; [apply (log_finite lg _ He), in_map, Hr|]. apply (log_order lg _ Hlg He); apply in_map; assumption.
Qed.
Print Assumptions C79_order.
Example C79_order_met : (forall a b, (0 < a)%Q -> (a <= b)%Q -> (lgx a <= lgx b)%Q) /\ managed px = true /\
  pick_scale (lexec px (log_init false)) = Ok true /\ sign_log lgx (Fin (-(20))) = Fin (- (20 / 10)).
Proof. splits; try (vm_compute; reflexivity). intros a b _ H. unfold lgx, Qdiv. apply Qmult_le_compat_r; [exact H|discriminate]. Qed.
