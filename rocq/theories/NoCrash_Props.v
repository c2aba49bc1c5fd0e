(** * C89: hunters, selectors and checkers of the package do not crash a run *)
From Coq Require Import Lia Reals.
From Verif Require Import Prelude Prelude_Proofs Checkers_Model Hunters_Model HuntersR_Model Hunters_Spec Hunters_Proofs Logger_Model Logger_Spec
  Selectors_Model Manager_Model Manager_Spec Manager_Proofs Manager_Trace Manager_Props Crash_Spec Crash_Props Logged_Proofs Resumed_Model Resumed_Spec Resumed_Props Wired_Spec Wired_Proofs
  Wired_Props NoCrash_Spec Filled_Proofs.
From Verif Require Core_Model.
Open Scope nat_scope.

Lemma recorded_of l i : readable l -> has_iter_history i l = true ->
  (exists ty, get_metadata i "opt_type" l = Ok ty) /\ exists rs : list iterres, recorded l i (map ir_x rs) (map ir_fx rs).
Proof.
  intros H Hh. destruct (H i Hh) as (H1 & rs & H2 & H3). split; [exact H1|]. exists rs. unfold recorded. rewrite !map_map. auto.
Qed.
Lemma x_history_fine l i : readable l -> exists xs, x_history i l = Ok xs.
Proof.
  intro H. destruct (has_iter_history i l) eqn:E.
  - destruct (recorded_of l i H E) as [_ [rs Hr]]. rewrite (recorded_x _ _ _ _ Hr). eauto.
  - unfold x_history, get_history. rewrite E. eauto.
Qed.
Lemma pd_loop_fine pd l v : readable l -> (exists x xs, x_history v l = Ok (xs ++ [x])) -> forall js, exists b, pd_loop pd js l v = Ok b.
Proof.
  intros Hr (x & xs & Hx) js. induction js as [|j js [b IH]]; cbn [pd_loop]; [eauto|]. destruct (j =? v); [eauto|].
  destruct (x_history_fine l j Hr) as [hx ->]. cbn [rbind]. destruct (rev hx); [eauto|]. rewrite Hx. cbn [rbind].
  rewrite rev_app_distr. cbn. destruct (nle _ _); eauto.
Qed.
Lemma pymin_fine l : l <> [] -> exists m, pymin l = Ok m.
Proof. destruct l; [contradiction|]. cbn. eauto. Qed.

Lemma hunt_fine k u y l b v : readable l -> ranked l b -> ranked l v -> has_iter_history v l = true -> sound k = true -> len_opt v l <> 0 ->
  exists r, hunt_of k u y l b v = Ok r.
Proof.
  intros Hr [bb Hbb] [bv Hbv] Hh Hk Hp. destruct (recorded_of l v Hr Hh) as [[ty Hty] [rs Hv]]. pose proof (recorded_len _ _ _ _ Hv) as Hn.
  pose proof (recorded_fx _ _ _ _ Hv) as Hf. pose proof (recorded_x _ _ _ _ Hv) as Hx. rewrite Hn in Hp. rewrite map_length in *.
  assert (Hlast : rs <> [] -> exists r rs', rs = rs' ++ [r]).
  { intro H. destruct (exists_last H) as (rs' & r & ->). eauto. }
  destruct k as [n|ty'|n|calls tol|calls tol|space calls tol|pd|crit|chance]; cbn [hunt_of] in *.
  - unfold min_func_calls. eauto.
  - unfold type_hunter. rewrite Hty. eauto.
  - unfold last_points_invalid. rewrite Hf. cbn. eauto.
  - unfold best_unmoving. rewrite Hf, Hn. cbn [rbind]. destruct (Nat.leb_spec (length rs) calls) as [|Hlt]; [eauto|].
    destruct (pymin_fine (drop_last_n calls (map ir_fx rs))) as [m ->].
    { unfold drop_last_n. intro E. apply (f_equal (@length _)) in E. destruct calls; [discriminate Hk|]. rewrite firstn_length, map_length in E. cbn in E. lia. }
    destruct (pymin_fine (map ir_fx rs)) as [m' ->]; [destruct rs; [cbn in Hlt; lia|discriminate]|]. cbn. eauto.
  - unfold evals_unmoving. rewrite Hf, Hn. cbn [rbind]. destruct (Nat.ltb_spec (length rs) calls) as [|Hle]; [eauto|].
    assert (Hne : rs <> []) by (intros ->; apply Hp; reflexivity).
    destruct (Hlast Hne) as (r & rs' & ->). rewrite map_app, rev_app_distr. cbn. eauto.
  - unfold step_size. rewrite Hx. cbn. eauto.
  - unfold parameter_distance. apply pd_loop_fine; [exact Hr|]. assert (Hne : rs <> []) by (intros ->; apply Hp; reflexivity).
    destruct (Hlast Hne) as (r & rs' & ->). rewrite Hx, map_app. cbn. eauto.
  - unfold time_annealing. rewrite Hn. destruct (length rs); [exfalso; apply Hp; reflexivity|]. eauto.
  - unfold value_annealing. rewrite Hbb, Hbv. cbn [rbind]. eauto.
Qed.
Lemma leaf_asked {A L} (behav : nat -> A -> L -> res bool * L) j a s :
  exists p, fst (Core_Model.call A L behav (Core_Model.Leaf j) a s) = fst (behav j a p).
Proof.
  cbn. unfold Core_Model.call_leaf. exists (Core_Model.c_priv s j). destruct (behav j a (Core_Model.c_priv s j)) as [[x|e] l]; reflexivity.
Qed.

Section Tree.
  Context {L : Type} (behav : nat -> logger * nat * nat -> L -> res bool * L) (kinds : nat -> kind) (Hm : members behav kinds).
  Notation ask := (Core_Model.call _ L behav).
  Lemma tree_fine l b v (Hr : readable l) (Hb : ranked l b) (Hv : ranked l v) (Hh : has_iter_history v l = true) (Hn : len_opt v l <> 0) tree :
    forall s, careful kinds tree = true -> exists r, fst (ask tree (l, b, v) s) = Ok r.
  Proof.
    induction tree as [j|i k t1 IH1 t2 IH2]; intros s Hc.
    - destruct (leaf_asked behav j (l, b, v) s) as [p ->]. destruct (Hm j l b v p) as (u & y & ->). now apply hunt_fine.
    - cbn [Core_Model.call]. match goal with |- context [ask t1 (l, b, v) ?x] => set (s0 := x); clearbody s0 end.
      cbn [careful] in Hc. apply andb_true_iff in Hc as [Hc1 Hc2]. destruct (IH1 s0 Hc1) as (r1 & E1).
      destruct (ask t1 (l, b, v) s0) as [q s1]; cbn in E1; subst q. destruct (match k with Core_Model.JOr => r1 | Core_Model.JAnd => negb r1 end); [cbn; eauto|].
      destruct (IH2 s1 Hc2) as (r2 & E2). destruct (ask t2 (l, b, v) s1) as [q s2]; cbn in E2; subst q. cbn. eauto.
  Qed.
End Tree.

(** ** Selectors and checkers *)
Lemma picks_fine sp avail w t c n : picks sp avail w -> exists r, w_sel w t c n = Ok r.
Proof.
  intros [Hn H]. assert (Hl : 0 < length avail) by (destruct avail; [contradiction|cbn; lia]).
  destruct (H t c n) as [[s ->]|[[d ->]|(th & tg & H1 & H2 & ->)]]; clear H.
  - unfold cycle_select. destruct (negb _); [cbn; eauto|]. cbv zeta. destruct (Z.eqb_spec (Z.of_nat (length avail)) 0) as [E|_]; [lia|].
    pose proof (Z.mod_pos_bound (cy_i s + 1) (Z.of_nat (length avail))) as Hb.
    match goal with |- context [nth_error avail ?k] => destruct (nth_error avail k) as [cf|] eqn:E end; [destruct (_ <? _); cbn; eauto|].
    apply nth_error_None in E. cbn [cy_i] in E. lia.
  - unfold random_select. destruct (negb _); [cbn; eauto|]. cbv zeta. set (viable := filter _ _). destruct viable as [|x l] eqn:Ev; [eauto|].
    destruct (nth_error _ _) as [cf|] eqn:E; [eauto|]. apply nth_error_None in E. pose proof (Nat.mod_upper_bound d (length (x :: l))). cbn [length] in *. lia.
  - unfold chain_select. destruct (negb _); [cbn; eauto|]. cbv zeta.
    assert (Hb : match nth_error th tg with Some q => if Qle_bool q (inject_Z (Z.of_nat (sv_f (mkSV (k_f c) (k_o c))))) then S tg else tg | None => tg end < length avail).
    { destruct (nth_error th tg) as [q|] eqn:E; [|lia]. assert (tg < length th) by (apply nth_error_Some; congruence). destruct (Qle_bool _ _); lia. }
    destruct (nth_error avail _) as [cf|] eqn:E; [destruct (_ <? _); cbn; eauto|]. apply nth_error_None in E. lia.
Qed.

Lemma check_fine k v p : made k -> exists b, fst (check_call k v p) = Ok b.
Proof.
  destruct k; cbn; eauto.
  - unfold make_max_seconds, call_max_seconds. destruct (truthy session_max) eqn:E1, (truthy overall_max) eqn:E2; cbn; try discriminate; intros _.
    + destruct session_max; [eauto|discriminate].
    + destruct overall_max; [eauto|discriminate].
  - intros _. destruct p as [en ct]. destruct (_ && _); cbn; eauto.
Qed.
Lemma check_tree_fine kinds tree v : (forall j, made (kinds j)) -> forall s, exists b, fst (Core_Model.call _ _ (check_behav kinds) tree v s) = Ok b.
Proof.
  intro Hm. induction tree as [j|i k t1 IH1 t2 IH2]; intro s.
  - destruct (leaf_asked (check_behav kinds) j v s) as [p ->]. apply check_fine, Hm.
  - cbn [Core_Model.call]. match goal with |- context [Core_Model.call _ _ _ t1 v ?x] => set (s0 := x); clearbody s0 end.
    destruct (IH1 s0) as [b1 E1]. destruct (Core_Model.call _ _ _ t1 v s0) as [q s1]. cbn in E1. subst q.
    destruct (match k with Core_Model.JOr => b1 | Core_Model.JAnd => negb b1 end); [cbn; eauto|].
    destruct (IH2 s1) as [b2 E2]. destruct (Core_Model.call _ _ _ t2 v s1) as [q s2]. cbn in E2. subst q. cbn. eauto.
Qed.

(** ** The run *)
(** What hunters answer of an optimizer without evaluations - or whether they fail - has no influence on any run: none is
    hunted.  (The columns of the history are opened when the first evaluation arrives, and no hunt comes between.) *)
Theorem C89_hunted_have_evaluations g w limit traj kill :
  (forall t c b v, len_opt v (k_log c) <> 0 -> kill t c b v = w_kill w t c b v) ->
  run g w limit traj = run g (with_hunters kill w) limit traj.
Proof. intro H. exact (proj1 (E_start g w limit kill H _ (FS_fresh traj))). Qed.
Print Assumptions C89_hunted_have_evaluations.
Theorem C89_hunted_have_evaluations_resumed P g0 w0 s k late builds conv c g w limit kill :
  session P g0 w0 s -> written s k late -> load g k builds conv = Ok c ->
  (forall t c b v, len_opt v (k_log c) <> 0 -> kill t c b v = w_kill w t c b v) ->
  resume g w limit k c = resume g (with_hunters kill w) limit k c.
Proof. intros Hs Hw Hl H. exact (proj1 (E_start g w limit kill H _ (loaded_FS _ _ _ _ _ _ _ (session_FS _ _ _ _ Hs) Hw Hl))). Qed.
Print Assumptions C89_hunted_have_evaluations_resumed.

(** The hunters of [w], not asked about an optimizer without evaluations. *)
Definition shy (w : world) (t : nat) (c : core) (b v : nat) : res bool := if len_opt v (k_log c) =? 0 then Ok false else w_kill w t c b v.
Lemma shy_same w t c b v : len_opt v (k_log c) <> 0 -> shy w t c b v = w_kill w t c b v.
Proof. intro H. unfold shy. apply Nat.eqb_neq in H. rewrite H. reflexivity. Qed.
Lemma package_orderly w {L} (behav : nat -> logger * nat * nat -> L -> res bool * L) kinds tree sp avail ckinds ctree :
  hunts_by behav tree w -> members behav kinds -> careful kinds tree = true ->
  picks sp avail w -> checks_by ckinds ctree w -> (forall j, made (ckinds j)) ->
  (forall t, w_err w t = None) -> (forall t r e, w_heads w t r <> Err e) -> orderly (with_hunters (shy w) w).
Proof.
  intros Hh Hm Hc Hs Hk Hmade He Hheads. split; cbn; auto.
  - intros t c n e0 H. destruct (picks_fine _ _ _ t c n Hs) as [r E]. congruence.
  - intros t c e0 H. destruct (Hk t c) as (now & start & used & st & E). destruct (check_tree_fine ckinds ctree (seen c now start used) Hmade st) as [b Eb]. congruence.
  - intros t c b v e0 Hr Hb Hv Hx H. unfold shy in H. destruct (Nat.eqb_spec (len_opt v (k_log c)) 0) as [|Hn]; [discriminate|]. destruct (Hh t c b v) as [st E].
    destruct (tree_fine behav kinds Hm (k_log c) b v Hr Hb Hv Hx Hn tree st Hc) as (r & Er). congruence.
Qed.

(** Hunters, selector and checkers of the package do not raise when the manager asks them: a run with retained histories
    ends as a crash only by the five exceptions of C18, and without checkpoints by two.
    Missing: BestUnmoving with 0 calls and chains with as many classes as thresholds, which do crash runs (see the
    refutations). *)
Theorem C89_crash_causes_partial g w limit e x {L} (behav : nat -> logger * nat * nat -> L -> res bool * L) kinds tree sp avail ckinds ctree :
  hunts_by behav tree w -> members behav kinds -> careful kinds tree = true ->
  picks sp avail w -> checks_by ckinds ctree w -> (forall j, made (ckinds j)) ->
  (forall t, w_err w t = None) -> (forall t r e, w_heads w t r <> Err e) ->
  fst (run g w limit true) = Ok (Some (RCrash e), x) ->
  In e [RuntimeError; OSError; EOFError; AssertionError; CheckpointingError] /\ (no_checkpoints g w -> e = RuntimeError \/ e = OSError).
Proof.
  intros Hh Hm Hc Hs Hk Hmade He Hheads Hrun. pose proof (package_orderly w behav kinds tree sp avail ckinds ctree Hh Hm Hc Hs Hk Hmade He Hheads) as Ho.
  rewrite (C89_hunted_have_evaluations g w limit true (shy w) (shy_same w)) in Hrun.
  split; [exact (C18_crash_causes _ _ _ _ _ Ho Hrun)|]. intro Hn. exact (C18_crash_causes_no_checkpoints _ _ _ _ _ Ho Hn Hrun).
Qed.
Print Assumptions C89_crash_causes_partial.
(** EvaluationsUnmoving(5, 1/2) | TimeAnnealing(2), a CycleSelector of two classes with spawn control, MaxFuncCalls(1000) or MaxSeconds: the
    victim has just gone when it is told to stop. *)
Definition kinds88f (j : nat) : kind := match j with 2 => KTime 2 | _ => KEvals 5 (Fin (1#2)) end.
Definition hunters88f (j : nat) (a : logger * nat * nat) (p : unit) : res bool * unit :=
  let '(l, b, v) := a in (match j with 2 => time_annealing 2 1 l b v | _ => evals_unmoving 5 (Fin (1#2)) l b v end, p).
Definition checkers88f (j : nat) : checker := match j with 2 => MaxSeconds (Some 60%Q) None | _ => MaxFuncCalls 1000 end.
Definition either88 : Core_Model.core := Core_Model.Comb 0 Core_Model.JOr (Core_Model.Leaf 1) (Core_Model.Leaf 2).
Definition w88f : world := mkW (w_moves w18b) (fun _ => false) (fun _ => None)
  (fun t c n => fst (cycle_select (NOptimizersSpawnStop 2) avail88 (mkSV (k_f c) (k_o c)) n (at88 (k_o c))))
  (fun t c => fst (Core_Model.call _ _ (check_behav checkers88f) either88 (seen c 0%Q None 0%Q) check_init))
  (fun t c b v => fst (Core_Model.call _ _ hunters88f either88 (k_log c, b, v) (Core_Model.mkC (fun _ => None) (fun _ => tt))))
  (fun _ _ => Ok []) (fun _ _ => false) (fun _ => false) (fun _ => false) (fun _ _ => true).
Example C89_crash_causes_met : hunts_by hunters88f either88 w88f /\ members hunters88f kinds88f /\ careful kinds88f either88 = true /\
  picks (NOptimizersSpawnStop 2) avail88 w88f /\ checks_by checkers88f either88 w88f /\ (forall j, made (checkers88f j)) /\
  crash (run g2k w88f 100 true) = Some OSError.
Proof.
  splits; try (vm_compute; reflexivity).
  - intros t c b v. eexists. reflexivity.
  - intros j l b v p. exists 1%Q, 1%R. destruct j as [|[|[|j]]]; reflexivity.
  - split; [discriminate|]. intros t c n. left. eexists. reflexivity.
  - intros t c. eexists _, _, _, _. reflexivity.
  - intros [|[|[|j]]]; cbn; auto.
Qed.
(** The same of a resumed run, whatever the sessions before it were configured with; the same is missing. *)
Theorem C89_crash_causes_resumed_partial g0 w0 s k builds conv c g w limit e x {L} (behav : nat -> logger * nat * nat -> L -> res bool * L) kinds tree sp avail ckinds ctree :
  in_step g0 w0 s -> written s k [] -> load g k builds conv = Ok c -> l_traj (ck_log k) = true ->
  hunts_by behav tree w -> members behav kinds -> careful kinds tree = true ->
  picks sp avail w -> checks_by ckinds ctree w -> (forall j, made (ckinds j)) ->
  (forall t, w_err w t = None) -> (forall t r e, w_heads w t r <> Err e) ->
  fst (resume g w limit k c) = Ok (Some (RCrash e), x) ->
  In e [RuntimeError; OSError; EOFError; AssertionError; CheckpointingError] /\ (no_checkpoints g w -> e = RuntimeError \/ e = OSError).
Proof.
  intros Hi Hw Hl Ht Hh Hm Hc Hs Hk Hmade He Hheads Hrun. pose proof (package_orderly w behav kinds tree sp avail ckinds ctree Hh Hm Hc Hs Hk Hmade He Hheads) as Ho.
  rewrite (C89_hunted_have_evaluations_resumed _ _ _ _ _ _ _ _ _ g w limit (shy w) Hi Hw Hl (shy_same w)) in Hrun.
  destruct (C87_crash_causes _ _ _ _ _ _ _ _ _ _ _ _ _ Hi Hw eq_refl Hl Ht Ho Hrun) as (H1 & H2 & _). auto.
Qed.
Print Assumptions C89_crash_causes_resumed_partial.
(** The second session of C87 with these hunters, checkers and selector: the restarted optimizer goes when it is asked to
    pause. *)
Definition w88r : world := mkW (at_ [(3, [MCheckpointFile]); (18, [MExit 1 0%Z])]) (fun _ => false) (fun _ => None) (w_sel w88f) (w_check w88f) (w_kill w88f)
  (fun _ _ => Ok []) (fun _ _ => false) (fun _ => false) (fun _ => false) (fun _ _ => true).
Example C89_crash_causes_resumed_met : in_step gB w87a s87a /\ written s87a k87a [] /\ load g87 k87a (fun _ => true) false = Ok c87a /\
  l_traj (ck_log k87a) = true /\ hunts_by hunters88f either88 w88r /\ picks (NOptimizersSpawnStop 2) avail88 w88r /\ checks_by checkers88f either88 w88r /\
  crash (resume g87 w88r 200 k87a c87a) = Some OSError.
Proof.
  splits; try (vm_compute; reflexivity).
  - apply se_first. eexists _, _. reflexivity.
  - exact written_a.
  - intros t c b v. eexists. reflexivity.
  - split; [discriminate|]. intros t c n. left. eexists. reflexivity.
  - intros t c. eexists _, _, _, _. reflexivity.
Qed.

(** Hunters which fail if there are no evaluations, in both; there are hunts in the first and in the second session. *)
Definition rude (w : world) (t : nat) (c : core) (b v : nat) : res bool := if len_opt v (k_log c) =? 0 then Err ValueError else w_kill w t c b v.
Example C89_hunted_have_evaluations_met :
  (forall t c b v, len_opt v (k_log c) <> 0 -> rude w88f t c b v = w_kill w88f t c b v) /\
  rude w88f 0 (st_core (fresh true)) 1 2 <> w_kill w88f 0 (st_core (fresh true)) 1 2 /\ kills (st_hist (snd (run g2k w88f 100 true))) = [2] /\
  (forall t c b v, len_opt v (k_log c) <> 0 -> rude w87b t c b v = w_kill w87b t c b v) /\
  hunts (ck_hist k87a) < hunts (st_hist (snd (resume g87 w87b 70 k87a c87a))).
Proof.
  splits; try (intros t c b v H; unfold rude; apply Nat.eqb_neq in H; rewrite H; reflexivity); vm_compute; [discriminate|reflexivity|].
  repeat constructor.
Qed.

(** The hunters of examples/customized.py 39-42: EvaluationsUnmoving & ValueAnnealing | BestUnmoving | ParameterDistance. *)
Example C89_customized_met calls pd : careful
  (fun j => match j with 1 => KEvals 100 (Fin (1#100)) | 2 => KValue (1/10) | 3 => KBest (S calls) (Fin (1#5)) | _ => KDist pd end)
  (Core_Model.Comb 0 Core_Model.JOr (Core_Model.Comb 5 Core_Model.JOr (Core_Model.Comb 6 Core_Model.JAnd (Core_Model.Leaf 1) (Core_Model.Leaf 2))
    (Core_Model.Leaf 3)) (Core_Model.Leaf 4)) = true.
Proof. reflexivity. Qed.

(** BestUnmoving with 0 calls, which its constructor accepts, ends the run at the first hunt of an optimizer with an evaluation. *)
Definition hunters88g (j : nat) (a : logger * nat * nat) (p : unit) : res bool * unit :=
  let '(l, b, v) := a in (best_unmoving 0 (Fin 0) l b v, p).
Definition w88g : world := mkW (w_moves wA) (w_intr wA) (w_err wA) (w_sel wA) (w_check wA)
  (fun t c b v => fst (Core_Model.call _ _ hunters88g (Core_Model.Leaf 1) (k_log c, b, v) (Core_Model.mkC (fun _ => None) (fun _ => tt))))
  (w_heads wA) (w_late wA) (w_full wA) (w_time_chk wA) (w_saved wA).
Theorem C89_no_hunter_crashes_a_run_refuted : exists (behav : nat -> logger * nat * nat -> unit -> res bool * unit) g w limit,
  hunts_by behav (Core_Model.Leaf 1) w /\ member_is behav 1 (best_unmoving 0 (Fin 0)) /\ crash (run g w limit true) = Some ValueError.
Proof.
  exists hunters88g, gA, w88g, 400. splits; [intros t c b v; eexists; reflexivity|intros l b v p; reflexivity|vm_compute; reflexivity].
Qed.
Print Assumptions C89_no_hunter_crashes_a_run_refuted.
(** So does a ChainSelector with as many classes as thresholds, which its constructor accepts, once the last threshold is
    passed: two classes, thresholds 0 and 1, and free slots after the first evaluation. *)
Definition w88h : world := mkW (w_moves wA) (w_intr wA) (w_err wA)
  (fun t c n => fst (chain_select AlwaysSpawn avail88 [0%Q; 1%Q] (mkSV (k_f c) (k_o c)) n (if k_o c =? 0 then 0 else 1)))
  (w_check wA) (w_kill wA) (w_heads wA) (w_late wA) (w_full wA) (w_time_chk wA) (w_saved wA).
Theorem C89_no_selector_crashes_a_run_refuted : exists avail th g w limit, chain_make avail th = Ok 0 /\
  (forall t c n, exists tg, tg <= length th /\ w_sel w t c n = fst (chain_select AlwaysSpawn avail th (mkSV (k_f c) (k_o c)) n tg)) /\
  crash (run g w limit true) = Some IndexError.
Proof.
  exists avail88, [0%Q; 1%Q], gA, w88h, 400. splits; [reflexivity| |vm_compute; reflexivity].
  intros t c n. exists (if k_o c =? 0 then 0 else 1). split; [destruct (_ =? _); cbn; lia|reflexivity].
Qed.
Print Assumptions C89_no_selector_crashes_a_run_refuted.

(** ** The budget *)
(** C17 with other checkers: if MaxFuncCalls(fm) alone suffices to stop, the budget is overshot by the same amount at most. *)
Theorem C17_any_combination g w kinds tree j fm K s : no_checkpoints g w -> chunks_within w K -> checks_by kinds tree w ->
  (forall i, made (kinds i)) -> suffices tree j -> kinds j = MaxFuncCalls fm -> met g w s ->
  length (accepted (st_hist s)) < Z.to_nat fm + 9 + K.
Proof.
  intros Hn HK Hc Hmade Hj Hk Hm. destruct (C07_counters_agree _ _ _ Hm) as [<- _]. destruct Hm as [limit [traj ->]].
  assert (Hc' : forall t c, exists b, w_check w t c = Ok b /\ (b = false -> k_f c < Z.to_nat fm)).
  { intros t c. destruct (Hc t c) as (now & start & used & st & E). destruct (check_tree_fine kinds tree (seen c now start used) Hmade st) as [b Eb].
    exists b. split; [congruence|]. intros ->. destruct (sufficient _ tree j _ Hj st Eb) as [p Hp]. unfold check_behav in Hp. rewrite Hk in Hp. cbn in Hp.
    injection Hp as Hp. unfold geZ in Hp. apply Z.leb_gt in Hp. lia. }
  pose proof (run_bounded g w limit (Z.to_nat fm) K Hn HK Hc' traj) as H. unfold bounded in H. lia.
Qed.
Print Assumptions C17_any_combination.
(** TargetCost(-1) | MaxFuncCalls(1), chunks of at most two: eleven evaluations are accepted. *)
Definition checkers17 (j : nat) : checker := match j with 1 => TargetCost (Fin (-1)) (Fin 0) | _ => MaxFuncCalls 1 end.
Definition w17b : world := mkW (w_moves w17) (w_intr w17) (w_err w17) (w_sel w17)
  (fun t c => fst (Core_Model.call _ _ (check_behav checkers17) either88 (seen c 0%Q None 0%Q) check_init))
  (w_kill w17) (w_heads w17) (w_late w17) (w_full w17) (w_time_chk w17) (w_saved w17).
Example C17_any_combination_met : no_checkpoints g1 w17b /\ chunks_within w17b 2 /\ checks_by checkers17 either88 w17b /\
  (forall i, made (checkers17 i)) /\ suffices either88 2 /\ checkers17 2 = MaxFuncCalls 1 /\
  length (accepted (st_hist (snd (run g1 w17b 100 true)))) = 11.
Proof.
  destruct overshoot_tight as (H1 & H2 & _). splits; [exact H1|exact H2|intros t c; eexists _, _, _, _; reflexivity| | |reflexivity|vm_compute; reflexivity].
  - intros [|[|i]]; exact I.
  - cbn. tauto.
Qed.
