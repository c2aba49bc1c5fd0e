(** * C90: how far MaxOptsStarted is overshot *)
From Coq Require Import Lia.
From Verif Require Import Prelude Prelude_Proofs Checkers_Model Selectors_Model Manager_Model Manager_Spec Manager_Proofs Manager_Props
  Resumed_Model Resumed_Spec Resumed_Props Wired_Spec Wired_Proofs Wired_Props NoCrash_Spec NoCrash_Props Over_Proofs.
From Verif Require Core_Model.
Open Scope nat_scope.

(** Every configuration handed out asks for at least one worker. *)
Definition works (w : world) : Prop := forall t c n cf, w_sel w t c n = Ok (SOpt cf) -> 1 <= cf_workers cf.
(** What the checkers have to do with it: MaxOptsStarted(n) is member [j], could be made, and suffices to stop. *)
Definition stops_at (kinds : nat -> checker) (tree : Core_Model.core) (j : nat) (n : Z) (w : world) : Prop :=
  checks_by kinds tree w /\ (forall i, made (kinds i)) /\ suffices tree j /\ kinds j = MaxOptsStarted n.

Lemma stops_checker kinds tree j n w : stops_at kinds tree j n w ->
  forall t c, exists b, w_check w t c = Ok b /\ (b = false -> k_o c < Z.to_nat n).
Proof.
  intros (Hc & Hmade & Hj & Hk) t c. destruct (Hc t c) as (now & start & used & st & E).
  destruct (check_tree_fine kinds tree (seen c now start used) Hmade st) as [b Eb].
  exists b. split; [congruence|]. intros ->. destruct (sufficient _ tree j _ Hj st Eb) as [p Hp]. unfold check_behav in Hp. rewrite Hk in Hp. cbn in Hp.
  injection Hp as Hp. unfold geZ in Hp. apply Z.leb_gt in Hp. lia.
Qed.

(** At every moment of every run, with any combination of checkers in which MaxOptsStarted(n) suffices, with or without
    checkpoints: at most n - 1 + max_jobs optimizers have been set up and counted. *)
Theorem C90_optimizers_bounded g w kinds tree j n s : stops_at kinds tree j n w -> works w -> met g w s ->
  length (setups (st_hist s)) <= k_o (st_core s) /\ k_o (st_core s) <= Z.to_nat n + g_max_jobs g - 1.
Proof.
  intros Hst Hw Hm. split; [apply (id_len _ _ _ (m_id _ _ _ (met_inv _ _ _ Hm)))|]. destruct Hm as [limit [traj ->]].
  apply (over g w limit (Z.to_nat n) (stops_checker _ _ _ _ _ Hst) Hw (Z.to_nat n + g_max_jobs g - 1)); [lia|]. unfold upto. cbn. lia.
Qed.
Print Assumptions C90_optimizers_bounded.
(** The bound is reached: TargetCost(-1) | MaxOptsStarted(1) and three slots give three optimizers. *)
Definition checkers90 (j : nat) : checker := match j with 1 => TargetCost (Fin (-1)) (Fin 0) | _ => MaxOptsStarted 1 end.
Definition world90 (cf : conf) : world := mkW (w_moves w17) (w_intr w17) (w_err w17)
  (fun t c n => fst (cycle_select AlwaysSpawn [cf] (mkSV (k_f c) (k_o c)) n (mkCy (-1) (-1))))
  (fun t c => fst (Core_Model.call _ _ (check_behav checkers90) either88 (seen c 0%Q None 0%Q) check_init))
  (w_kill w17) (w_heads w17) (w_late w17) (w_full w17) (w_time_chk w17) (w_saved w17).
Lemma stops_90 cf : stops_at checkers90 either88 2 1 (world90 cf).
Proof.
  unfold stops_at. splits; [intros t c; eexists _, _, _, _; reflexivity| |cbn; tauto|reflexivity]. intros [|[|i]]; exact I.
Qed.
Example C90_optimizers_bounded_met : stops_at checkers90 either88 2 1 (world90 (cfA 1)) /\ works (world90 (cfA 1)) /\
  let s := snd (run gA (world90 (cfA 1)) 200 true) in k_o (st_core s) = 3 /\ length (starts (st_hist s)) = 3 /\ Z.to_nat 1 + g_max_jobs gA - 1 = 3.
Proof.
  split; [apply stops_90|]. split; [|vm_compute; auto]. intros t c n cf H. cbn in H. destruct n; cbn in H; [discriminate|]. injection H as <-. cbn. lia.
Qed.

(** A session that goes on from a checkpoint keeps to the bound as well, unless the checkpoint is beyond it already, in which
    case no optimizer is started. *)
Theorem C90_resumed_bounded g w kinds tree j n limit k c : stops_at kinds tree j n w -> works w ->
  k_o (st_core (snd (resume g w limit k c))) <= Nat.max (k_o c) (Z.to_nat n + g_max_jobs g - 1).
Proof.
  intros Hst Hw. unfold resume.
  apply (over g w limit (Z.to_nat n) (stops_checker _ _ _ _ _ Hst) Hw (Nat.max (k_o c) (Z.to_nat n + g_max_jobs g - 1))); [lia|]. unfold upto. cbn. lia.
Qed.
Print Assumptions C90_resumed_bounded.
(** MaxOptsStarted(2) and a checkpoint with one, two slots: one more is started. *)
Definition checkers90b (j : nat) : checker := match j with 1 => TargetCost (Fin (-1)) (Fin 0) | _ => MaxOptsStarted 2 end.
Definition w90b : world := mkW (w_moves w87b) (w_intr w87b) (w_err w87b) (w_sel (world90 (cfA 1)))
  (fun t c => fst (Core_Model.call _ _ (check_behav checkers90b) either88 (seen c 0%Q None 0%Q) check_init))
  (w_kill w87b) (w_heads w87b) (w_late w87b) (w_full w87b) (w_time_chk w87b) (w_saved w87b).
Example C90_resumed_bounded_met : stops_at checkers90b either88 2 2 w90b /\ works w90b /\
  k_o c87a = 1 /\ k_o (st_core (snd (resume g87 w90b 70 k87a c87a))) = 2.
Proof.
  unfold stops_at. splits; [intros t c; eexists _, _, _, _; reflexivity|intros [|[|i]]; exact I|cbn; tauto|reflexivity| |vm_compute; reflexivity|vm_compute; reflexivity].
  intros t c n cf H. cbn in H. destruct n; cbn in H; [discriminate|]. injection H as <-. cbn. lia.
Qed.

(** The selectors of the package hand out what they were given, so that the condition is one on avail_opts. *)
Theorem C90_package_selectors sp avail w : picks sp avail w -> (forall cf, In cf avail -> 1 <= cf_workers cf) -> works w.
Proof.
  intros [_ Hp] Ha t c n cf H. apply Ha. destruct (Hp t c n) as [[s E]|[[d E]|(th & tg & _ & _ & E)]]; rewrite E in H.
  - unfold cycle_select in H. destruct (negb _); [discriminate|]. cbv zeta in H. destruct (Z.eqb _ _); [discriminate|].
    destruct (nth_error _ _) as [c'|] eqn:En; [|discriminate]. destruct (Nat.ltb _ _); [discriminate|]. injection H as <-. exact (nth_error_In _ _ En).
  - unfold random_select in H. destruct (negb _); [discriminate|]. cbv zeta in H. destruct (filter _ _) as [|c' l] eqn:Ef; [discriminate|].
    destruct (nth_error _ _) as [c''|] eqn:En; [|discriminate]. injection H as <-. apply nth_error_In in En. rewrite <- Ef in En. apply filter_In in En. tauto.
  - unfold chain_select in H. destruct (negb _); [discriminate|]. cbv zeta in H.
    match type of H with context [nth_error avail ?x] => destruct (nth_error avail x) as [c'|] eqn:En end; [|discriminate].
    destruct (Nat.ltb _ _); [discriminate|]. injection H as <-. exact (nth_error_In _ _ En).
Qed.
Print Assumptions C90_package_selectors.
Example C90_package_selectors_met : picks AlwaysSpawn [cfA 1] (world90 (cfA 1)) /\ forall cf, In cf [cfA 1] -> 1 <= cf_workers cf.
Proof.
  split; [split; [discriminate|intros t c n; left; eexists; reflexivity]|]. intros cf [<-|[]]. cbn. lia.
Qed.

(** A configuration with 'workers': 0, which the constructor of the selector accepts, never fills the slots: the loop of
    _fill_optimizer_slots does not end and no checker is asked again.  Here 50 interactions are enough for a dozen optimizers. *)
Theorem C90_any_workers_refuted : exists kinds tree j n g w limit, stops_at kinds tree j n w /\ picks AlwaysSpawn [cfA 0] w /\
  Z.to_nat n + g_max_jobs g - 1 = 3 /\ 12 <= length (setups (st_hist (snd (run g w limit true)))).
Proof.
  exists checkers90, either88, 2, 1%Z, gA, (world90 (cfA 0)), 50. split; [apply stops_90|]. unfold picks. splits.
  - discriminate.
  - intros t c n. left. eexists. reflexivity.
  - reflexivity.
  - apply Nat.leb_le. vm_compute. reflexivity.
Qed.
Print Assumptions C90_any_workers_refuted.
(** Such a run has no end: however many interactions with the outside it is given, it needs more, though nothing goes wrong
    outside and the checker would have it stop after the first optimizer. *)
Theorem C90_no_workers_no_end g w limit traj : 1 <= g_max_jobs g ->
  (forall t c n, exists cf, w_sel w t c n = Ok (SOpt cf) /\ cf_workers cf = 0) ->
  (forall t, w_err w t = None /\ w_intr w t = false) -> (forall t c, k_o c = 0 -> w_check w t c = Ok false) ->
  fst (run g w limit traj) = Err OutOfFuel.
Proof. intros Hj Hs Hx Hc. apply endless; try assumption. unfold idle. cbn. auto. Qed.
Print Assumptions C90_no_workers_no_end.
Definition w90c : world := mkW (w_moves w17) (w_intr w17) (w_err w17) (w_sel (world90 (cfA 0))) (fun t c => Ok (1 <=? k_o c))
  (w_kill w17) (w_heads w17) (w_late w17) (w_full w17) (w_time_chk w17) (w_saved w17).
Example C90_no_workers_no_end_met : 1 <= g_max_jobs gA /\ (forall t c n, exists cf, w_sel w90c t c n = Ok (SOpt cf) /\ cf_workers cf = 0) /\
  (forall t, w_err w90c t = None /\ w_intr w90c t = false) /\ (forall t c, k_o c = 0 -> w_check w90c t c = Ok false) /\
  12 <= k_o (st_core (snd (run gA w90c 50 true))).
Proof.
  splits; [cbn; lia|intros t c n; exists (cfA 0); split; reflexivity|split; reflexivity| |apply Nat.leb_le; vm_compute; reflexivity].
  intros t c H. cbn. rewrite H. reflexivity.
Qed.
