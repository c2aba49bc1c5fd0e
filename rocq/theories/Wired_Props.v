(** * C88: the manager with the hunters, selectors and checkers of the package *)
From Verif Require Import Prelude Prelude_Proofs Checkers_Model Hunters_Model Hunters_Spec Hunters_Proofs Logger_Model Logger_Spec Selectors_Model
  Selectors_Spec Selectors_Proofs Manager_Model Manager_Spec Manager_Proofs Manager_Trace Manager_Props Logged_Proofs Resumed_Model Resumed_Spec
  Resumed_Proofs Always_Proofs Resumed_Props Wired_Spec Wired_Proofs.
From Verif Require Core_Model.
From Coq Require Import Lia.
Open Scope nat_scope.

(** ** Example: the run of [Manager_Props] with a cycle of two optimizers, two hunters and two checkers *)
Definition avail88 : list conf := [mkConf "A" 1 [] []; mkConf "B" 1 [] []].
Definition sp88 : spawner := NOptimizersSpawnStop 3.
Definition at88 (k : nat) : cycle := let i := match k with 0 => (-1)%Z | S j => Z.of_nat (Nat.modulo j 2) end in mkCy i i.
(** TypeHunter("A") & MinFuncCalls(2). *)
Definition hunters88 (j : nat) (a : logger * nat * nat) (p : unit) : res bool * unit :=
  let '(l, b, v) := a in (match j with 1 => type_hunter "A" l b v | _ => min_func_calls 2 l b v end, p).
Definition tree88 : Core_Model.core := Core_Model.Comb 0 Core_Model.JAnd (Core_Model.Leaf 1) (Core_Model.Leaf 2).
(** MaxFuncCalls(10) & TargetCost(1, 0). *)
Definition checkers88 (j : nat) : checker := match j with 1 => MaxFuncCalls 10 | _ => TargetCost (Fin 1) (Fin 0) end.
Definition wire (w : world) (sp : spawner) : world := mkW (w_moves w) (w_intr w) (w_err w)
  (fun t c n => fst (cycle_select sp avail88 (mkSV (k_f c) (k_o c)) n (at88 (k_o c))))
  (fun t c => fst (Core_Model.call _ _ (check_behav checkers88) tree88 (seen c 0%Q None 0%Q) check_init))
  (fun t c b v => fst (Core_Model.call _ _ hunters88 tree88 (k_log c, b, v) (Core_Model.mkC (fun _ => None) (fun _ => tt))))
  (w_heads w) (w_late w) (w_full w) (w_time_chk w) (w_saved w).
Definition moves88 (t : nat) : list move :=
  match t with
  | 12 => [MPush [ev 1 5 9; ev 2 3 7]]
  | 20 => [MPush [ev 1 4 6; ev 2 2 8]; MPush [ev 2 1 3]]
  | 45 => [MPush [ev 2 4 2; ev 3 4 1]; MPush [ev 3 3 5; ev 3 3 (1#2)]]
  | 120 => [MExit 1 0%Z; MPush [ev 2 4 2; ev 3 4 1]]
  | _ => [] end.
Definition w88 : world := wire (mkW moves88 (w_intr wA) (w_err wA) (w_sel wA) (w_check wA) (w_kill wA) (w_heads wA) (w_late wA) (w_full wA) (w_time_chk wA) (w_saved wA)) sp88.
Definition s88 : mstate := snd (run gA w88 400 true).
Example run_88 : match fst (run gA w88 400 true) with Ok (Some RChecker, r) => r_fx r = Some (Fin (1#2)) | _ => False end /\
  setups (st_hist s88) = [(1, "A"); (2, "B"); (3, "A")] /\ In (EvKill (Some 2) 1) (map snd (st_hist s88)).
Proof. vm_compute. splits; try reflexivity. repeat first [left; reflexivity|right]. Qed.
Lemma met_88 : met gA w88 s88.
Proof. exists 400, true. reflexivity. Qed.
Lemma wire_hunts w sp : hunts_by hunters88 tree88 (wire w sp).
Proof. intros t c b v. eexists. reflexivity. Qed.
Lemma wire_checks w sp : checks_by checkers88 tree88 (wire w sp).
Proof. intros t c. eexists _, _, _, _. reflexivity. Qed.
Lemma wire_cycles w sp : cycles sp avail88 0 (wire w sp).
Proof. intros t c n. exists (at88 (k_o c)). split; [|reflexivity]. rewrite Nat.sub_0_r. reflexivity. Qed.

(** ** Hunters *)
(** Whatever the combination, with a MinFuncCalls(n) which it needs no optimizer is hunted before its n-th evaluation. *)
Theorem C88_min_func_calls P g w s {L} (behav : nat -> logger * nat * nat -> L -> res bool * L) tree j n h1 c b v h2 :
  session P g w s -> hunts_by behav tree w -> needs tree j -> member_is behav j (min_func_calls n) ->
  st_hist s = h1 ++ (c, EvKill (Some b) v) :: h2 -> ~ In EvLoad (map snd h1) ->
  n <= length (filter (fun r => Nat.eqb (ir_opt r) v) (accepted h2)).
Proof.
  intros Hs Hw Hn Hj Hh Hl. destruct (hunted _ _ _ _ _ _ _ _ _ _ _ _ _ Hs Hw Hn Hj Hh Hl) as [H1 H2].
  destruct (LG_seen _ _ _ _ _ (event_log _ _ _ _ _ _ _ _ Hs Hh) H2) as (rs & Hr & Hrec).
  apply (proj1 (min_func_calls_spec _ _ _ _ _ _ Hrec)) in H1. rewrite map_length in H1. apply sub_len in Hr. unfold own in Hr. lia.
Qed.
Print Assumptions C88_min_func_calls.

(** With a TypeHunter which it needs only optimizers of that type are hunted. *)
Theorem C88_type_hunter P g w s {L} (behav : nat -> logger * nat * nat -> L -> res bool * L) tree j ty h1 c b v h2 :
  session P g w s -> hunts_by behav tree w -> needs tree j -> member_is behav j (type_hunter ty) ->
  st_hist s = h1 ++ (c, EvKill (Some b) v) :: h2 -> ~ In EvLoad (map snd h1) -> In (v, ty) (setups h2).
Proof.
  intros Hs Hw Hn Hj Hh Hl. destruct (hunted _ _ _ _ _ _ _ _ _ _ _ _ _ Hs Hw Hn Hj Hh Hl) as [H1 _].
  apply (LG_type _ _ _ _ _ _ (event_log _ _ _ _ _ _ _ _ Hs Hh)). unfold type_hunter in H1.
  destruct (get_metadata v "opt_type" (k_log c)) as [t|]; [|discriminate]. cbn in H1. injection H1 as H1. apply String.eqb_eq in H1. now subst.
Qed.
Print Assumptions C88_type_hunter.

Lemma kill_88 : exists h1 c h2, st_hist s88 = h1 ++ (c, EvKill (Some 2) 1) :: h2 /\ ~ In EvLoad (map snd h1) /\
  length (filter (fun r => Nat.eqb (ir_opt r) 1) (accepted h2)) = 2 /\ setups h2 <> [].
Proof.
  pose (n := length (filter (fun x => x) (map (fun k => negb (existsb (fun e => match e with EvKill (Some _) _ => true | _ => false end) (map snd (firstn k (st_hist s88))))) (seq 1 (length (st_hist s88)))))).
  exists (firstn n (st_hist s88)), (fst (nth n (st_hist s88) none)), (skipn (S n) (st_hist s88)).
  splits; [vm_compute; reflexivity|apply (absent is_load); vm_compute; reflexivity|vm_compute; reflexivity|vm_compute; discriminate].
Qed.
Example C88_hunters_met : session (fun _ => True) gA w88 s88 /\ hunts_by hunters88 tree88 w88 /\ needs tree88 1 /\ needs tree88 2 /\
  member_is hunters88 1 (type_hunter "A") /\ member_is hunters88 2 (min_func_calls 2) /\
  exists h1 c h2, st_hist s88 = h1 ++ (c, EvKill (Some 2) 1) :: h2 /\ ~ In EvLoad (map snd h1).
Proof.
  splits; try (intros l b v p; reflexivity); [apply se_first, met_88|apply wire_hunts|left; reflexivity|right; reflexivity|].
  destruct kill_88 as (h1 & c & h2 & H1 & H2 & _). eauto.
Qed.

(** The log is in every run, at every event, exactly the accepted evaluations, as long as no evaluation came in while a
    checkpoint was made (C87_late_results_are_lost_refuted).  This is what the hunters see. *)
Theorem C88_hunters_see_everything g w s h1 c e h2 i : in_step g w s -> st_hist s = h1 ++ (c, e) :: h2 ->
  has_iter_history i (k_log c) = true ->
  recorded (k_log c) i (map ir_x (filter (fun r => Nat.eqb (ir_opt r) i) (accepted h2)))
                       (map ir_fx (filter (fun r => Nat.eqb (ir_opt r) i) (accepted h2))).
Proof. intros Hs Hh Hi. destruct (LG_seen _ _ _ _ _ (event_log_full _ _ _ _ _ _ _ Hs Hh) Hi) as (rs & -> & H). exact H. Qed.
Print Assumptions C88_hunters_see_everything.
Example C88_hunters_see_everything_met : in_step g87 w87c s87c /\ exists h1 c e h2, st_hist s87c = h1 ++ (c, e) :: h2 /\
  has_iter_history 1 (k_log c) = true /\ In EvLoad (map snd h2) /\ length (filter (fun r => Nat.eqb (ir_opt r) 1) (accepted h2)) = 2.
Proof.
  split; [exact session_c|]. exists [], (fst (nth 0 (st_hist s87c) none)), (snd (nth 0 (st_hist s87c) none)), (skipn 1 (st_hist s87c)).
  splits; try (vm_compute; reflexivity). occurs.
Qed.

(** LastPointsInvalid(n) hunts only optimizers whose last n accepted values are not finite. *)
Theorem C88_last_points_invalid g w s {L} (behav : nat -> logger * nat * nat -> L -> res bool * L) tree j n h1 c b v h2 :
  in_step g w s -> hunts_by behav tree w -> needs tree j -> member_is behav j (last_points_invalid n) -> 0 < n ->
  st_hist s = h1 ++ (c, EvKill (Some b) v) :: h2 -> ~ In EvLoad (map snd h1) ->
  exists old new, map ir_fx (filter (fun r => Nat.eqb (ir_opt r) v) (accepted h2)) = old ++ new /\ length new = n /\
    forall f, In f new -> nfinite f = false.
Proof.
  intros Hs Hw Hn Hj H0 Hh Hl. destruct (hunted _ _ _ _ _ _ _ _ _ _ _ _ _ Hs Hw Hn Hj Hh Hl) as [H1 H2].
  exact (proj1 (last_points_invalid_spec _ _ _ _ _ _ (C88_hunters_see_everything _ _ _ _ _ _ _ _ Hs Hh H2) H0) H1).
Qed.
Print Assumptions C88_last_points_invalid.

(** BestUnmoving(n, tol) hunts only optimizers with more than n evaluations whose best value the last n changed by at most
    tol times that value. *)
Theorem C88_best_unmoving g w s {L} (behav : nat -> logger * nat * nat -> L -> res bool * L) tree j n tol h1 c b v h2 :
  in_step g w s -> hunts_by behav tree w -> needs tree j -> member_is behav j (best_unmoving n tol) -> 0 < n ->
  st_hist s = h1 ++ (c, EvKill (Some b) v) :: h2 -> ~ In EvLoad (map snd h1) ->
  (forall r, In r (accepted h2) -> nnan (ir_fx r) = false) ->
  exists old new x y, map ir_fx (filter (fun r => Nat.eqb (ir_opt r) v) (accepted h2)) = old ++ new /\ length new = n /\ old <> [] /\
    least x old /\ least y (old ++ new) /\ nle (nabs (nminus y x)) (nabs (nmul x tol)) = true.
Proof.
  intros Hs Hw Hn Hj H0 Hh Hl Hnan. destruct (hunted _ _ _ _ _ _ _ _ _ _ _ _ _ Hs Hw Hn Hj Hh Hl) as [H1 H2].
  pose proof (C88_hunters_see_everything _ _ _ _ _ _ _ _ Hs Hh H2) as Hr.
  assert (Hf : forall f, In f (map ir_fx (filter (fun r => Nat.eqb (ir_opt r) v) (accepted h2))) -> nnan f = false).
  { intros f Hi. apply in_map_iff in Hi as (r & <- & Hi). apply filter_In in Hi as [Hi _]. auto. }
  remember (map ir_fx (filter (fun r => Nat.eqb (ir_opt r) v) (accepted h2))) as fs eqn:Efs. clear Efs.
  destruct (Nat.le_gt_cases (length fs) n) as [Hle|Hgt].
  { rewrite (best_unmoving_short _ b _ _ _ _ tol Hr Hle) in H1. discriminate. }
  destruct (split_last n fs (Nat.lt_le_incl _ _ Hgt)) as (old & new & -> & Hnew).
  assert (Ho : old <> []) by (intros ->; cbn in Hgt; lia).
  destruct (best_unmoving_spec _ b _ _ _ _ _ tol Hr Hnew H0 Ho Hf) as (x & y & Hx & Hy & E). rewrite E in H1. injection H1 as H1.
  exists old, new, x, y. splits; auto.
Qed.
Print Assumptions C88_best_unmoving.

(** Optimizer 1 repeats the value [f] and is hunted by hunter [j] for it. *)
Definition hunters88b (j : nat) (a : logger * nat * nat) (p : unit) : res bool * unit :=
  let '(l, b, v) := a in (match j with 1 => last_points_invalid 2 l b v | _ => best_unmoving 1 (Fin 0) l b v end, p).
Definition w88b (j : nat) (f : num) : world := mkW
  (fun t => match t with 12 => [MPush [ev 2 3 7; QRes (mkIR 1 [Fin 5] f [])]] | 20 => [MPush [QRes (mkIR 1 [Fin 5] f []); ev 2 2 8]] | _ => [] end)
  (w_intr wA) (w_err wA) (w_sel wA) (w_check wA)
  (fun t c b v => fst (Core_Model.call _ _ hunters88b (Core_Model.Leaf j) (k_log c, b, v) (Core_Model.mkC (fun _ => None) (fun _ => tt))))
  (w_heads wA) (w_late wA) (w_full wA) (w_time_chk wA) (w_saved wA).
Definition s88b (j : nat) (f : num) : mstate := snd (run gA (w88b j f) 60 true).
Ltac first_kill s := 
  let n := eval vm_compute in (length (filter (fun x => x) (map (fun k => negb (existsb (fun e => match e with EvKill (Some _) _ => true | _ => false end)
    (map snd (firstn k (st_hist s))))) (seq 1 (length (st_hist s)))))) in
  exists (firstn n (st_hist s)), (fst (nth n (st_hist s) none)), (skipn (S n) (st_hist s)).
Example C88_last_points_invalid_met : in_step gA (w88b 1 PInf) (s88b 1 PInf) /\ hunts_by hunters88b (Core_Model.Leaf 1) (w88b 1 PInf) /\
  member_is hunters88b 1 (last_points_invalid 2) /\
  exists h1 c h2, st_hist (s88b 1 PInf) = h1 ++ (c, EvKill (Some 2) 1) :: h2 /\ ~ In EvLoad (map snd h1).
Proof.
  splits; [apply se_first; exists 60, true; reflexivity|intros t c b v; eexists; reflexivity|intros l b v p; reflexivity|].
  first_kill (s88b 1 PInf). split; [vm_compute; reflexivity|]. apply (absent is_load); vm_compute; reflexivity.
Qed.
Example C88_best_unmoving_met : in_step gA (w88b 2 (Fin 9)) (s88b 2 (Fin 9)) /\ hunts_by hunters88b (Core_Model.Leaf 2) (w88b 2 (Fin 9)) /\
  member_is hunters88b 2 (best_unmoving 1 (Fin 0)) /\
  exists h1 c h2, st_hist (s88b 2 (Fin 9)) = h1 ++ (c, EvKill (Some 2) 1) :: h2 /\ ~ In EvLoad (map snd h1) /\
    (forall r, In r (accepted h2) -> nnan (ir_fx r) = false).
Proof.
  splits; [apply se_first; exists 60, true; reflexivity|intros t c b v; eexists; reflexivity|intros l b v p; reflexivity|].
  first_kill (s88b 2 (Fin 9)). splits; [vm_compute; reflexivity|apply (absent is_load); vm_compute; reflexivity|].
  intros r Hr. vm_compute in Hr. repeat destruct Hr as [<-|Hr]; try reflexivity. destruct Hr.
Qed.

(** ** Spawn control *)
(** With NOptimizersSpawnStop(n) no optimizer beyond the n-th is made, in a fresh run or a resumed one. *)
Theorem C88_n_optimizers P g w s n h1 c i cls h2 : session P g w s -> spawns_by (NOptimizersSpawnStop n) w ->
  st_hist s = h1 ++ (c, EvSetup i cls) :: h2 -> ~ In EvLoad (map snd h1) -> (Z.of_nat i <= n)%Z.
Proof.
  intros Hs Hw Hh Hl. assert (He : EvSetup i cls <> EvLoad) by discriminate.
  destruct (event_now _ _ _ _ _ _ _ _ Hs Hh Hl He) as (t & c0 & k & cf & H & _ & -> & _). apply Hw in H. cbn in H.
  destruct (Z.leb_spec n (Z.of_nat (k_o c0))); [discriminate|lia].
Qed.
Print Assumptions C88_n_optimizers.
Theorem C88_n_optimizers_in_all g w s n : met g w s -> spawns_by (NOptimizersSpawnStop n) w -> (0 <= n)%Z -> (Z.of_nat (length (setups (st_hist s))) <= n)%Z.
Proof.
  intros Hm Hw H0. destruct (session_always _ _ _ _ (se_first (fun _ => True) _ _ _ Hm)) as (a & b & d & HJ & _).
  pose proof (j_setups _ _ _ _ _ _ _ _ HJ) as H. destruct b as [|b].
  - apply map_eq_nil in H. rewrite H. exact H0.
  - assert (Hi : In (S b) (map fst (setups (st_hist s)))) by (rewrite H; apply in_seq; lia).
    apply in_map_iff in Hi as ([i cls] & E & Hi). cbn in E. subst i. destruct (setup_at _ _ _ Hi) as (h1 & c & h2 & Hh).
    assert (Hl : ~ In EvLoad (map snd h1)).
    { pose proof (met_session _ _ _ Hm) as Hl. rewrite Hh, map_app, in_app_iff in Hl. tauto. }
    pose proof (C88_n_optimizers _ _ _ _ _ _ _ _ _ _ (se_first (fun _ => True) _ _ _ Hm) Hw Hh Hl).
    apply (f_equal (@length nat)) in H. rewrite map_length, seq_length in H. lia.
Qed.
Print Assumptions C88_n_optimizers_in_all.

(** With IterSpawnStop(n) none is made after the n-th accepted evaluation. *)
Theorem C88_iter_spawn_stop P g w s n h1 c i cls h2 : session P g w s -> spawns_by (IterSpawnStop n) w ->
  st_hist s = h1 ++ (c, EvSetup i cls) :: h2 -> ~ In EvLoad (map snd h1) -> (Z.of_nat (length (accepted h2)) < n)%Z.
Proof.
  intros Hs Hw Hh Hl. assert (He : EvSetup i cls <> EvLoad) by discriminate.
  destruct (event_now _ _ _ _ _ _ _ _ Hs Hh Hl He) as (t & c0 & k & cf & H & _ & _ & Hf). apply Hw in H. cbn in H. rewrite Hf in H.
  destruct (Z.leb_spec n (Z.of_nat (length (accepted h2)))); [discriminate|lia].
Qed.
Print Assumptions C88_iter_spawn_stop.

(** ** CycleSelector *)
(** Whatever it was asked, the cycle stands where the number of optimizers handed out says. *)
Theorem C88_cycle_state sp avail reqs : avail <> [] ->
  after (length avail) (length (given (cycle_run sp avail reqs cycle_init))) (cycle_state sp avail reqs cycle_init).
Proof. intro Hne. exact (cycle_after sp avail reqs Hne cycle_init 0 eq_refl). Qed.
Print Assumptions C88_cycle_state.

Lemma cycles_gives sp avail k0 w t c n cf : avail <> [] -> cycles sp avail k0 w -> w_sel w t c n = Ok (SOpt cf) ->
  nth_error avail (Nat.modulo (k_o c - k0) (length avail)) = Some cf /\ cf_workers cf <= n /\ allow sp (mkSV (k_f c) (k_o c)) = true.
Proof.
  intros Hne Hw H. destruct (Hw t c n) as (s0 & Ha & E). rewrite E in H.
  destruct (cycle_step sp avail (mkSV (k_f c) (k_o c)) n s0 Hne (after_ok _ _ _ Hne Ha)) as [[_ E1]|[Hal [cf' [Hn [[_ E1]|[Hc [o E1]]]]]]]; rewrite E1 in H; try discriminate H.
  injection H as ->. rewrite (after_next avail _ _ Hne Ha) in Hn. auto.
Qed.
(** The i-th optimizer of a run is the one the cycle was at, whatever happened in between. *)
Theorem C88_cycle_through_the_run P g w s sp avail k0 h1 c i cls h2 : session P g w s -> avail <> [] -> cycles sp avail k0 w ->
  st_hist s = h1 ++ (c, EvSetup i cls) :: h2 -> ~ In EvLoad (map snd h1) ->
  exists cf, nth_error avail (Nat.modulo (i - 1 - k0) (length avail)) = Some cf /\ cf_class cf = cls.
Proof.
  intros Hs Hne Hw Hh Hl. assert (He : EvSetup i cls <> EvLoad) by discriminate.
  destruct (event_now _ _ _ _ _ _ _ _ Hs Hh Hl He) as (t & c0 & k & cf & H & Hc & -> & _). exists cf. split; [|exact Hc].
  replace (S (k_o c0) - 1 - k0) with (k_o c0 - k0) by lia. exact (proj1 (cycles_gives _ _ _ _ _ _ _ _ Hne Hw H)).
Qed.
Print Assumptions C88_cycle_through_the_run.
(** So it has the spawn control it was given. *)
Theorem C88_cycle_spawns_by sp avail k0 w : avail <> [] -> cycles sp avail k0 w -> spawns_by sp w.
Proof. intros Hne Hw t c n cf H. apply (cycles_gives _ _ _ _ _ _ _ _ Hne Hw H). Qed.
Print Assumptions C88_cycle_spawns_by.

Example C88_spawning_met : met gA w88 s88 /\ cycles sp88 avail88 0 w88 /\ spawns_by sp88 w88 /\ sp88 = NOptimizersSpawnStop 3 /\
  setups (st_hist s88) = [(1, "A"); (2, "B"); (3, "A")] /\ In EvStopSpawn (map snd (st_hist s88)).
Proof.
  assert (avail88 <> []) by discriminate.
  splits; [exact met_88|apply wire_cycles|apply (C88_cycle_spawns_by _ avail88 0); [assumption|apply wire_cycles]|reflexivity|vm_compute; reflexivity|occurs].
Qed.
Definition w88c : world := wire wA (IterSpawnStop 2).
Definition s88c : mstate := snd (run gA w88c 100 true).
Example C88_iter_spawn_stop_met : met gA w88c s88c /\ spawns_by (IterSpawnStop 2) w88c /\ exists c i cls, In (c, EvSetup i cls) (st_hist s88c) /\
  In EvStopSpawn (map snd (st_hist s88c)).
Proof.
  assert (avail88 <> []) by discriminate.
  splits; [exists 100, true; reflexivity|apply (C88_cycle_spawns_by _ avail88 0); [assumption|apply wire_cycles]|].
  assert (Hi : In (1, "A") (setups (st_hist s88c))) by occurs. destruct (setup_at _ _ _ Hi) as (h1 & c & h2 & Hh).
  exists c, 1, "A". split; [rewrite Hh; apply in_app_iff; right; left; reflexivity|]. clear h1 c h2 Hh Hi. occurs.
Qed.

(** ** Checkers *)
(** At every judgement: the checker says yes only if all checkers it needs are due, and no only if none is due which
    suffices. *)
Theorem C88_judged_when_due g w s kinds tree h1 c a d h2 j : in_step g w s -> checks_by kinds tree w ->
  st_hist s = h1 ++ (c, EvJudge a d) :: h2 -> ~ In EvLoad (map snd h1) -> plain (kinds j) = true ->
  (a = true -> needs tree j -> due (kinds j) h2) /\ (a = false -> suffices tree j -> ~ due (kinds j) h2).
Proof.
  intros Hs Hw Hh Hl Hp. assert (Hl' : ~ In EvLoad (EvJudge a d :: map snd h1)) by (intros [E|E]; [discriminate|tauto]).
  pose proof (session_now _ _ _ _ _ _ _ Hs Hh Hl') as Hok.
  split; intros -> Hn; destruct (judged _ _ _ _ _ _ _ _ _ _ _ Hs Hw Hh Hl j Hn) as (x & y & z & p & E);
    destruct (checked _ _ _ _ _ _ x y z _ p Hok Hp) as (b & Eb & Hb); rewrite Eb in E; injection E as ->.
  - apply Hb. reflexivity.
  - intro H. apply Hb in H. discriminate.
Qed.
Print Assumptions C88_judged_when_due.

(** A run that says it stopped because of its checker met the condition of each checker needed. *)
Theorem C88_stopped_when_due g w limit traj x kinds tree j : fst (run g w limit traj) = Ok (Some RChecker, x) -> checks_by kinds tree w ->
  needs tree j -> plain (kinds j) = true -> due (kinds j) (st_hist (snd (run g w limit traj))).
Proof.
  intros He Hw Hn Hp. destruct (C16_left_only_when_told _ _ _ _ _ _ He) as (c & a & d & Hj & _ & Ha). rewrite (proj1 Ha eq_refl) in Hj.
  assert (Hm : met g w (snd (run g w limit traj))) by (exists limit, traj; reflexivity).
  destruct (last_judge_at _ _ _ _ Hj) as (h1 & h2 & Hh).
  assert (Hl : ~ In EvLoad (map snd h1)).
  { pose proof (met_session _ _ _ Hm) as Hl. rewrite Hh, map_app, in_app_iff in Hl. tauto. }
  destruct (C88_judged_when_due _ _ _ _ _ _ _ _ _ _ j (se_first _ _ _ _ Hm) Hw Hh Hl Hp) as [H _].
  specialize (H eq_refl Hn). rewrite Hh. apply (due_later _ (h1 ++ [(c, EvJudge true d)])) in H. rewrite <- app_assoc in H. exact H.
Qed.
Print Assumptions C88_stopped_when_due.
Lemma judge_88 : exists h1 c h2, st_hist s88 = h1 ++ (c, EvJudge false false) :: h2 /\ ~ In EvLoad (map snd h1) /\ accepted h2 <> [].
Proof.
  pose (n := length (filter (fun x => x) (map (fun k => negb (existsb (fun e => match e with EvJudge false _ => true | _ => false end) (map snd (firstn k (st_hist s88))))) (seq 1 (length (st_hist s88)))))).
  exists (firstn n (st_hist s88)), (fst (nth n (st_hist s88) none)), (skipn (S n) (st_hist s88)).
  splits; [vm_compute; reflexivity|apply (absent is_load); vm_compute; reflexivity|vm_compute; discriminate].
Qed.
Example C88_checkers_met : (exists x, fst (run gA w88 400 true) = Ok (Some RChecker, x)) /\ checks_by checkers88 tree88 w88 /\
  needs tree88 1 /\ needs tree88 2 /\ plain (checkers88 1) = true /\ plain (checkers88 2) = true /\
  length (accepted (st_hist s88)) = 11 /\ exists h1 c h2, st_hist s88 = h1 ++ (c, EvJudge false false) :: h2 /\ ~ In EvLoad (map snd h1).
Proof.
  splits; [eexists; vm_compute; reflexivity|apply wire_checks|left; reflexivity|right; reflexivity|reflexivity|reflexivity|vm_compute; reflexivity|].
  destruct judge_88 as (h1 & c & h2 & H1 & H2 & _). eauto.
Qed.
(** The run goes on with one of the two conditions of an [&] met, and the other suffices for an [|]. *)
Example C88_suffices_met : suffices (Core_Model.Comb 0 Core_Model.JOr (Core_Model.Leaf 1) (Core_Model.Leaf 2)) 2 /\
  ~ suffices tree88 1 /\ ~ needs (Core_Model.Comb 0 Core_Model.JOr (Core_Model.Leaf 1) (Core_Model.Leaf 2)) 1.
Proof. cbn. splits; [right; reflexivity|intros [_ H]; discriminate|intros [_ H]; discriminate]. Qed.
