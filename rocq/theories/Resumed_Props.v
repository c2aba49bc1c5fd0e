(** * C87: runs over several sessions *)
From Verif Require Import Prelude Prelude_Proofs Logger_Model Logger_Spec Logger_Proofs Manager_Model Manager_Spec Manager_Proofs
  Manager_Trace Manager_Props Manager_Props2 Ends_Spec Restart_Model Restart_Props Resumed_Model Resumed_Spec Due_Spec Due_Proofs Due_Props Resumed_Proofs Logged_Proofs Always_Proofs.
From Verif Require Import Crash_Spec Crash_Props.
From Verif Require Manager_Safe Guard_Model Guard_Proofs GuardRun_Proofs Guard_Props.

(** ** Example: a run, a resumed one, and one resumed from the checkpoint made in the second *)
Definition none : core * event := (st_core (fresh true), EvEnd).
(** The checkpoint whose manager is event [n] of the history (newest first) and whose log is [m] events before. *)
Definition ckpt_at (s : mstate) (n m : nat) (found : list nat) : ckpt :=
  let h := skipn n (st_hist s) in mkCk (fst (hd none h)) (k_log (fst (nth m (tl h) none))) found (tl h).
Definition resumed_to (g : config) (w : world) (limit : nat) (k : ckpt) : mstate :=
  match load g k (fun _ => true) false with Ok c => snd (resume g w limit k c) | Err _ => fresh true end.

Definition w87a : world := wB 8 17 [MPush [ev 1 5 5]; MCheckpointFile] [MSig 1 SPaused; MHold 1].
Definition s87a : mstate := snd (run gB w87a 40 true).
Definition k87a : ckpt := ckpt_at s87a 2 3 [1].
(** The second world starts an optimizer of its own. *)
Definition w87 (k1 k2 o : nat) (m1 m2 : list move) : world := mkW
  (fun t => if t =? k1 then m1 else if t =? k2 then m2 else [])
  (fun _ => false) (fun _ => None)
  (fun t c n => Ok (if (k_o c <? o) && (1 <=? n) then SOpt (cfA 1) else SNone))
  (fun t c => Ok (4 <=? k_f c)) (fun _ _ _ v => Ok true) (fun _ _ => Ok []) (fun _ _ => false)
  (fun _ => false) (fun _ => false) (fun _ _ => true).
Definition g87 : config := mkCfg 2 2 true false false true false true None false false.
Definition w87b : world := w87 8 25 2 [MPush [ev 1 3 3]; MPush [ev 2 4 4]; MCheckpointFile] [MSig 1 SPaused; MSig 2 SPaused; MHold 1; MHold 2].
Definition s87b : mstate := resumed_to g87 w87b 70 k87a.
Definition k87b : ckpt := ckpt_at s87b 2 6 [2; 1].
Definition w87c : world := w87 6 1000 2 [MPush [ev 2 1 1]] [].
Definition s87c : mstate := resumed_to g87 w87c 70 k87b.

Lemma absent (f : event -> bool) e l : f e = true -> existsb f l = false -> ~ In e l.
Proof. intros H1 H2 Hi. assert (existsb f l = true) by (apply existsb_exists; eauto). congruence. Qed.
Definition is_load (e : event) : bool := match e with EvLoad => true | _ => false end.
Definition is_save_log (e : event) : bool := match e with EvSaveLog => true | _ => false end.
Definition is_stop (e : event) : bool := match e with EvSend _ OStop => true | _ => false end.
Definition is_judge (e : event) : bool := match e with EvJudge _ _ => true | _ => false end.
(** Splits the history of a state to show that a checkpoint was written. *)
Ltac by_writing n m s :=
  exists (firstn n (st_hist s)), (firstn m (skipn (S n) (st_hist s))), (fst (nth (S n + m) (st_hist s) none)), (skipn (S (S n + m)) (st_hist s));
  splits; try (vm_compute; reflexivity);
  [ apply (absent is_save_log); vm_compute; reflexivity
  | repeat constructor; cbn; intuition discriminate
  | let i := fresh "i" in let Hi := fresh "Hi" in intros i Hi; cbn [In ck_found ckpt_at] in Hi; repeat destruct Hi as [<-|Hi]; try contradiction; occurs ].

Example written_a : written s87a k87a [].
Proof. by_writing 2 3 s87a. Qed.
Example written_b : written s87b k87b [].
Proof. by_writing 2 6 s87b. Qed.
Definition c87a : core := match load g87 k87a (fun _ => true) false with Ok c => c | Err _ => st_core (fresh true) end.
Definition c87b : core := match load g87 k87b (fun _ => true) false with Ok c => c | Err _ => st_core (fresh true) end.
Example session_b : in_step g87 w87b s87b.
Proof.
  change s87b with (snd (resume g87 w87b 70 k87a c87a)).
  eapply (se_next _ gB w87a s87a k87a [] (fun _ => true) false c87a); [|exact written_a|reflexivity|vm_compute; reflexivity].
  apply se_first. exists 40, true. reflexivity.
Qed.
Example session_c : in_step g87 w87c s87c.
Proof.
  change s87c with (snd (resume g87 w87c 70 k87b c87b)).
  eapply (se_next _ g87 w87b s87b k87b [] (fun _ => true) false c87b); [exact session_b|exact written_b|reflexivity|vm_compute; reflexivity].
Qed.
Example events_c : map snd (rev (firstn 11 (st_hist s87c))) =
  [EvSaveManager; EvLoad; EvIter; EvAccept (mkIR 2 [Fin 1] (Fin 1) []); EvHunt; EvKill (Some 2) 1; EvSend 1 OStop;
   EvJudge true false; EvSend 2 OStop; EvSend 1 OStop; EvEnd].
Proof. vm_compute. reflexivity. Qed.

(** An optimizer is killed, still answers the pause signal and is saved and started again. *)
Definition w87f : world := wB 8 17 [MFile "STOP_1"; MCheckpointFile] [MSig 1 SPaused; MHold 1].
Definition s87f : mstate := snd (run gB w87f 50 true).
Definition k87f : ckpt := ckpt_at s87f 4 3 [1].
Definition w87g : world := wB 6 1000 [MPush [ev 1 9 9]] [].
Definition s87g : mstate := resumed_to gB w87g 100 k87f.
Definition c87f : core := match load gB k87f (fun _ => true) false with Ok c => c | Err _ => st_core (fresh true) end.
Lemma session_g : in_step gB w87g s87g.
Proof.
  change s87g with (snd (resume gB w87g 100 k87f c87f)).
  eapply (se_next _ gB w87f s87f k87f [] (fun _ => true) false c87f); [| |reflexivity|vm_compute; reflexivity].
  - apply se_first. exists 50, true. reflexivity.
  - by_writing 4 3 s87f.
Qed.

(** ** What holds over all sessions *)
(** At every decision of every session the result is the best of all evaluations accepted so far, in this session and
    in those it goes back to. *)
Theorem C87_result_is_best_at_decisions g w s h1 c e h2 : in_step g w s -> st_hist s = h1 ++ (c, e) :: h2 -> decision e = true ->
  result_best (setups h2) (accepted h2) (k_result c).
Proof.
  intros Hs Hh Hd. destruct (session_snap _ _ _ _ _ _ _ Hs Hh) as (g0 & w0 & _ & (_ & _ & _ & H & _)); [intros ->; discriminate|]. apply H, Hd.
Qed.
Print Assumptions C87_result_is_best_at_decisions.
Example C87_result_is_best_at_decisions_met : exists h1 c h2,
  st_hist s87c = h1 ++ (c, EvJudge true false) :: h2 /\ map ir_opt (accepted h2) = [1; 1; 2; 2] /\ r_fx (k_result c) = Some (Fin 1).
Proof.
  exists (firstn 3 (st_hist s87c)), (fst (nth 3 (st_hist s87c) none)), (skipn 4 (st_hist s87c)). vm_compute. auto.
Qed.

(** Its value never increases, not by loading either. *)
Theorem C87_result_never_worse g w s h1 c e h2 c' e' : in_step g w s -> st_hist s = h1 ++ (c, e) :: h2 ->
  nle (value (k_result (st_core s))) (value (k_result c)) = true /\
  (In (c', e') h2 -> nle (value (k_result c)) (value (k_result c')) = true).
Proof.
  intros Hs Hh. destruct (session_inv _ _ _ Hs) as [HI _]. destruct (m_mono _ _ _ HI) as [H1 H2]. rewrite Hh in H1, H2. split.
  - apply (H1 c e). apply in_app_iff. right. left. reflexivity.
  - intro Hi. exact (snaps_split _ _ _ _ _ H2 _ _ Hi).
Qed.
Print Assumptions C87_result_never_worse.
Example C87_result_never_worse_met : map (fun p => r_fx (k_result (fst p))) (filter (fun p => match snd p with EvLoad => true | _ => false end) (st_hist s87c)) =
  [Some (Fin 3); Some (Fin 5)] /\ r_fx (k_result (st_core s87c)) = Some (Fin 1).
Proof. vm_compute. auto. Qed.

(** The manager and the log count the evaluations of all sessions. *)
Theorem C87_counters_agree g w s : in_step g w s ->
  k_f (st_core s) = length (accepted (st_hist s)) /\ log_len (k_log (st_core s)) = k_f (st_core s).
Proof.
  intro Hs. destruct (session_inv _ _ _ Hs) as [HI _]. pose proof (m_log _ _ _ HI) as H. split; [apply H|].
  unfold log_len. rewrite (I_count _ _ _ (lv_log _ H)), (lv_f _ H). reflexivity.
Qed.
Print Assumptions C87_counters_agree.
Example C87_counters_agree_met : k_f (st_core s87c) = 4.
Proof. vm_compute. reflexivity. Qed.

(** The best evaluation of every optimizer in the log is that over all sessions. *)
Theorem C87_log_knows_all_sessions g w s i ty : in_step g w s -> In (i, ty) (setups (st_hist s)) ->
  exists b, get_best_iter (Some i) (k_log (st_core s)) = Ok b /\ b_opt b = i /\ b_type b = ty /\
            first_best (accepted (st_hist s)) (fun r => Nat.eqb (ir_opt r) i) i (b_x b) (b_fx b) (b_call b).
Proof.
  intros Hs Hi. destruct (session_inv _ _ _ Hs) as [HI _]. pose proof (lv_log _ (m_log _ _ _ HI)) as H.
  destruct (I_reg _ _ _ H i ty) as (H0 & a & b & A1 & A2 & A3 & A4 & A5); [apply -> in_rev; exact Hi|].
  exists b. destruct i as [|i]; [congruence|]. unfold get_best_iter. rewrite A1, A2. auto.
Qed.
Print Assumptions C87_log_knows_all_sessions.
Example C87_log_knows_all_sessions_met : setups (st_hist s87c) = [(1, "A"); (2, "A")] /\
  get_best_iter (Some 1) (k_log (st_core s87c)) = Ok (mkB 1 [Fin 3] (Fin 3) "A" 2).
Proof. vm_compute. auto. Qed.

(** A resumed run which ends of its own accord returns the best of all evaluations. *)
Theorem C87_returned_result_is_best g w s k late builds conv c g' w' limit r x :
  in_step g w s -> written s k late -> late = [] -> load g' k builds conv = Ok c ->
  fst (resume g' w' limit k c) = Ok (Some r, x) -> r = RChecker \/ r = RDead \/ r = RNone ->
  let h := st_hist (snd (resume g' w' limit k c)) in weak_best (setups h) (accepted h) x.
Proof.
  intros Hs Hw Hl Hc He Hr. destruct (resumed_outcome _ _ _ _ _ _ _ _ _ _ _ Hs Hw Hl Hc _ He) as [H1 H2]. cbn in H1, H2 |- *.
  rewrite H1. destruct Hr as [-> | [-> | ->]]; apply H2.
Qed.
Print Assumptions C87_returned_result_is_best.
Example C87_returned_result_is_best_met : fst (resume g87 w87c 70 k87b c87b) =
  Ok (Some RChecker, mkR (Some [Fin 1]) (Some (Fin 1)) (Some (4, 2, 0, 0)) (Some (2, "A"))).
Proof. vm_compute. reflexivity. Qed.

(** Ids go on where the checkpoint was: none is used twice, in any session. *)
Theorem C87_ids_are_consecutive P g w s : session P g w s ->
  map fst (starts (st_hist s)) = seq 1 (length (starts (st_hist s))) /\
  map fst (setups (st_hist s)) = seq 1 (length (setups (st_hist s))) /\
  length (starts (st_hist s)) <= k_o (st_core s) <= S (length (starts (st_hist s))) /\
  forall i, In i (dkeys (k_packs (st_core s))) -> 1 <= i <= k_o (st_core s).
Proof.
  intro Hs. destruct (session_always _ _ _ _ Hs) as (a & b & d & [_ _ _ _ _ _ H1 H2 H3 _ _ _ _ _ H4 _] & L1 & L2 & L3).
  rewrite (seq_len _ _ H1), (seq_len _ _ H2). splits; auto; lia.
Qed.
Print Assumptions C87_ids_are_consecutive.
Example C87_ids_are_consecutive_met : map fst (starts (st_hist s87c)) = [1; 2] /\ length (filter (fun p => match snd p with EvLoad => true | _ => false end) (st_hist s87c)) = 2.
Proof. vm_compute. auto. Qed.

(** Nothing is accepted from an optimizer killed in an earlier session, and none is killed twice. *)
Theorem C87_nothing_from_the_dead P g w s h1 c hn i h2 : session P g w s -> st_hist s = h1 ++ (c, EvKill hn i) :: h2 ->
  (forall c' r, In (c', EvAccept r) h1 -> ir_opt r <> i) /\ (forall c' hn', ~ In (c', EvKill hn' i) h1).
Proof.
  intros Hs Hh. assert (Hk : forall hb, In i (kills (hb ++ (c, EvKill hn i) :: h2))).
  { induction hb as [|[c0 e] hb IH]; cbn; [apply in_app_iff; right; left; reflexivity|]. destruct e; auto. apply in_app_iff. left. exact IH. }
  destruct (session_always _ _ _ _ Hs) as (a & b & d & HJ & _). pose proof (j_facts _ _ _ _ _ _ _ _ HJ) as Hf.
  split.
  - intros c' r Hi He. apply in_split in Hi as [ha [hb ->]]. rewrite <- app_assoc in Hh. cbn [app] in Hh.
    rewrite Hh in Hf. apply snaps_split in Hf as (_ & _ & H). apply H. rewrite He. apply Hk.
  - intros c' hn' Hi. apply in_split in Hi as [ha [hb ->]]. rewrite <- app_assoc in Hh. cbn [app] in Hh.
    rewrite Hh in Hf. apply snaps_split in Hf as (_ & _ & H). apply H, Hk.
Qed.
Print Assumptions C87_nothing_from_the_dead.

Example C87_nothing_from_the_dead_met : exists h1 c h2, st_hist s87g = h1 ++ (c, EvKill None 1) :: h2 /\ In EvLoad (map snd h1).
Proof.
  exists (firstn 24 (st_hist s87g)), (fst (nth 24 (st_hist s87g) none)), (skipn 25 (st_hist s87g)). split; [vm_compute; reflexivity| occurs].
Qed.

(** Once no more optimizers are to be started, no session which goes back to that starts any. *)
Theorem C87_no_start_after_stop P g w s h1 c h2 : session P g w s -> st_hist s = h1 ++ (c, EvStopSpawn) :: h2 ->
  forall c' i cls n, ~ In (c', EvStart i cls n) h1.
Proof.
  intros Hs Hh c' i cls n Hi. apply in_split in Hi as [ha [hb ->]]. rewrite <- app_assoc in Hh. cbn [app] in Hh.
  destruct (session_always _ _ _ _ Hs) as (a & b & d & HJ & _). pose proof (j_facts _ _ _ _ _ _ _ _ HJ) as Hf.
  rewrite Hh in Hf. apply snaps_split in Hf as (_ & _ & H). apply H.
  rewrite map_app. apply in_app_iff. right. left. reflexivity.
Qed.
Print Assumptions C87_no_start_after_stop.

Definition g87j : config := mkCfg 2 2 false false false true false true None false false.
Definition w87j : world := wB 20 29 [MCheckpointFile] [MSig 1 SPaused; MHold 1].
Definition s87j : mstate := snd (run g87j w87j 60 true).
Definition k87j : ckpt := ckpt_at s87j 2 3 [1].
Definition c87j : core := match load g87 k87j (fun _ => true) false with Ok c => c | Err _ => st_core (fresh true) end.
(** The world of the next session would start more. *)
Definition s87k : mstate := snd (resume g87 w87b 40 k87j c87j).
Example C87_no_start_after_stop_met : in_step g87 w87b s87k /\ k_o (st_core s87k) = 1 /\
  exists h1 c h2, st_hist s87k = h1 ++ (c, EvStopSpawn) :: h2 /\ In EvLoad (map snd h1).
Proof.
  splits.
  - eapply (se_next _ g87j w87j s87j k87j [] (fun _ => true) false c87j); [| |reflexivity|vm_compute; reflexivity].
    + apply se_first. exists 60, true. reflexivity.
    + by_writing 2 3 s87j.
  - vm_compute. reflexivity.
  - pose (n := (length (st_hist s87k) - 6)). exists (firstn n (st_hist s87k)), (fst (nth n (st_hist s87k) none)), (skipn (S n) (st_hist s87k)).
    split; [vm_compute; reflexivity| occurs].
Qed.

(** Restarted and new optimizers together keep to the settings of the session they run in. *)
Theorem C87_slots_within_jobs P g w s h1 c i cls n h2 : obeys w -> session P g w s ->
  living_slots (st_core s) <= g_max_jobs g /\
  (st_hist s = h1 ++ (c, EvStart i cls n) :: h2 -> ~ In EvLoad (map snd h1) -> living_slots c + n <= g_max_jobs g).
Proof.
  intros Ho Hs. destruct (session_always _ _ _ _ Hs) as (a & b & d & HJ & _). split; [apply (j_slots _ _ _ _ _ _ _ _ HJ Ho)|].
  intros Hh Hn. pose proof (j_now _ _ _ _ _ _ _ _ HJ) as Hf. rewrite Hh in Hf. apply snaps_now_split in Hf; [exact (Hf Ho)|discriminate|exact Hn].
Qed.
Print Assumptions C87_slots_within_jobs.
Example C87_slots_within_jobs_met : obeys w87b /\ living_slots (st_core (resumed_to g87 w87b 10 k87a)) = 2 /\ g_max_jobs g87 = 2.
Proof.
  split; [|vm_compute; auto]. intros t c n cf. change (w_sel w87b t c n) with (@Ok selres (if (k_o c <? 2) && (1 <=? n) then SOpt (cfA 1) else SNone)).
  destruct ((k_o c <? 2) && (1 <=? n)) eqn:E; intro H; inversion H. apply andb_true_iff in E as [_ E]. apply Nat.leb_le in E. exact E.
Qed.

(** Hunts of a session are spaced as its settings demand, from the hunts of earlier sessions too. *)
Theorem C87_hunts_are_spaced P g w s h1 c h2 : session P g w s -> st_hist s = h1 ++ (c, EvHunt) :: h2 -> ~ In EvLoad (map snd h1) ->
  g_killing g = true /\ g_hunt_freq g <= length (accepted h2) /\
  forall ha c' hb, h2 = ha ++ (c', EvHunt) :: hb -> g_hunt_freq g <= length (accepted ha).
Proof.
  intros Hs Hh Hn. destruct (session_always _ _ _ _ Hs) as (a & b & d & HJ & _). pose proof (j_now _ _ _ _ _ _ _ _ HJ) as Hf.
  rewrite Hh in Hf. apply snaps_now_split in Hf as [H2 H1]; [|discriminate|exact Hn].
  splits; [exact H2| lia|]. intros ha c' hb ->. pose proof (at_last_hunt_ge ha c' hb). rewrite accepted_app, app_length in H1. cbn in H1. lia.
Qed.
Print Assumptions C87_hunts_are_spaced.
Example C87_hunts_are_spaced_met : exists h1 c h2, st_hist s87b = h1 ++ (c, EvHunt) :: h2 /\ ~ In EvLoad (map snd h1) /\
  length (accepted h2) = 2 /\ In EvLoad (map snd h2).
Proof.
  exists (firstn 11 (st_hist s87b)), (fst (nth 11 (st_hist s87b) none)), (skipn 12 (st_hist s87b)). splits; try (vm_compute; reflexivity).
  - apply (absent is_load); vm_compute; reflexivity.
  - occurs.
Qed.

(** Loading a checkpoint written by any session fails for want of slots or of optimizers, for no other reason: all
    optimizers with a file are known. *)
Theorem C87_load_fails_only_as_documented P g w s k late builds conv g' : session P g w s -> written s k late ->
  match load g' k builds conv with
  | Ok c => dkeys (k_packs c) = filter builds (ck_found k) /\ (forall i h, nget i (k_packs c) = Some h -> c_alive h = false) /\
            sum_nat (map (fun p => c_slots (snd p)) (k_packs c)) <= g_max_jobs g'
  | Err e => e = CheckpointingError
  end.
Proof.
  intros Hs Hw. destruct (restarts_known _ _ _ _ _ _ Hs Hw) as [saved Hk].
  destruct (load g' k builds conv) as [c|e] eqn:E.
  - destruct (load_ok _ _ _ _ _ E) as (packs & -> & H1 & H2). cbn. rewrite keys_dormant, slots_dormant. splits; auto.
    intros i h. apply nget_dormant.
  - unfold load in E. rewrite Hk in E. pose proof (C39_rebuilt (g_max_jobs g') saved builds) as H.
    destruct (rebuild (g_max_jobs g') saved builds); [discriminate|]. injection E as <-. apply H.
Qed.
Print Assumptions C87_load_fails_only_as_documented.
Example C87_load_fails_only_as_documented_met :
  load (mkCfg 1 2 true false false true false true None false false) k87b (fun _ => true) false = Err CheckpointingError /\
  dkeys (k_packs c87b) = [2; 1].
Proof. vm_compute. auto. Qed.

(** The optimizers of a loaded manager: those with a file which can be built, none running, nothing in their pipes, allowed
    to run, with the slots they were started with in whichever session that was - or, if those do not fit, an equal
    share. *)
Theorem C87_restarted_as_started P g w s k late builds conv g' c saved i h : session P g w s -> written s k late ->
  load g' k builds conv = Ok c -> map fst saved = ck_found k ->
  (forall i n, In (i, n) saved -> exists c cls, In (c, EvStart i cls n) (ck_hist k)) -> nget i (k_packs c) = Some h ->
  (In i (ck_found k) /\ builds i = true) /\
  (c_alive h = false /\ c_code h = 0%Z /\ c_sigs h = [] /\ c_closed h = false /\ c_run h = true) /\
  (sum_nat (map snd saved) <= g_max_jobs g' -> In (i, c_slots h) saved) /\
  (g_max_jobs g' < sum_nat (map snd saved) -> c_slots h = g_max_jobs g' / length saved).
Proof.
  intros Hs Hw Hl Hf Hst Hg. destruct (loaded_children _ _ _ _ _ _ _ _ _ _ _ _ _ Hs Hw Hl Hf Hst Hg) as (n & -> & H1 & H2 & H3 & H4).
  cbn. splits; auto.
Qed.
Print Assumptions C87_restarted_as_started.
Lemma with_event (h : list (core * event)) j n : In (EvStart j "A" n) (map snd h) -> exists c cls, In (c, EvStart j cls n) h.
Proof. intro Hj. apply in_map_iff in Hj as [[c e] [He Hi]]. cbn in He. subst e. exists c, "A". exact Hi. Qed.
Example C87_restarted_met : let saved := [(2, 1); (1, 1)] in
  map fst saved = ck_found k87b /\ (forall i n, In (i, n) saved -> exists c cls, In (c, EvStart i cls n) (ck_hist k87b)) /\
  load g87 k87b (fun _ => true) false = Ok c87b /\ exists h, nget 1 (k_packs c87b) = Some h.
Proof.
  cbn zeta. split; [vm_compute; reflexivity|]. split; [|split; [vm_compute; reflexivity|]].
  - assert (K1 : exists c cls, In (c, EvStart 1 cls 1) (ck_hist k87b)) by (apply with_event; occurs).
    assert (K2 : exists c cls, In (c, EvStart 2 cls 1) (ck_hist k87b)) by (apply with_event; occurs).
    intros i n [H|[H|H]]; [injection H as <- <-; exact K2| injection H as <- <-; exact K1| destruct H].
  - exists (mkCh 1 false 0 [] false true). vm_compute. reflexivity.
Qed.

(** ** What does not *)
(** Evaluations which arrive while a checkpoint is made are in the manager and not in the log of the checkpoint.  After
    resuming, the next evaluation replaces the result by the best of the log: the best evaluation is forgotten, and the
    log no longer counts what the manager counts. *)
Definition w87d : world := wB 8 17 [MPush [ev 1 5 5]; MCheckpointFile] [MSig 1 SPaused; MPush [ev 1 2 2]; MHold 1].
Definition s87d : mstate := snd (run gB w87d 40 true).
Definition k87d : ckpt := ckpt_at s87d 2 4 [1].
Definition w87e : world := wB 6 1000 [MPush [ev 1 9 9]] [].
Definition s87e : mstate := resumed_to gB w87e 30 k87d.
Lemma session_e : any_session gB w87e s87e.
Proof.
  pose (c := match load gB k87d (fun _ => true) false with Ok c => c | Err _ => st_core (fresh true) end).
  change s87e with (snd (resume gB w87e 30 k87d c)).
  eapply (se_next _ gB w87d s87d k87d [mkIR 1 [Fin 2] (Fin 2) []] (fun _ => true) false c); [| |exact I|vm_compute; reflexivity].
  - apply se_first. exists 40, true. reflexivity.
  - by_writing 2 4 s87d.
Qed.
Theorem C87_late_results_are_lost_refuted : exists g w s c e, any_session g w s /\ In (c, e) (st_hist s) /\
  nlt (value (k_result c)) (value (k_result (st_core s))) = true /\ log_len (k_log (st_core s)) < k_f (st_core s).
Proof.
  exists gB, w87e, s87e, (fst (nth 6 (st_hist s87e) none)), (snd (nth 6 (st_hist s87e) none)). splits; [exact session_e|..].
  - rewrite <- surjective_pairing. apply nth_In. vm_compute. lia.
  - vm_compute. reflexivity.
  - apply Nat.ltb_lt. vm_compute. reflexivity.
Qed.
Print Assumptions C87_late_results_are_lost_refuted.

(** A killed optimizer which still answers the pause signal is checkpointed and started again by the next session, which
    drops everything it finds and never tells it to stop. *)
Theorem C87_the_dead_stay_dead_refuted : exists g w s h1 c0 h2 i h, in_step g w s /\ st_hist s = h1 ++ (c0, EvLoad) :: h2 /\
  In i (kills h2) /\ nget i (k_packs (st_core s)) = Some h /\ c_alive h = true /\
  8 <= length (filter is_judge (map snd h1)) /\ ~ In (EvSend i OStop) (map snd h1) /\
  In (MPush [ev i 9 9]) (w_moves w 6) /\ 6 < k_tick (st_core s) /\ accepted h1 = [].
Proof.
  exists gB, w87g, s87g, (firstn 17 (st_hist s87g)), (fst (nth 17 (st_hist s87g) none)), (skipn 18 (st_hist s87g)), 1, (mkCh 1 true 0 [] false true).
  splits; [exact session_g| vm_compute; reflexivity| occurs| vm_compute; reflexivity| reflexivity| | | left; reflexivity| | vm_compute; reflexivity].
  - apply Nat.leb_le. vm_compute. reflexivity.
  - apply (absent is_stop); vm_compute; reflexivity.
  - apply Nat.ltb_lt. vm_compute. reflexivity.
Qed.
Print Assumptions C87_the_dead_stay_dead_refuted.

(** The end of an optimizer which converged while the checkpoint was made is not in the log of the checkpoint; no later
    session writes it. *)
Definition w87h : world := wB 8 17 [MCheckpointFile] [MSig 1 (SDone "x"); MExit 1 0].
Definition s87h : mstate := snd (run gB w87h 30 true).
Definition k87h : ckpt := ckpt_at s87h 0 1 [].
Definition w87i : world := w87 8 1000 2 [MPush [ev 2 1 1; ev 2 2 2]; MPush [ev 2 3 3; ev 2 4 4]] [].
Definition s87i : mstate := resumed_to g87 w87i 100 k87h.
Definition c87h : core := match load g87 k87h (fun _ => true) false with Ok c => c | Err _ => st_core (fresh true) end.
Lemma session_i : in_step g87 w87i s87i.
Proof.
  change s87i with (snd (resume g87 w87i 100 k87h c87h)).
  eapply (se_next _ gB w87h s87h k87h [] (fun _ => true) false c87h); [| |reflexivity|vm_compute; reflexivity].
  - apply se_first. exists 30, true. reflexivity.
  - by_writing 0 1 s87h.
Qed.
Theorem C87_every_end_is_recorded_refuted : exists g w s limit k c r x i,
  in_step g w s /\ s = snd (resume g w limit k c) /\ fst (resume g w limit k c) = Ok (Some r, x) /\ undisturbed r /\
  In i (map fst (starts (st_hist s))) /\ l_traj (k_log (st_core s)) = true /\ forall v, ~ end_logged i v (k_log (st_core s)).
Proof.
  exists g87, w87i, s87i, 100, k87h, c87h, RChecker, (k_result (st_core s87i)), 1.
  splits; [exact session_i| vm_compute; reflexivity| vm_compute; reflexivity| left; reflexivity| occurs| vm_compute; reflexivity|].
  intros v [_ H]. assert (E : get_metadata 1 "end_cond" (k_log (st_core s87i)) = Err KeyError) by (vm_compute; reflexivity).
  rewrite E in H. clear E. discriminate H.
Qed.
Print Assumptions C87_every_end_is_recorded_refuted.

(** At every moment of every session the manager has counted the evaluations of all sessions. *)
Theorem C87_evaluations_counted P g w s : session P g w s -> k_f (st_core s) = length (accepted (st_hist s)) /\
  forall h1 c e h2, st_hist s = h1 ++ (c, e) :: h2 -> k_f c = length (accepted h2).
Proof.
  intro Hs. destruct (session_always _ _ _ _ Hs) as (a & b & d & HJ & _). split; [apply (j_f _ _ _ _ _ _ _ _ HJ)|].
  intros h1 c e h2 Hh. pose proof (j_facts _ _ _ _ _ _ _ _ HJ) as Hf. rewrite Hh in Hf. apply snaps_split in Hf. apply Hf.
Qed.
Print Assumptions C87_evaluations_counted.
(** An evaluation came in between the writing of the log and that of the manager: the manager has counted it, the log
    has not. *)
Example C87_evaluations_counted_met : any_session gB w87e s87e /\ k_f (st_core s87e) = 3 /\ log_len (k_log (st_core s87e)) = 2 /\ length (filter (fun p => match snd p with EvLoad => true | _ => false end) (st_hist s87e)) = 1.
Proof. split; [exact session_e|]. vm_compute. auto. Qed.

(** At every moment of every session the hunts of all sessions are counted, none twice. *)
Theorem C87_hunts_counted P g w s : session P g w s -> k_hunts (st_core s) = hunts (st_hist s) /\
  forall h1 c e h2, st_hist s = h1 ++ (c, e) :: h2 -> k_hunts c = hunts h2.
Proof.
  intro Hs. destruct (session_always _ _ _ _ Hs) as (a & b & d & HJ & _). pose proof (j_chain _ _ _ _ _ _ _ _ HJ) as H. clear HJ. split; [destruct (st_hist s) as [|[? ?] ?]; apply H|].
  intros h1 c e h2 Hh. rewrite Hh in H. apply chain_split in H as [_ H]. destruct h2 as [|[? ?] ?]; apply H.
Qed.
Print Assumptions C87_hunts_counted.
(** One hunt in the second session, one in the third. *)
Example C87_hunts_counted_met : in_step g87 w87c s87c /\ k_hunts (st_core s87c) = 2 /\ k_hunts (st_core s87b) = 1.
Proof. split; [exact session_c|]. vm_compute. auto. Qed.

(** No counter of the manager is ever set back, by resuming a run neither. *)
Theorem C87_counters_go_on P g w s : session P g w s ->
  (forall h1 c e h2, st_hist s = h1 ++ (c, e) :: h2 -> later c (st_core s)) /\
  (forall h1 c e h2 c' e' h3, st_hist s = h1 ++ (c, e) :: h2 ++ (c', e') :: h3 -> later c' c).
Proof.
  intro Hs. destruct (session_always _ _ _ _ Hs) as (a & b & d & HJ & _). pose proof (j_chain _ _ _ _ _ _ _ _ HJ) as H. clear HJ. split.
  - intros h1 c e h2 Hh. rewrite Hh in H. apply chain_split in H as [H _]. exact H.
  - intros h1 c e h2 c' e' h3 Hh. rewrite Hh in H. apply chain_split in H as [_ H]. apply chain_split in H as [H _]. exact H.
Qed.
Print Assumptions C87_counters_go_on.
(** Evaluations, optimizers, hunts and victims after the first, second and third session. *)
Example C87_counters_go_on_met : in_step g87 w87c s87c /\
  map (fun s => (k_f (st_core s), k_o (st_core s), k_hunts (st_core s), k_victims (st_core s))) [s87a; s87b; s87c] =
  [(1, 1, 0, []); (3, 2, 1, []); (4, 2, 2, [1])].
Proof. split; [exact session_c|]. vm_compute. reflexivity. Qed.

(** Checkpoints that are due by number of evaluations are spaced over the sessions too: from the last one of an earlier
    session, whichever checkpoint it is resumed from, to the next one more than that many evaluations were registered. *)
Theorem C87_checkpoints_spaced n s a b : counted n s -> next_to (saves (st_hist s)) a b -> k_f b + n < k_f a.
Proof. intro H. apply (sp_next n), spaced_session. exact H. Qed.
Print Assumptions C87_checkpoints_spaced.

Definition s87m : mstate := snd (run (gD true false) wD0 120 true).
Definition k87m : ckpt := ckpt_at s87m 3 5 [1].
Definition c87m : core := match load (gD true false) k87m (fun _ => true) false with Ok c => c | Err _ => st_core (fresh true) end.
Definition s87n : mstate := snd (resume (gD true false) wD0 120 k87m c87m).
(** Two checkpoints in the first session, the others in the second. *)
Example C87_checkpoints_spaced_met : counted 3 s87n /\ map k_f (saves (st_hist s87m)) = [8; 4] /\ map k_f (saves (st_hist s87n)) = [20; 16; 12; 8; 4].
Proof.
  assert (Hb : by_count (gD true false) wD0 3) by (repeat split; exact wD0_files). split; [|vm_compute; auto].
  eapply (ct_next 3 s87m k87m (accepted (firstn 5 (skipn 4 (st_hist s87m)))) (fun _ => true) false c87m); [| |vm_compute; reflexivity|exact Hb].
  - eapply ct_first; [exact Hb|]. exists 120, true. reflexivity.
  - by_writing 3 5 s87m.
Qed.

(** A resumed run which is told to stop ends normally too, under the conditions of C15. *)
Theorem C87_told_to_stop_ends_normally g w s k late builds conv c g' w' limit r x :
  in_step g w s -> written s k late -> late = [] -> load g' k builds conv = Ok c ->
  fst (resume g' w' limit k c) = Ok (Some r, x) -> g_chk g' = false -> l_traj (ck_log k) = true ->
  (exists h1 c1 a d h2, st_hist (snd (resume g' w' limit k c)) = h1 ++ (c1, EvJudge a d) :: h2 /\ verdict c1 a d = true /\
     ~ In EvLoad (map snd h1)) ->
  match r with RCrash _ => False | _ => True end.
Proof.
  intros Hs Hw Hl Hc He Hg Ht (h1 & c1 & a & d & h2 & Hh & Hv & Hn). destruct r as [| | | |e]; auto.
  destruct (resumed_outcome _ _ _ _ _ _ _ _ _ _ _ Hs Hw Hl Hc _ He) as [_ H2]. cbn in H2. subst late.
  assert (Hs' : in_step g' w' (snd (resume g' w' limit k c))) by (eapply se_next; eauto; reflexivity).
  assert (Htr : trj (snd (resume g' w' limit k c))).
  { destruct (session_inv _ _ _ Hs) as [_ HG]. destruct (loaded_inv g' w' s k c builds conv HG Hw Hc) as (I1 & _ & I3).
    destruct (start_manager_step g' w' limit _ _ I1 I3) as [St _]. eapply (Manager_Safe.trj_star g' w'); [exact St|].
    destruct (load_ok _ _ _ _ _ Hc) as (packs & -> & _). exact Ht. }
  apply (H2 Hg Htr). clear H2 Htr He. set (z := snd (resume g' w' limit k c)) in *.
  assert (HS : forall hb ha, st_hist z = ha ++ hb ++ (c1, EvJudge a d) :: h2 -> ~ In EvLoad (map snd hb) ->
                last_judgement (hb ++ (c1, EvJudge a d) :: h2) = Some true).
  { clear Hh Hn h1. induction hb as [|[c0 e0] hb IH]; intros ha Hb Hn; [cbn; rewrite Hv; reflexivity|].
    assert (Hj : last_judgement (hb ++ (c1, EvJudge a d) :: h2) = Some true).
    { apply (IH (ha ++ [(c0, e0)])). - rewrite Hb, <- app_assoc. reflexivity. - intro Hi. apply Hn. right. exact Hi. }
    assert (He0 : e0 <> EvLoad) by (intros ->; apply Hn; left; reflexivity).
    destruct (session_snap _ _ _ ha c0 e0 _ Hs' Hb He0) as (g0 & w0 & _ & (_ & _ & _ & _ & H)). cbn. destruct e0; try exact Hj; [destruct H as [H _]; contradiction|].
    contradiction. }
  rewrite Hh. apply (HS h1 []); assumption.
Qed.
Print Assumptions C87_told_to_stop_ends_normally.
(** Without checkpoints in the resumed session. *)
Definition g87q : config := mkCfg 2 2 true false false true false false None false false.
Definition s87q : mstate := snd (resume g87q w87c 70 k87b c87b).
Example C87_told_to_stop_met : load g87q k87b (fun _ => true) false = Ok c87b /\ g_chk g87q = false /\ l_traj (ck_log k87b) = true /\
  (exists x, fst (resume g87q w87c 70 k87b c87b) = Ok (Some RChecker, x)) /\
  exists h1 c1 h2, st_hist s87q = h1 ++ (c1, EvJudge true false) :: h2 /\ verdict c1 true false = true /\ ~ In EvLoad (map snd h1).
Proof.
  splits; try (vm_compute; reflexivity).
  - eexists. vm_compute. reflexivity.
  - exists (firstn 3 (st_hist s87q)), (fst (nth 3 (st_hist s87q) none)), (skipn 4 (st_hist s87q)).
    splits; try (vm_compute; reflexivity). apply (absent is_load); vm_compute; reflexivity.
Qed.

Lemma written_tidy P g w s k late : session P g w s -> written s k late -> Manager_Safe.tidy (ck_log k).
Proof.
  intros Hs (h1 & ha & cl & hb & E1 & E2 & _ & -> & _). destruct (session_always _ _ _ _ Hs) as (a & b & d & HJ & _).
  pose proof (j_facts _ _ _ _ _ _ _ _ HJ) as Hf. rewrite E1, E2 in Hf.
  apply (snaps_split _ (h1 ++ (ck_core k, EvSaveManager) :: ha) cl EvSaveLog hb) in Hf || (rewrite app_comm_cons, app_assoc in Hf; apply snaps_split in Hf).
  destruct Hf as (_ & _ & HL & _). intros i e He. destruct (lg_store _ _ _ _ HL _ _ He) as (_ & (ty & H1 & _) & H2). split; [eauto|].
  destruct H2 as [[H2 _]|(rs & ids & rest & _ & H2)]; [left; exact H2|right; exists rs, ids, rest; exact H2].
Qed.

(** A resumed run with retained histories ends as a crash by the same exceptions as a fresh one (C18), whatever the
    restarted optimizers do; without checkpoints in this session by two of them. *)
Theorem C87_crash_causes g w s k late builds conv c g' w' limit e x :
  in_step g w s -> written s k late -> late = [] -> load g' k builds conv = Ok c -> l_traj (ck_log k) = true ->
  orderly w' -> fst (resume g' w' limit k c) = Ok (Some (RCrash e), x) ->
  In e [RuntimeError; OSError; EOFError; AssertionError; CheckpointingError] /\
  (no_checkpoints g' w' -> e = RuntimeError \/ e = OSError) /\ (no_checkpoints g' w' -> wordless g' w' -> e = RuntimeError).
Proof.
  intros Hs Hw -> Hc Ht Ho He. destruct (session_inv _ _ _ Hs) as [_ HG]. destruct (loaded_inv g' w' s k c builds conv HG Hw Hc) as (I1 & _ & I3).
  assert (Htr : Manager_Safe.kept (begin k c)).
  { pose proof (written_tidy _ _ _ _ _ _ Hs Hw). destruct (load_ok _ _ _ _ _ Hc) as (packs & -> & _). split; assumption. }
  assert (K : forall ok, (wordless g' w' \/ ok OSError) -> (no_checkpoints g' w' \/
                ok OSError /\ ok EOFError /\ ok AssertionError /\ (g_raise_fail g' = true -> ok CheckpointingError)) -> e = RuntimeError \/ ok e).
  { intros ok K1 K2. exact (Manager_Safe.crash_reason_from g' w' limit ok Ho K1 K2 _ _ e x I1 Htr I3 He). }
  splits.
  - destruct (K (fun e => In e [OSError; EOFError; AssertionError; CheckpointingError])) as [H|H].
    + right. cbn. auto.
    + right. cbn. splits; auto.
    + subst e. left. reflexivity.
    + right. exact H.
  - intro Hn. apply (K (fun e => e = OSError)); auto.
  - intros Hn Hl. destruct (K (fun _ => False)) as [H|[]]; auto.
Qed.
Print Assumptions C87_crash_causes.
(** The restarted optimizer goes at the wrong moment of a checkpoint requested in the second session. *)
Definition wX (t : nat) : world := wC (at_ [(3, [MCheckpointFile]); (t, [MExit 1 0%Z])]) true.
Example C87_crash_causes_met : orderly (wX 13) /\ l_traj (ck_log k87a) = true /\
  crash (resume g87 (wX 13) 200 k87a c87a) = Some OSError /\ crash (resume g87 (wX 16) 200 k87a c87a) = Some EOFError /\
  crash (resume g87 (wX 5) 200 k87a c87a) = Some RuntimeError.
Proof. split; [apply wC_orderly|]. vm_compute. repeat split; reflexivity. Qed.

(** The guard of C70 begins anew with a resumed session: no traceback is known and none was started before, while both
    counters go on. *)
Notation slots_given := Guard_Props.slots_given.
Notation chained := GuardRun_Proofs.chained.
Notation iters := GuardRun_Proofs.iters.
Definition anew (k : ckpt) : Guard_Model.guard := Guard_Model.mkG (k_f (ck_core k)) (k_o (ck_core k)) (0, 0) false.
Lemma session_chained k builds conv c g w limit h : load g k builds conv = Ok c -> slots_given w ->
  st_hist (snd (resume g w limit k c)) = h ++ st_hist (begin k c) -> chained g (anew k) (iters h).
Proof.
  intros Hc Hw E.
  assert (G : GuardRun_Proofs.gof (st_core (begin k c)) = anew k) by (destruct (load_ok _ _ _ _ _ Hc) as (packs & -> & _); reflexivity).
  destruct (GuardRun_Proofs.session_onto g w limit Hw (anew k) (iters (st_hist (begin k c))) (begin k c) eq_refl G) as (l & E' & H).
  unfold resume in E. rewrite E, GuardRun_Proofs.iters_app in E'. apply app_inv_tail in E'. now rewrite E'.
Qed.
Theorem C87_guard_begins_anew k builds conv c g w limit h1 c1 h2 : load g k builds conv = Ok c -> slots_given w ->
  st_hist (snd (resume g w limit k c)) = h1 ++ (c1, EvIter) :: h2 ++ st_hist (begin k c) ->
  exists l, Guard_Model.gsteps l (Guard_Model.mkG (k_f (ck_core k)) (k_o (ck_core k)) (0, 0) false) =
    inl (Guard_Model.mkG (k_f c1) (k_o c1) (k_last_spawn c1) (k_crashed c1)).
Proof.
  intros Hc Hw E. rewrite app_comm_cons, app_assoc in E. pose proof (session_chained _ _ _ _ _ _ _ _ Hc Hw E) as H.
  rewrite GuardRun_Proofs.iters_app in H. apply GuardRun_Proofs.chained_tail in H. exact (GuardRun_Proofs.chained_start _ _ _ _ H).
Qed.
Print Assumptions C87_guard_begins_anew.

(** Where it fires more than five were set up since an earlier iteration of this session with as many evaluations, or since
    the very start of a run still without evaluations. *)
Theorem C87_guard_alarm k builds conv c g w limit h1 c1 h2 : load g k builds conv = Ok c -> slots_given w ->
  st_hist (snd (resume g w limit k c)) = h1 ++ (c1, EvIter) :: h2 ++ st_hist (begin k c) ->
  fst (k_last_spawn c1) = k_f c1 -> snd (k_last_spawn c1) + 5 < k_o c1 ->
  (exists c0, In (c0, EvIter) h2 /\ k_f c0 = k_f c1 /\ k_o c0 + 5 < k_o c1) \/ (k_f c1 = 0 /\ 5 < k_o c1).
Proof.
  intros Hc Hw E L1 L2. rewrite app_comm_cons, app_assoc in E. pose proof (session_chained _ _ _ _ _ _ _ _ Hc Hw E) as H.
  rewrite GuardRun_Proofs.iters_app in H. apply GuardRun_Proofs.chained_tail in H.
  change (iters ((c1, EvIter) :: h2)) with (c1 :: iters h2) in H.
  destruct (GuardRun_Proofs.chained_last _ _ _ _ H) as [Z|(c0 & [->|I] & I2 & I3)].
  - right. rewrite Z in L1, L2. cbn in L1, L2. lia.
  - lia.
  - left. exists c0. splits.
    + unfold iters in I. apply in_map_iff in I as ([c' e] & <- & I). apply filter_In in I as [I I']. cbn in I' |- *.
      destruct e; try discriminate. exact I.
    + apply in_split in I as (a & b & I). rewrite I in H.
      destruct (GuardRun_Proofs.chained_between g _ a c1 c0 b H) as (t & _ & _ & _ & T4 & _). lia.
    + lia.
Qed.
Print Assumptions C87_guard_alarm.

(** Within a session, with a traceback of this session known and no evaluation, at most 5 + 2 max_jobs are set up. *)
Theorem C87_guard_bound k builds conv c g w limit h1 c2 h2 c1 h3 : load g k builds conv = Ok c -> slots_given w ->
  st_hist (snd (resume g w limit k c)) = h1 ++ (c2, EvIter) :: h2 ++ (c1, EvIter) :: h3 ++ st_hist (begin k c) ->
  k_crashed c1 = true -> k_f c2 = k_f c1 -> k_o c2 <= k_o c1 + 5 + 2 * g_max_jobs g.
Proof.
  intros Hc Hw E C F.
  assert (E' : st_hist (snd (resume g w limit k c)) = (h1 ++ (c2, EvIter) :: h2 ++ (c1, EvIter) :: h3) ++ st_hist (begin k c)).
  { rewrite E, <- app_assoc. cbn [app]. now rewrite <- app_assoc. }
  pose proof (session_chained _ _ _ _ _ _ _ _ Hc Hw E') as H.
  rewrite GuardRun_Proofs.iters_app in H. apply GuardRun_Proofs.chained_tail in H.
  change (iters ((c2, EvIter) :: h2 ++ (c1, EvIter) :: h3)) with (c2 :: iters (h2 ++ (c1, EvIter) :: h3)) in H.
  rewrite GuardRun_Proofs.iters_app in H. change (iters ((c1, EvIter) :: h3)) with (c1 :: iters h3) in H.
  destruct (GuardRun_Proofs.chained_between g _ (iters h2) c2 c1 (iters h3) H) as (t & T1 & T2 & T3 & T4 & T5 & T6).
  assert (H1 : chained g (anew k) (c1 :: iters h3)) by exact (GuardRun_Proofs.chained_tail g _ (c2 :: iters h2) _ H).
  assert (L : snd (k_last_spawn c1) <= k_o c1).
  { destruct (GuardRun_Proofs.chained_last _ _ _ _ H1) as [Z|(c0 & [->|I] & I2 & _)].
    - rewrite Z. cbn. lia.
    - lia.
    - apply in_split in I as (a & b & I). rewrite I in H1.
      destruct (GuardRun_Proofs.chained_between g _ a c1 c0 b H1) as (t' & _ & _ & _ & _ & T7 & _). lia. }
  pose proof (Guard_Proofs.quiet_any (g_max_jobs g) t _ _ T1 C) as B. rewrite T2, T3 in B. specialize (B ltac:(lia) T6 L). lia.
Qed.
Print Assumptions C87_guard_bound.
(** The restarted optimizer had reported a traceback in the first session; in the second all crash again. *)
Definition w87y : world := mkW
  (fun t => if t =? 6 then [MSig 1 (SError "Traceback (most recent call last)")] else
            if t =? 20 then [MPush [ev 1 5 5]; MCheckpointFile] else if t =? 29 then [MSig 1 SPaused; MHold 1] else [])
  (fun _ => false) (fun _ => None)
  (fun t c n => Ok (if (k_o c <? 1) && (1 <=? n) then SOpt (cfA 1) else SNone))
  (fun t c => Ok (1 <=? k_f c)) (fun _ _ _ v => Ok true) (fun _ _ => Ok []) (fun _ _ => false)
  (fun _ => false) (fun _ => false) (fun _ _ => true).
Definition s87y : mstate := snd (run gB w87y 60 true).
Definition k87y : ckpt := ckpt_at s87y 3 3 [1].
Definition c87y : core := match load g87 k87y (fun _ => true) false with Ok c => c | Err _ => st_core (fresh true) end.
Example written_y : written s87y k87y [].
Proof. by_writing 3 3 s87y. Qed.
Example C87_guard_met : load g87 k87y (fun _ => true) false = Ok c87y /\ slots_given Guard_Props.wD /\ k_crashed (ck_core k87y) = true /\
  (let z := resume g87 Guard_Props.wD 600 k87y c87y in
   (exists h, st_hist (snd z) = h ++ st_hist (begin k87y c87y) /\
     map (fun c => (k_crashed c, k_last_spawn c, k_f c, k_o c)) (iters h) =
     [(true, (2, 4), 2, 10); (true, (2, 4), 2, 8); (true, (2, 4), 2, 6); (true, (2, 4), 2, 4);
      (false, (1, 2), 2, 2); (false, (1, 2), 2, 2); (false, (0, 0), 1, 1)]) /\
   exists x, fst z = Ok (Some (RCrash RuntimeError), x)).
Proof.
  split; [vm_compute; reflexivity|]. split; [exact (proj1 Guard_Props.C70_run_met)|]. split; [vm_compute; reflexivity|].
  cbv zeta. split.
  - set (z := snd (resume g87 Guard_Props.wD 600 k87y c87y)).
    exists (firstn (length (st_hist z) - length (st_hist (begin k87y c87y))) (st_hist z)). split; vm_compute; reflexivity.
  - eexists. vm_compute. reflexivity.
Qed.
