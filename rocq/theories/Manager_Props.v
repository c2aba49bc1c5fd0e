(** * The manager: what holds in every run *)
From Verif Require Import Prelude Prelude_Proofs Logger_Model Logger_Spec Logger_Proofs Checkers_Model Manager_Model Manager_Spec
     Manager_Proofs Manager_Trace.

(** ** A run used in the examples: three optimizers on three slots, two hunts with a victim, one STOP file, a limit of
    ten evaluations. *)
Definition ev (i : nat) (x v : Q) : qitem := QRes (mkIR i [Fin x] (Fin v) []).
Definition cfA (n : nat) := mkConf "A" n [] [].
Definition gA : config := mkCfg 3 2 true true false true false false None false false.
Definition wA : world := mkW
  (fun t => match t with
     | 12 => [MPush [ev 1 5 9; ev 2 3 7]]
     | 20 => [MPush [ev 1 4 6; ev 2 2 8]; MPush [ev 2 1 3]]
     | 45 => [MPush [ev 1 4 1]; MExit 1 0%Z]
     | 60 => [MPush [ev 2 4 2; ev 3 4 1]; MPush [ev 3 3 5; ev 3 3 (1#2)]]
     | 90 => [MSig 2 (SDone "ok"); MPush [QEnd 2]; MExit 2 0%Z]
     | 120 => [MPush [ev 3 4 2]]
     | 140 => [MPush [ev 3 4 2]; MFile "STOP_3"]
     | 180 => [MExit 3 0%Z]
     | _ => [] end)
  (fun _ => false) (fun _ => None)
  (fun t c n => Ok (if k_o c <? 3 then (if n =? 0 then SNone else SOpt (cfA (Nat.min 2 n))) else SFalse))
  (fun t c => Ok (10 <=? k_f c)) (fun _ _ _ v => Ok (Nat.eqb v 1)) (fun _ _ => Ok []) (fun _ _ => false)
  (fun _ => false) (fun _ => false) (fun _ _ => true).
Definition sA : mstate := snd (run gA wA 400 true).
Definition brief (s : mstate) := rev (map snd (st_hist s)).

Example run_A : fst (run gA wA 400 true) =
  Ok (Some RChecker, mkR (Some [Fin 3]) (Some (Fin (1#2))) (Some (10, 3, 1, 1)) (Some (3, "A"))).
Proof. vm_compute. reflexivity. Qed.
Example met_A : met gA wA sA.
Proof. exists 400, true. reflexivity. Qed.
Example hist_A : length (accepted (st_hist sA)) = 10 /\ kills (st_hist sA) = [1; 3] /\ map fst (starts (st_hist sA)) = [1; 2; 3] /\
  length (filter (fun e => match e with EvHunt => true | _ => false end) (brief sA)) = 5.
Proof. vm_compute. repeat split; reflexivity. Qed.

Lemma app_same_len {A} (a b c d : list A) : length a = length b -> a ++ c = b ++ d -> a = b.
Proof.
  revert b. induction a as [|x a IH]; intros [|y b] Hl He; try discriminate; [reflexivity|].
  cbn in He. injection He as -> He. injection Hl as Hl. rewrite (IH b Hl He). reflexivity.
Qed.

Lemma met_inv g w s : met g w s -> MInv g w s.
Proof. intros [limit [traj ->]]. apply run_outcome. Qed.

Lemma met_session g w s : met g w s -> ~ In EvLoad (map snd (st_hist s)).
Proof. intros [limit [traj ->]]. apply run_session. Qed.

Lemma met_snap g w s h1 c e h2 : met g w s -> st_hist s = h1 ++ (c, e) :: h2 -> snap_ok g w c e h2.
Proof.
  intros Hm Hh. pose proof (m_snap _ _ _ (met_inv _ _ _ Hm)) as H. pose proof (met_session _ _ _ Hm) as Hs. rewrite Hh in H, Hs.
  rewrite map_app, in_app_iff in Hs. cbn in Hs.
  apply (snaps_now_split (snap_ok g w) h1 c e h2); [intro He; apply Hs; right; left; exact He| intro Hi; apply Hs; left; exact Hi| exact H].
Qed.

(** ** C07 *)
(** Whenever the manager decides anything, its result is the best of all evaluations accepted before. *)
Theorem C07_result_is_best_at_decisions g w s h1 c e h2 : met g w s -> st_hist s = h1 ++ (c, e) :: h2 -> decision e = true ->
  result_best (setups h2) (accepted h2) (k_result c).
Proof. intros Hm Hh Hd. destruct (met_snap _ _ _ _ _ _ _ Hm Hh) as (_ & _ & _ & H & _). apply H, Hd. Qed.
Print Assumptions C07_result_is_best_at_decisions.

(** At any other moment it is so too, or lacks exactly the evaluation being processed. *)
Theorem C07_result_is_best_but_current g w s : met g w s ->
  exists acc, (accepted (st_hist s) = acc \/ exists r, accepted (st_hist s) = acc ++ [r]) /\
              weak_best (setups (st_hist s)) acc (k_result (st_core s)).
Proof.
  intro Hm. destruct (m_res _ _ _ (met_inv _ _ _ Hm)) as [acc [H1 H2]]. exists acc. split; [|exact H2].
  destruct H1 as [->|[r H1]]; [left; reflexivity| right; exists r; symmetry; exact H1].
Qed.
Print Assumptions C07_result_is_best_but_current.

(** Its value never increases. *)
Theorem C07_result_never_worse g w s h1 c e h2 c' e' : met g w s -> st_hist s = h1 ++ (c, e) :: h2 ->
  nle (value (k_result (st_core s))) (value (k_result c)) = true /\
  (In (c', e') h2 -> nle (value (k_result c)) (value (k_result c')) = true).
Proof.
  intros Hm Hh. destruct (m_mono _ _ _ (met_inv _ _ _ Hm)) as [H1 H2]. rewrite Hh in H1, H2. split.
  - apply (H1 c e). apply in_app_iff. right. left. reflexivity.
  - intro Hi. exact (snaps_split _ _ _ _ _ H2 _ _ Hi).
Qed.
Print Assumptions C07_result_never_worse.

(** f_evals counts the accepted evaluations and so does the log. *)
Theorem C07_counters_agree g w s : met g w s ->
  k_f (st_core s) = length (accepted (st_hist s)) /\ log_len (k_log (st_core s)) = k_f (st_core s).
Proof.
  intro Hm. pose proof (m_log _ _ _ (met_inv _ _ _ Hm)) as H. split; [apply H|].
  unfold log_len. rewrite (I_count _ _ _ (lv_log _ H)), (lv_f _ H). reflexivity.
Qed.
Print Assumptions C07_counters_agree.

(** A run which ends of its own accord returns the best of all evaluations accepted in it. *)
Theorem C07_returned_result_is_best g w limit traj r x : fst (run g w limit traj) = Ok (Some r, x) ->
  r = RChecker \/ r = RDead \/ r = RNone ->
  let h := st_hist (snd (run g w limit traj)) in weak_best (setups h) (accepted h) x.
Proof.
  intros He Hr. destruct (run_outcome g w limit traj) as [_ Ho]. destruct (Ho _ He) as [H1 H2]. cbn in H1, H2 |- *.
  rewrite H1. destruct Hr as [-> | [-> | ->]]; apply H2.
Qed.
Print Assumptions C07_returned_result_is_best.

Example result_A : decision EvHunt = true /\ accepted (st_hist sA) <> [] /\
  r_fx (k_result (st_core sA)) = Some (Fin (1#2)) /\ In (Fin 9) (map ir_fx (accepted (st_hist sA))).
Proof. vm_compute. repeat split; try discriminate. left. reflexivity. Qed.

(** ** C08 *)
Theorem C08_slots_within_jobs g w s h1 c e h2 : obeys w -> met g w s ->
  living_slots (st_core s) <= g_max_jobs g /\
  (st_hist s = h1 ++ (c, e) :: h2 -> forall i cls n, e = EvStart i cls n -> living_slots c + n <= g_max_jobs g).
Proof.
  intros Ho Hm. split; [apply (ax_slots _ _ _ (m_aux _ _ _ (met_inv _ _ _ Hm)) Ho)|].
  intros Hh i cls n ->. destruct (met_snap _ _ _ _ _ _ _ Hm Hh) as (_ & _ & _ & _ & _ & _ & H). exact (H Ho).
Qed.
Print Assumptions C08_slots_within_jobs.
Example slots_A : obeys wA /\ living_slots (st_core (snd (run gA wA 15 true))) = 3.
Proof.
  split; [|vm_compute; reflexivity]. intros t c n cf H. unfold wA in H. cbn [w_sel] in H. destruct (k_o c <? 3); [|discriminate].
  destruct (n =? 0); [discriminate|]. injection H as <-. cbn [cf_workers cfA]. apply (Nat.le_min_r 2 n).
Qed.

(** ** C09 *)
(** Ids are handed out as 1, 2, 3, ... *)
Theorem C09_ids_are_consecutive g w s : met g w s ->
  map fst (starts (st_hist s)) = seq 1 (length (starts (st_hist s))) /\
  map fst (setups (st_hist s)) = seq 1 (length (setups (st_hist s))) /\
  length (starts (st_hist s)) <= k_o (st_core s) <= S (length (starts (st_hist s))).
Proof.
  intro Hm. pose proof (m_id _ _ _ (met_inv _ _ _ Hm)) as [_ _ _ _ _ _ _ _ _ _ _ Hs [l Hl] Hn].
  assert (Hlen : length (starts (st_hist s)) <= length (setups (st_hist s))) by (rewrite Hl, app_length; lia).
  splits; [|exact Hs| lia|lia].
  rewrite Hl in Hs. rewrite map_app, app_length, seq_app in Hs. apply app_same_len in Hs; [exact Hs|].
  rewrite map_length, seq_length. reflexivity.
Qed.
Print Assumptions C09_ids_are_consecutive.

(** Nothing else is ever named. *)
Theorem C09_ids_are_known g w s : met g w s ->
  (forall i, In i (dkeys (k_packs (st_core s))) \/ In i (k_grave (st_core s)) \/ In i (k_victims (st_core s)) \/
             In i (dkeys (l_store (k_log (st_core s)))) \/ In i (map ir_opt (accepted (st_hist s))) -> 1 <= i <= k_o (st_core s)) /\
  NoDup (dkeys (k_packs (st_core s))).
Proof.
  intro Hm. pose proof (met_inv _ _ _ Hm) as HI. pose proof (m_id _ _ _ HI) as [Hnd Hp _ Hg Hv _ Hvg _ _ _ _ _ _ _].
  split; [|exact Hnd]. intros i [H|[H|[H|[H|H]]]].
  - exact (Hp i H).
  - exact (Hg i H).
  - rewrite Hv in H. exact (Hg i (Hvg i H)).
  - exact (lv_store _ (m_log _ _ _ HI) i H).
  - pose proof (I_src _ _ _ (lv_log _ (m_log _ _ _ HI))) as Ha. pose proof (id_len _ _ _ (m_id _ _ _ HI)) as Hl.
    apply in_map_iff in H as [r [<- Hr]]. specialize (Ha r Hr). apply (in_setups _ _ _ _ (m_id _ _ _ HI)) in Ha. lia.
Qed.
Print Assumptions C09_ids_are_known.
Example ids_A : map fst (starts (st_hist sA)) = [1; 2; 3] /\ dkeys (k_packs (st_core sA)) = [3] /\ k_grave (st_core sA) = [1; 2; 3].
Proof. vm_compute. repeat split; reflexivity. Qed.

(** ** C10 *)
(** Whoever is killed is registered, unfinished and not yet killed; if it is a hunt, the victim has evaluations and the
    hunter, another optimizer, holds the best result. *)
Theorem C10_victims_are_fair g w s h1 c hn i h2 : met g w s -> st_hist s = h1 ++ (c, EvKill hn i) :: h2 ->
  In i (dkeys (k_packs c)) /\ ~ In i (k_grave c) /\ ~ In i (kills h2) /\
  forall b, hn = Some b -> has_iter_history i (k_log c) = true /\ i <> b /\
            exists x fx ty call, first_best (accepted h2) (fun _ => true) b x fx call /\ r_origin (k_result c) = Some (b, ty).
Proof.
  intros Hm Hh. destruct (met_snap _ _ _ _ _ _ _ Hm Hh) as (_ & _ & _ & Hd & H1 & H2 & H3 & H4). splits; auto.
  intros b ->. destruct (H4 b eq_refl) as [P1 [P2 [ty Hty]]]. splits; auto.
  destruct (Hd eq_refl) as [Hb _]. unfold result_best in Hb. destruct (accepted h2) as [|a acc].
  - rewrite Hb in Hty. discriminate.
  - destruct Hb as (o & x & fx & ty' & call & rest & B1 & _ & _ & _ & _ & B2 & _). rewrite B2 in Hty. injection Hty as -> ->.
    exists x, fx, ty, call. auto.
Qed.
Print Assumptions C10_victims_are_fair.

Theorem C10_killed_once g w s : met g w s -> NoDup (kills (st_hist s)) /\ k_victims (st_core s) = kills (st_hist s) /\
  forall i, In i (kills (st_hist s)) -> In i (k_grave (st_core s)).
Proof. intro Hm. pose proof (m_id _ _ _ (met_inv _ _ _ Hm)) as []. auto. Qed.
Print Assumptions C10_killed_once.
Ltac occurs := vm_compute; repeat first [left; reflexivity| right].
Example kills_A : In (EvKill (Some 2) 1) (map snd (st_hist sA)) /\ In (EvKill None 3) (map snd (st_hist sA)).
Proof. split; occurs. Qed.

(** ** C11 *)
(** After a kill no evaluation of the victim is accepted ... *)
Theorem C11_nothing_from_the_dead g w s h1 c hn i h2 : met g w s -> st_hist s = h1 ++ (c, EvKill hn i) :: h2 ->
  forall c' r, In (c', EvAccept r) h1 -> ir_opt r <> i.
Proof.
  intros Hm Hh c' r Hi He. apply in_split in Hi as [ha [hb ->]].
  assert (Hh' : st_hist s = ha ++ (c', EvAccept r) :: hb ++ (c, EvKill hn i) :: h2) by (rewrite Hh, <- app_assoc; reflexivity).
  destruct (met_snap _ _ _ _ _ _ _ Hm Hh') as (_ & _ & _ & _ & Hk & _). apply Hk. rewrite He. clear.
  induction hb as [|[c0 e] hb IH]; cbn; [apply in_app_iff; right; left; reflexivity|].
  destruct e; auto. apply in_app_iff. left. exact IH.
Qed.
Print Assumptions C11_nothing_from_the_dead.

(** ... and one which is taken from the queue changes nothing at all. *)
Theorem C11_dead_letters_are_dropped g w limit s r : In (ir_opt r) (k_victims (st_core s)) ->
  process_item g w limit (QRes r) s = (Ok (0, [], []), s).
Proof. intro H. apply nmem_in in H. unfold process_item, bind, getc, gets. cbn. rewrite H. reflexivity. Qed.
Print Assumptions C11_dead_letters_are_dropped.
Example dead_letter_A : In 1 (kills (st_hist sA)) /\ In (MPush [ev 1 4 1]) (map (fun t => hd MCheckpointFile (w_moves wA t)) [45]) /\
  ~ In (mkIR 1 [Fin 4] (Fin 1) []) (accepted (st_hist sA)).
Proof. vm_compute. splits; [auto|auto|]. intros H. repeat destruct H as [H|H]; try discriminate H; try contradiction. Qed.

(** ** C12 *)
Lemma at_last_hunt_ge h1 c h2 : length (accepted h2) <= at_last_hunt (h1 ++ (c, EvHunt) :: h2).
Proof.
  induction h1 as [|[c0 e] h1 IH]; cbn; [lia|]. destruct e; auto. clear.
  induction h1 as [|[c0 e] h1 IH]; cbn; [lia|]. destruct e; auto. rewrite app_length. lia.
Qed.
Lemma accepted_app h1 h2 : accepted (h1 ++ h2) = accepted h2 ++ accepted h1.
Proof.
  induction h1 as [|[c e] h1 IH]; cbn; [rewrite app_nil_r; reflexivity|]. destruct e; auto. rewrite IH, app_assoc. reflexivity.
Qed.

Theorem C12_hunts_are_spaced g w s h1 c h2 : met g w s -> st_hist s = h1 ++ (c, EvHunt) :: h2 ->
  g_killing g = true /\ g_hunt_freq g <= length (accepted h2) /\
  forall ha c' hb, h2 = ha ++ (c', EvHunt) :: hb -> g_hunt_freq g <= length (accepted ha).
Proof.
  intros Hm Hh. destruct (met_snap _ _ _ _ _ _ _ Hm Hh) as (_ & _ & _ & _ & H1 & H2 & _). splits; [exact H2| lia|].
  intros ha c' hb ->. pose proof (at_last_hunt_ge ha c' hb). rewrite accepted_app, app_length in H1. cbn in H1. lia.
Qed.
Print Assumptions C12_hunts_are_spaced.
Example hunts_A : In EvHunt (map snd (st_hist sA)) /\ g_hunt_freq gA = 2.
Proof. split; [occurs| reflexivity]. Qed.

(** ** C13 *)
(** Without checkpoints the two counters never exceed the number of optimizers. *)
Theorem C13_ends_once_partial g w s : no_checkpoints g w -> met g w s ->
  k_conv (st_core s) + length (k_victims (st_core s)) <= k_o (st_core s).
Proof.
  intros Hn Hm. pose proof (met_inv _ _ _ Hm) as HI. pose proof (ax_conv _ _ _ (m_aux _ _ _ HI) Hn (met_session _ _ _ Hm)) as H.
  assert (Hg : length (k_grave (st_core s)) <= k_o (st_core s)).
  { rewrite <- (seq_length (k_o (st_core s)) 1). apply NoDup_incl_length; [apply (id_gnodup _ _ _ (m_id _ _ _ HI))|].
    intros i Hi. apply (id_grave _ _ _ (m_id _ _ _ HI)) in Hi. unfold id_ok in Hi. apply in_seq. lia. }
  lia.
Qed.
Print Assumptions C13_ends_once_partial.
Example ends_A : no_checkpoints gA wA /\ k_conv (st_core sA) = 1 /\ length (k_victims (st_core sA)) = 2 /\ k_o (st_core sA) = 3.
Proof.
  splits; try (vm_compute; reflexivity). split; [reflexivity|]. intros t H.
  do 181 (destruct t as [|t]; [cbn in H; repeat destruct H as [H|H]; try discriminate H; try contradiction|]). exact H.
Qed.

(** Runs with one slot and checkpointing: a STOP file and a checkpoint request arrive together; the optimizer answers the
    pause with [sg] and then [ms] happens. *)
Definition gB : config := mkCfg 1 2 false false false true false true None false false.
Definition wB (k1 k2 : nat) (m1 m2 : list move) : world := mkW
  (fun t => if t =? k1 then m1 else if t =? k2 then m2 else [])
  (fun _ => false) (fun _ => None)
  (fun t c n => Ok (if (k_o c =? 0) && (1 <=? n) then SOpt (cfA 1) else SFalse))
  (fun t c => Ok (1 <=? k_hunts c)) (fun _ _ _ v => Ok true) (fun _ _ => Ok []) (fun _ _ => false)
  (fun _ => false) (fun _ => false) (fun _ _ => true).

(** With a checkpoint an optimizer may be counted both as killed and as converged: it was killed, is still alive, and
    reports its normal end while the checkpoint waits for it. *)
Theorem C13_ends_once_refuted : exists g w s, met g w s /\ k_o (st_core s) < k_conv (st_core s) + length (k_victims (st_core s)).
Proof.
  pose (w := wB 8 18 [MFile "STOP_1"; MCheckpointFile; MPush [ev 1 2 2]] [MSig 1 (SDone "converged")]).
  exists gB, w, (snd (run gB w 60 true)).
  split; [exists 60, true; reflexivity|]. apply Nat.ltb_lt. vm_compute. reflexivity.
Qed.
Print Assumptions C13_ends_once_refuted.

(** ** C14 *)
Theorem C14_no_start_after_stop g w s h1 c h2 : met g w s -> st_hist s = h1 ++ (c, EvStopSpawn) :: h2 ->
  forall c' i cls n, ~ In (c', EvStart i cls n) h1.
Proof.
  intros Hm Hh c' i cls n Hi. apply in_split in Hi as [ha [hb ->]].
  assert (Hh' : st_hist s = ha ++ (c', EvStart i cls n) :: hb ++ (c, EvStopSpawn) :: h2) by (rewrite Hh, <- app_assoc; reflexivity).
  destruct (met_snap _ _ _ _ _ _ _ Hm Hh') as (_ & _ & _ & _ & H & _). apply H.
  rewrite map_app. apply in_app_iff. right. left. reflexivity.
Qed.
Print Assumptions C14_no_start_after_stop.
Example stop_A : In EvStopSpawn (map snd (st_hist (snd (run gA wA 130 true)))).
Proof. occurs. Qed.

(** ** C15 *)
(** One slot; the only optimizer evaluates once, reports its end and exits; the selector then declares the end of
    spawning: the run ends as a crash. *)
Definition g1 : config := mkCfg 1 1 false false false true false false None false false.
Definition w15 (k : nat) : world :=
  wB k 1000 [MPush [ev 1 1 2]; MSig 1 (SDone "converged"); MPush [QEnd 1]; MExit 1 0%Z] [].
Theorem C15_stopped_run_ends_normally_refuted : exists g w limit traj x,
  fst (run g w limit traj) = Ok (Some (RCrash RuntimeError), x) /\
  let s := snd (run g w limit traj) in
  In EvStopSpawn (map snd (st_hist s)) /\ k_conv (st_core s) = k_o (st_core s) /\ k_packs (st_core s) = [] /\
  no_checkpoints g w /\ (forall t, w_err w t = None /\ w_intr w t = false).
Proof.
  exists g1, (w15 6), 100, true, (mkR (Some [Fin 1]) (Some (Fin 2)) (Some (1, 1, 0, 1)) (Some (1, "A"))).
  cbv zeta. splits; try (vm_compute; reflexivity).
  - occurs.
  - split; [reflexivity|]. intros t H. cbn [w_moves w15 wB] in H. destruct (t =? 6); [|destruct (t =? 1000); exact H].
    cbn in H. repeat destruct H as [H|H]; try discriminate H; exact H.
  - intro t. split; reflexivity.
Qed.
Print Assumptions C15_stopped_run_ends_normally_refuted.

(** What holds: a judgement which found no optimizer alive and spawning stopped does end the run, and not as a crash -
    if histories are retained and there are no checkpoints but those on request. *)
Theorem C15_told_to_stop_ends_normally_partial g w limit r x : g_chk g = false ->
  fst (run g w limit true) = Ok (Some r, x) ->
  (exists h1 c a d h2, st_hist (snd (run g w limit true)) = h1 ++ (c, EvJudge a d) :: h2 /\ verdict c a d = true) ->
  match r with RCrash _ => False | _ => True end.
Proof.
  intros Hn He (h1 & c & a & d & h2 & Hh & Hv). destruct r as [| | | |e]; auto.
  assert (Hm : met g w (snd (run g w limit true))) by (exists limit, true; reflexivity).
  destruct (run_outcome g w limit true) as [HI Ho]. destruct (Ho _ He) as [_ H2]. cbn in H2.
  specialize (H2 Hn). assert (Ht : trj (snd (run g w limit true))) by apply run_traj. specialize (H2 Ht). apply H2. clear H2 Ht Ho He.
  assert (Hs : forall ha hb, st_hist (snd (run g w limit true)) = ha ++ hb ++ (c, EvJudge a d) :: h2 ->
                last_judgement (hb ++ (c, EvJudge a d) :: h2) = Some true).
  { intros ha hb. revert ha. induction hb as [|[c0 e0] hb IH]; intros ha Hb; [cbn; rewrite Hv; reflexivity|].
    assert (Hj : last_judgement (hb ++ (c, EvJudge a d) :: h2) = Some true).
    { apply (IH (ha ++ [(c0, e0)])). rewrite Hb, <- app_assoc. reflexivity. }
    pose proof (met_snap _ _ _ ha c0 e0 _ Hm Hb) as (_ & _ & _ & _ & H). cbn. destruct e0; try exact Hj; [destruct H as [H _]; contradiction|].
    exfalso. apply (met_session _ _ _ Hm). rewrite Hb, map_app, in_app_iff. right. left. reflexivity. }
  rewrite Hh. apply (Hs [] h1). exact Hh.
Qed.
Print Assumptions C15_told_to_stop_ends_normally_partial.

(** ** C16 *)
(** The judgement is what it claims to be: the checker was asked and said so; all registered optimizers are dead, or
    some are registered. *)
Theorem C16_judgements_are_honest g w s h1 c a d h2 : met g w s -> st_hist s = h1 ++ (c, EvJudge a d) :: h2 ->
  (exists t, w_check w t c = Ok a) /\
  if d then forall i h, nget i (k_packs c) = Some h -> c_alive h = false else k_packs c <> [].
Proof. intros Hm Hh. destruct (met_snap _ _ _ _ _ _ _ Hm Hh) as (_ & _ & _ & _ & _ & H). exact H. Qed.
Print Assumptions C16_judgements_are_honest.

(** After a judgement to stop there is no further iteration. *)
Theorem C16_stop_means_stop g w s h1 c a d h2 : met g w s -> st_hist s = h1 ++ (c, EvJudge a d) :: h2 -> verdict c a d = true ->
  forall c' e, In (c', e) h1 -> e <> EvIter /\ forall a' d', e <> EvJudge a' d'.
Proof.
  intros Hm Hh Hv c' e Hi. apply in_split in Hi as [ha [hb ->]].
  assert (Hs : forall hb ha, st_hist s = ha ++ hb ++ (c, EvJudge a d) :: h2 ->
                last_judgement (hb ++ (c, EvJudge a d) :: h2) = Some true).
  { clear Hh ha hb. induction hb as [|[c0 e0] hb IH]; intros ha Hb; [cbn; rewrite Hv; reflexivity|].
    assert (Hj : last_judgement (hb ++ (c, EvJudge a d) :: h2) = Some true).
    { apply (IH (ha ++ [(c0, e0)])). rewrite Hb, <- app_assoc. reflexivity. }
    pose proof (met_snap _ _ _ ha c0 e0 _ Hm Hb) as (_ & _ & _ & _ & H). cbn. destruct e0; try exact Hj; [destruct H as [H _]; contradiction|].
    exfalso. apply (met_session _ _ _ Hm). rewrite Hb, map_app, in_app_iff. right. left. reflexivity. }
  assert (Hh' : st_hist s = ha ++ (c', e) :: hb ++ (c, EvJudge a d) :: h2) by (rewrite Hh, <- app_assoc; reflexivity).
  assert (Hj : last_judgement (hb ++ (c, EvJudge a d) :: h2) = Some true).
  { apply (Hs hb (ha ++ [(c', e)])). rewrite Hh', <- app_assoc. reflexivity. }
  destruct (met_snap _ _ _ _ _ _ _ Hm Hh') as (_ & _ & _ & _ & H).
  split; [intros ->; contradiction| intros a' d' ->; destruct H as [H _]; contradiction].
Qed.
Print Assumptions C16_stop_means_stop.

(** A run ends normally only after a judgement to stop; the checker is named as the reason if and only if it was satisfied.
    A run without end condition was never started. *)
Theorem C16_left_only_when_told g w limit traj r x : fst (run g w limit traj) = Ok (r, x) ->
  let s := snd (run g w limit traj) in
  match r with
  | None => st_hist s = []
  | Some RInterrupt | Some (RCrash _) => True
  | Some r => exists c a d, last_judge (st_hist s) = Some (c, a, d) /\ verdict c a d = true /\ (r = RChecker <-> a = true)
  end.
Proof.
  intros He s. destruct (run_outcome g w limit traj) as [_ Ho]. destruct (Ho _ He) as [_ H2]. cbn in H2. fold s in H2.
  destruct r as [r|]; [|exact H2].
  assert (Hg : (exists r0, (r0 = RDead \/ r0 = RNone) /\ ended r0 r s) ->
               exists c a d, last_judge (st_hist s) = Some (c, a, d) /\ verdict c a d = true /\ (r = RChecker <-> a = true)).
  { intros [r0 [H0 (c & a & d & E1 & E2 & E3)]]. exists c, a, d. splits; auto. split.
    - intro Hx. destruct a; [reflexivity|]. destruct H0; congruence.
    - intros ->. exact E3. }
  destruct r; auto; apply Hg; apply H2.
Qed.
Print Assumptions C16_left_only_when_told.
Example judge_A : last_judgement (st_hist sA) = Some true /\
  length (filter (fun e => match e with EvIter => true | _ => false end) (brief sA)) = 8.
Proof. split; vm_compute; reflexivity. Qed.

(** ** C17 *)
Theorem C17_overshoot_is_bounded g w fm K s : no_checkpoints g w -> chunks_within w K -> max_calls w fm -> met g w s ->
  length (accepted (st_hist s)) < fm + 9 + K.
Proof.
  intros Hn HK Hc Hm. destruct (C07_counters_agree _ _ _ Hm) as [<- _]. destruct Hm as [limit [traj ->]].
  assert (Hc' : forall t c, exists b, w_check w t c = Ok b /\ (b = false -> k_f c < fm)) by (intros t c; eexists; split; [apply Hc|apply Nat.leb_gt]).
  pose proof (run_bounded g w limit fm K Hn HK Hc' traj) as H. unfold bounded in H. lia.
Qed.
Print Assumptions C17_overshoot_is_bounded.
(** The bound is met: one evaluation allowed, chunks of at most two, eleven accepted. *)
Definition w17 : world := mkW
  (fun t => if t =? 8 then [MPush [ev 1 1 1; ev 1 2 2]; MPush [ev 1 1 1; ev 1 2 2]; MPush [ev 1 1 1; ev 1 2 2];
                            MPush [ev 1 1 1; ev 1 2 2]; MPush [ev 1 1 1]; MPush [ev 1 1 1; ev 1 2 2]] else [])
  (fun _ => false) (fun _ => None)
  (fun t c n => Ok (if (k_o c =? 0) && (1 <=? n) then SOpt (cfA 1) else SFalse))
  (fun t c => Ok (1 <=? k_f c)) (fun _ _ _ v => Ok true) (fun _ _ => Ok []) (fun _ _ => false)
  (fun _ => false) (fun _ => false) (fun _ _ => true).
Example overshoot_tight : no_checkpoints g1 w17 /\ chunks_within w17 2 /\ max_calls w17 1 /\
  fst (run g1 w17 100 true) = Ok (Some RChecker, mkR (Some [Fin 1]) (Some (Fin 1)) (Some (11, 1, 0, 0)) (Some (1, "A"))) /\
  length (accepted (st_hist (snd (run g1 w17 100 true)))) = 11.
Proof.
  splits; try (vm_compute; reflexivity).
  - split; [reflexivity|]. intros t H. cbn [w_moves w17] in H. destruct (t =? 8); [|exact H].
    cbn in H. repeat destruct H as [H|H]; try discriminate H; exact H.
  - intros t ch H. cbn [w_moves w17] in H. destruct (t =? 8); [|destruct H].
    cbn in H. repeat destruct H as [H|H]; try (injection H as <-; cbn; lia). destruct H.
Qed.

(** ** C18 *)
(** Two slots, histories not retained.  The second optimizer reports its end, closes its stream and exits just after its
    pipe was read: the end marker is taken from the queue first and its log entry dropped, so that writing its end
    condition raises a KeyError and the whole run ends as a crash. *)
Definition g2 : config := mkCfg 2 1 false false false true false false None false false.
Definition w18 : world := mkW
  (fun t => if t =? 14 then [MPush [ev 1 1 2]; MSig 2 (SDone "converged"); MPush [QEnd 2]; MExit 2 0%Z] else [])
  (fun _ => false) (fun _ => None)
  (fun t c n => Ok (if (k_o c <? 2) && (1 <=? n) then SOpt (cfA 1) else SNone))
  (fun t c => Ok (1000 <=? k_f c)) (fun _ _ _ _ => Ok false) (fun _ _ => Ok []) (fun _ _ => false) (fun _ => false)
  (fun _ => false) (fun _ _ => true).
Theorem C18_normal_end_is_harmless_refuted : exists g w limit x,
  fst (run g w limit false) = Ok (Some (RCrash KeyError), x) /\ no_checkpoints g w /\
  (forall t, w_err w t = None /\ w_intr w t = false) /\ g_killing g = false /\ g_sharing g = false /\
  (forall t i code, In (MExit i code) (w_moves w t) -> i = 2 /\ code = 0%Z /\ In (MSig 2 (SDone "converged")) (w_moves w t) /\
                    In (MPush [QEnd 2]) (w_moves w t)).
Proof.
  exists g2, w18, 100, (mkR (Some [Fin 1]) (Some (Fin 2)) (Some (1, 2, 0, 0)) (Some (1, "A"))).
  splits; try (vm_compute; reflexivity).
  - split; [reflexivity|]. intros t H. cbn [w_moves w18] in H. destruct (t =? 14); [|exact H].
    cbn in H. repeat destruct H as [H|H]; try discriminate H; exact H.
  - intro t. split; reflexivity.
  - intros t i code H. cbn [w_moves w18] in *. destruct (t =? 14); [|destruct H].
    cbn in H. repeat destruct H as [H|H]; try discriminate H; try (destruct H; fail). injection H as <- <-. splits; auto; cbn; auto.
Qed.
Print Assumptions C18_normal_end_is_harmless_refuted.
(** The same outside with retained histories: nothing happens. *)
Example normal_end_retained : fst (run g2 w18 100 true) = Err OutOfFuel /\ k_conv (st_core (snd (run g2 w18 100 true))) = 1.
Proof. vm_compute. split; reflexivity. Qed.

(** The other crash: a hunt stops an optimizer which has just closed its end of the pipe (it finished normally). *)
Definition w18b : world := mkW
  (fun t => if t =? 14 then [MPush [ev 2 1 9]; MPush [ev 1 1 2]] else if t =? 17 then [MSig 2 (SDone "converged"); MPush [QEnd 2]; MExit 2 0%Z] else [])
  (fun _ => false) (fun _ => None)
  (fun t c n => Ok (if (k_o c <? 2) && (1 <=? n) then SOpt (cfA 1) else SNone))
  (fun t c => Ok (1000 <=? k_f c)) (fun _ _ _ _ => Ok true) (fun _ _ => Ok []) (fun _ _ => false) (fun _ => false)
  (fun _ => false) (fun _ _ => true).
Definition g2k : config := mkCfg 2 2 true false false true false false None false false.
Example normal_end_during_hunt : match fst (run g2k w18b 100 true) with Ok (Some (RCrash OSError), _) => True | _ => False end.
Proof. vm_compute. exact I. Qed.
