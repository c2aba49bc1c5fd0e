(** * The manager: single methods, from any state, and checkpoints *)
From Verif Require Import Prelude Prelude_Proofs Logger_Model Logger_Spec Logger_Proofs Manager_Model Manager_Spec
     Manager_Proofs Manager_Trace Manager_Safe Manager_Methods Manager_Props.

(** ** C18 *)
(** Histories retained, no checkpoints, no sharing, stopping by termination (or never): however the children end, the
    only crash is the deliberate one - nothing could be started or too many optimizers failed in a row.
    Missing: the other settings (see the refutation, [normal_end_during_hunt] and the theorems of Crash_Props.v). *)
Theorem C18_children_cannot_crash_the_manager_partial g w limit e x : benign g w ->
  fst (run g w limit true) = Ok (Some (RCrash e), x) -> e = RuntimeError.
Proof.
  intros Hb He. destruct (crash_reason g w limit (fun _ => False)) with (e := e) (x := x) as [H|[]]; [| | |exact He|exact H].
  - split; try apply Hb. intros t c i j e0 _ _ _ _. apply Hb.
  - left. split; apply Hb.
  - left. apply Hb.
Qed.
Print Assumptions C18_children_cannot_crash_the_manager_partial.
Example benign_w18 : benign g2 w18 /\ (exists t i code, In (MExit i code) (w_moves w18 t)).
Proof.
  split.
  - split; cbn; try (intros; discriminate); try reflexivity.
    + split; [reflexivity|]. intros t H. cbn [w_moves w18] in H. destruct (t =? 14); [|exact H].
      cbn in H. repeat destruct H as [H|H]; try discriminate H; exact H.
    + right. split; [reflexivity|]. intros t n H. cbn [w_moves w18] in H. destruct (t =? 14); [|exact H].
      cbn in H. repeat destruct H as [H|H]; try discriminate H; exact H.
  - exists 14, 2, 0%Z. cbn. auto.
Qed.
(** The crash that remains: the only optimizer ends and the selector has nothing to offer. *)
Definition w18c : world := mkW
  (fun t => if t =? 10 then [MSig 1 (SDone "ok"); MExit 1 0%Z] else [])
  (fun _ => false) (fun _ => None)
  (fun t c n => Ok (if (k_o c <? 1) && (1 <=? n) then SOpt (cfA 1) else SNone))
  (fun t c => Ok (1000 <=? k_f c)) (fun _ _ _ _ => Ok false) (fun _ _ => Ok []) (fun _ _ => false) (fun _ => false)
  (fun _ => false) (fun _ _ => true).
Example runtime_error : benign g1 w18c /\
  match fst (run g1 w18c 100 true) with Ok (Some (RCrash RuntimeError), _) => True | _ => False end.
Proof.
  split; [|vm_compute; exact I]. split; cbn; try (intros; discriminate); try reflexivity.
  - split; [reflexivity|]. intros t H. cbn [w_moves w18c] in H. destruct (t =? 10); [|exact H].
    cbn in H. repeat destruct H as [H|H]; try discriminate H; exact H.
  - right. split; [reflexivity|]. intros t n H. cbn [w_moves w18c] in H. destruct (t =? 10); [|exact H].
    cbn in H. repeat destruct H as [H|H]; try discriminate H; exact H.
Qed.

(** ** C19 *)
(** After _inspect_children every registered optimizer that was dead before - with nothing left to read from its pipe,
    or its completion signal next, or a non-zero exit code - is in the graveyard, and if it was not there before its
    stop time and end condition are in the log. *)
Theorem C19_the_dead_are_accounted_for g w limit s s' i h : inspect_children g w limit s = (Ok tt, s') ->
  nget i (k_packs (st_core s)) = Some h -> c_alive h = false ->
  c_code h <> 0%Z \/ c_sigs h = [] \/ (exists m l, c_sigs h = SDone m :: l) ->
  In i (k_grave (st_core s')) /\
  (~ In i (k_grave (st_core s)) ->
   (exists v, get_metadata i "t_stop" (k_log (st_core s')) = Ok v) /\ (exists v, get_metadata i "end_cond" (k_log (st_core s')) = Ok v)).
Proof.
  intros Hr Hg Ha Hac. destruct (inspected g w limit s s' i h Hr Hg Ha Hac) as [H1 H2]. split; [exact H1|].
  intro Hn. destruct (H2 Hn) as [H3 H4]. split.
  - destruct (get_metadata i "t_stop" _); [eauto| discriminate].
  - destruct (get_metadata i "end_cond" _); [eauto| discriminate].
Qed.
Print Assumptions C19_the_dead_are_accounted_for.

(** Three children: one failed, one silent, one alive. *)
Definition child_ (alive : bool) (code : Z) (sg : list signal) : child := mkCh 1 alive code sg (negb alive) true.
Definition log3 : logger := snd (add_optimizer 3 "C" "now" (snd (add_optimizer 2 "B" "now" (snd (add_optimizer 1 "A" "now" (log_init true)))))).
Definition state_ (packs : list (nat * child)) (grave : list nat) (files : list string) (res : result) (l : logger) : mstate :=
  mkMS (mkK packs grave [] 0 3 0 0 0 true false (0, 0) res l 0 false [] files false 0) [].
Definition none : result := mkR None None None None.
Definition still : world := mkW (fun _ => []) (fun _ => false) (fun _ => None) (fun t c n => Ok SNone) (fun t c => Ok false)
  (fun _ _ _ _ => Ok false) (fun _ _ => Ok []) (fun _ _ => false) (fun _ => false) (fun _ => false) (fun _ _ => true).
Definition s19 := state_ [(1, child_ false 1 [SPaused]); (2, child_ false 0 []); (3, child_ true 0 [])] [] [] none log3.
Example accounted : let (r, s') := inspect_children gA still 100 s19 in
  r = Ok tt /\ k_grave (st_core s') = [1; 2] /\ get_metadata 1 "end_cond" (k_log (st_core s')) = Ok "Error termination" /\
  get_metadata 2 "end_cond" (k_log (st_core s')) = Ok "Normal termination (Reason unknown)".
Proof. vm_compute. repeat split; reflexivity. Qed.
(** An error message still unread delays this by one inspection. *)
Definition s19b := state_ [(1, child_ false 0 [SError "x"])] [] [] none log3.
Example delayed : let (r, s') := inspect_children gA still 100 s19b in
  r = Ok tt /\ k_grave (st_core s') = [] /\ k_grave (st_core (snd (inspect_children gA still 100 s'))) = [1].
Proof. vm_compute. repeat split; reflexivity. Qed.

(** ** C20 *)
(** The names. *)
Theorem C20_names n : stop_id ("STOP_" ++ decimal n) = Some (Z.of_nat n).
Proof. exact (stop_id_decimal n). Qed.
Print Assumptions C20_names.
Example names : decimal 12 = "12" /\ map stop_id ["STOP_x"; "STOP_"; "STOP_1_2"; "STOP_-1"; "STOP_007"] = [None; None; None; Some (-1)%Z; Some 7%Z].
Proof. vm_compute. split; reflexivity. Qed.

(** Whatever is killed or told to stop is named by a file in the directory, registered and unfinished. *)
Theorem C20_only_the_named g w limit s : let files := k_files (apply_moves (w_moves w (k_tick (st_core s))) (st_core s)) in
  exists new, st_hist (snd (manual_shutdowns g w limit s)) = new ++ st_hist s /\
  forall c e, In (c, e) new ->
    (exists i, e = EvKill None i /\ In i (dkeys (k_packs c)) /\ ~ In i (k_grave c) /\ exists n, In n files /\ stop_id n = Some (Z.of_nat i)) \/
    (exists i, e = EvSend i OStop /\ exists n, In n files /\ stop_id n = Some (Z.of_nat i)).
Proof.
  intro files. destruct (stops_named g w limit s) as [new [H1 H2]]. exists new. split; [exact H1|]. intros c e Hin.
  apply (proj1 (Forall_forall _ _) H2) in Hin. destruct Hin as [n [i [Hn [Hi He]]]]. cbn in He.
  destruct e; try contradiction He.
  - destruct hunter; [contradiction|]. destruct He as [-> [Hp Hg]]. left. exists i. splits; auto; [apply nmemd_true, Hp| eauto].
  - destruct m; try contradiction. subst. right. exists i. split; [reflexivity| eauto].
Qed.
Print Assumptions C20_only_the_named.

(** Every named optimizer which is registered and unfinished is killed; its file goes, if it was the only one naming it
    and nobody puts it back. *)
Theorem C20_all_the_named g w limit s s' n i : let files := k_files (apply_moves (w_moves w (k_tick (st_core s))) (st_core s)) in
  manual_shutdowns g w limit s = (Ok tt, s') -> In n files -> stop_id n = Some (Z.of_nat i) ->
  In i (dkeys (k_packs (st_core s))) -> ~ In i (k_grave (st_core s)) ->
  (exists new, st_hist s' = new ++ st_hist s /\ exists c, In (c, EvKill None i) new) /\
  In i (k_grave (st_core s')) /\ In i (k_victims (st_core s')) /\
  ((forall t, ~ In (MFile n) (w_moves w t)) -> (forall m, In m files -> stop_id m = Some (Z.of_nat i) -> m = n) ->
   ~ In n (k_files (st_core s'))).
Proof.
  intros files Hr Hn Hi Hp Hg. apply nmemd_true in Hp.
  destruct (stops_all g w limit s s' n i Hr Hn Hi Hp Hg) as [[H1 [H2 H3]] H4]. splits; auto.
Qed.
Print Assumptions C20_all_the_named.

(** Other files stay. *)
Theorem C20_others_stay g w limit s s' n : let files := k_files (apply_moves (w_moves w (k_tick (st_core s))) (st_core s)) in
  manual_shutdowns g w limit s = (Ok tt, s') -> In n files ->
  (forall i, stop_id n = Some (Z.of_nat i) -> ~ In i (dkeys (k_packs (st_core s))) \/ In i (k_grave (st_core s))) ->
  In n (k_files (st_core s')).
Proof.
  intros files Hr Hn Hi. apply (stops_leave g w limit s s' n Hr Hn). intros i H. destruct (Hi i H) as [Hx|Hx]; [left|auto].
  apply nmemd_false, Hx.
Qed.
Print Assumptions C20_others_stay.

Definition s20 := state_ [(1, child_ true 0 []); (2, child_ true 0 []); (3, child_ true 0 [])] [2]
  ["STOP_1"; "STOP_2"; "STOP_4"; "STOP_x"; "STOP_01"] none log3.
Example stop_files : let (r, s') := manual_shutdowns gA still 100 s20 in
  r = Ok tt /\ brief s' = [EvKill None 1; EvSend 1 OStop] /\ k_files (st_core s') = ["STOP_2"; "STOP_4"; "STOP_x"; "STOP_01"].
Proof. vm_compute. repeat split; reflexivity. Qed.

(** ** C21 *)
(** Exactly when sharing is on and the best value improves, or there is no old value, or the old value is zero, the new
    best goes to optimizers other than its finder, to each at most once ... *)
Theorem C21_who_is_told g w limit s b : get_best_iter None (k_log (st_core s)) = Ok b ->
  exists l, map snd (st_hist (snd (update_best g w limit s))) =
              map (fun i => EvSend i (OBest (b_x b) (b_fx b))) (rev l) ++ map snd (st_hist s) /\
  (forall i, In i l -> In i (dkeys (k_packs (st_core s))) /\ i <> b_opt b) /\
  (NoDup (dkeys (k_packs (st_core s))) -> NoDup l) /\
  (l <> [] -> g_sharing g = true /\
     match r_fx (k_result (st_core s)) with
     | None => True
     | Some v => nlt (b_fx b) v = true \/ exists q, v = Fin q /\ (q == 0)%Q
     end).
Proof.
  intro Hb. destruct (update_best_split g w limit s b Hb) as [f [_ Hf]].
  destruct (shares g s b) eqn:E.
  - destruct (share_events w limit b (dkeys (k_packs (st_core s))) s) as [l [H1 [H2 H3]]]. exists l.
    rewrite Hf. splits.
    + destruct (for_each _ _ s) as [[[]|e] s1]; exact H1.
    + exact H2.
    + exact H3.
    + intros _. unfold shares in E. apply andb_true_iff in E as [E1 E2]. split; [exact E1|]. apply orb_true_iff in E2.
      destruct (r_fx (k_result (st_core s))) as [v|]; [|exact I]. destruct E2 as [E2|E2]; [|left; exact E2].
      right. destruct v as [| |q|]; try discriminate E2. exists q. split; [reflexivity|]. apply Qeq_bool_iff, E2.
  - exists []. rewrite Hf. splits; [reflexivity| intros i []| intro; constructor| congruence].
Qed.
Print Assumptions C21_who_is_told.

(** ... and every such optimizer still alive afterwards was told. *)
Theorem C21_everyone_is_told g w limit s s' b i h : get_best_iter None (k_log (st_core s)) = Ok b -> g_sharing g = true ->
  match r_fx (k_result (st_core s)) with None => True | Some v => nlt (b_fx b) v = true end ->
  update_best g w limit s = (Ok tt, s') -> i <> b_opt b -> nget i (k_packs (st_core s')) = Some h -> c_alive h = true ->
  In i (dkeys (k_packs (st_core s))) ->
  exists new, st_hist s' = new ++ st_hist s /\ exists c, In (c, EvSend i (OBest (b_x b) (b_fx b))) new.
Proof.
  intros Hb Hsh Himp Hr Hi Hg Ha Hin. destruct (update_best_split g w limit s b Hb) as [f [Hp Hf]].
  assert (E : shares g s b = true).
  { unfold shares. rewrite Hsh. cbn. destruct (r_fx (k_result (st_core s))) as [v|]; [rewrite Himp; apply orb_true_r| reflexivity]. }
  pose proof (told_all w limit i b (st_hist s) (dkeys (k_packs (st_core s))) Hi Hin s (ex_intro _ [] eq_refl)) as Ht.
  rewrite E in Hf. rewrite Hf in Hr. destruct (for_each _ _ s) as [[[]|e] s1]; [|discriminate]. injection Hr as <-.
  destruct Ht as [[Ht|Ht] _]; [|exact Ht]. exfalso. cbn in Hg. rewrite Hp in Hg. specialize (Ht h Hg). congruence.
Qed.
Print Assumptions C21_everyone_is_told.

(** Three optimizers, sharing: an improvement is told to the two others. *)
Definition gS : config := mkCfg 3 1 false true false true false false None false false.
Definition wS (l : list qitem) : world := mkW
  (fun t => if t =? 18 then [MPush l] else [])
  (fun _ => false) (fun _ => None)
  (fun t c n => Ok (if (k_o c <? 3) && (1 <=? n) then SOpt (cfA 1) else SNone))
  (fun t c => Ok (2 <=? k_f c)) (fun _ _ _ _ => Ok false) (fun _ _ => Ok []) (fun _ _ => false) (fun _ => false)
  (fun _ => false) (fun _ _ => true).
Definition shared (s : mstate) : list (nat * num) := flat_map (fun e => match e with EvSend i (OBest _ v) => [(i, v)] | _ => [] end) (brief s).
Example told : shared (snd (run gS (wS [ev 2 1 9; ev 1 1 4; ev 3 1 5]) 300 true)) = [(1, Fin 9); (3, Fin 9); (2, Fin 4); (3, Fin 4)].
Proof. vm_compute. reflexivity. Qed.

(** With best value zero whatever is evaluated later makes it be told again although nothing improved. *)
Theorem C21_nothing_told_without_improvement_refuted : exists g w s c h i x v, met g w s /\
  st_hist s = (c, EvSend i (OBest x v)) :: h /\ r_fx (k_result c) = Some v /\ exists c', In (c', EvSend i (OBest x v)) h.
Proof.
  pose (w := wS [ev 1 1 0; ev 2 1 5]). pose (s := snd (run gS w 29 true)).
  pose (c0 := st_core (fresh true)).
  assert (H : exists c h, st_hist s = (c, EvSend 3 (OBest [Fin 1] (Fin 0))) :: h /\ r_fx (k_result c) = Some (Fin 0) /\
                          In (EvSend 3 (OBest [Fin 1] (Fin 0))) (map snd h)).
  { exists (fst (hd (c0, EvEnd) (st_hist s))), (tl (st_hist s)). vm_compute. splits; auto 40. }
  destruct H as [c [h [H1 [H2 H3]]]]. exists gS, w, s, c, h, 3, [Fin 1], (Fin 0). splits; auto.
  - exists 29, true. reflexivity.
  - apply in_map_iff in H3 as [[c' e] [He Hi]]. cbn in He. subst e. eauto.
Qed.
Print Assumptions C21_nothing_told_without_improvement_refuted.

(** ** C33 *)
(** When the log is written for a checkpoint it holds every evaluation accepted so far ... *)
Theorem C33_log_complete_when_written_partial g w s h1 c h2 : met g w s -> st_hist s = h1 ++ (c, EvSaveLog) :: h2 ->
  log_len (k_log c) = length (accepted h2) /\ k_f c = length (accepted h2).
Proof. intros Hm Hh. destruct (met_snap _ _ _ _ _ _ _ Hm Hh) as (H1 & _ & H3 & _). split; congruence. Qed.
Print Assumptions C33_log_complete_when_written_partial.

Definition tick_events (s : mstate) : list (nat * event) := rev (map (fun p => (k_tick (fst p), snd p)) (st_hist s)).
Definition w33 : world := wB 8 17 [MCheckpointFile] [MSig 1 SPaused; MPush [ev 1 2 2]; MHold 1].
Example saving : tick_events (snd (run gB w33 33 true)) =
  [(2, EvIter); (3, EvSelect); (4, EvSetup 1 "A"); (6, EvStart 1 "A" 1); (13, EvSaveLog); (15, EvSend 1 OPause); (18, EvPaused 1);
   (20, EvAccept (mkIR 1 [Fin 2] (Fin 2) [])); (25, EvSend 1 OSave); (28, EvSaveManager)].
Proof. vm_compute. reflexivity. Qed.

(** ... but what the optimizers still had queued is counted in the saved manager and missing in the saved log. *)
Theorem C33_log_holds_what_the_manager_counts_refuted : exists g w s c2 h2 c1 h3, met g w s /\
  st_hist s = (c2, EvSaveManager) :: h2 ++ (c1, EvSaveLog) :: h3 /\ ~ In EvIter (map snd h2) /\
  ~ In EvSaveManager (map snd h2) /\ log_len (k_log c1) < k_f c2.
Proof.
  pose (s := snd (run gB w33 33 true)). pose (d := (st_core (fresh true), EvEnd)).
  exists gB, w33, s, (fst (hd d (st_hist s))), (firstn 4 (skipn 1 (st_hist s))), (fst (nth 5 (st_hist s) d)), (skipn 6 (st_hist s)). splits.
  - exists 33, true. reflexivity.
  - vm_compute. reflexivity.
  - vm_compute. intros [?|[?|[?|[?|[]]]]]; discriminate.
  - vm_compute. intros [?|[?|[?|[?|[]]]]]; discriminate.
  - apply Nat.ltb_lt. vm_compute. reflexivity.
Qed.
Print Assumptions C33_log_holds_what_the_manager_counts_refuted.

(** ** C37 *)
(** An optimizer is asked to save its state only while it is alive, after its report that it is paused was read, which
    was asked for before; and it was not killed in between. *)
Theorem C37_saved_only_when_paused g w s h1 c i h2 : met g w s -> st_hist s = h1 ++ (c, EvSend i OSave) :: h2 ->
  (exists h, nget i (k_packs c) = Some h /\ c_alive h = true) /\
  exists b1 b2 b3, h2 = b1 ++ b2 ++ b3 /\ In (EvPaused i) (map snd b1) /\ In (EvSend i OPause) (map snd b2) /\
                   forall hn, ~ In (EvKill hn i) (map snd (b1 ++ b2)).
Proof. intros [limit [traj Hm]] Hh. subst s. exact (protocol_run g w limit traj h1 c i h2 Hh). Qed.
Print Assumptions C37_saved_only_when_paused.

(** After a checkpoint every living optimizer may run, unless it stopped itself once more while the optimizers were
    being released. *)
Theorem C37_resumed g w limit s s' : checkpoint g w limit s = (Ok tt, s') ->
  exists t0, t0 <= k_tick (st_core s') /\
    forall i h, nget i (k_packs (st_core s')) = Some h -> c_alive h = true ->
      c_run h = true \/ exists t, t0 <= t < k_tick (st_core s') /\ In (MHold i) (w_moves w t).
Proof.
  intro Hr. destruct (checkpoint_resumes g w limit s s' Hr) as [s1 [H1 H2]]. exists (k_tick (st_core s1)). split; [exact H2|].
  destruct (toggles_all w limit s1 s' H1) as [_ H]. intros i h Hg Ha. exact (proj2 (H i) h Hg Ha).
Qed.
Print Assumptions C37_resumed.

(** The run above: the optimizer waits when it has saved its state, and runs after the checkpoint. *)
Definition running (s : mstate) : list (nat * bool) := map (fun p => (fst p, c_run (snd p))) (k_packs (st_core s)).
Example waits : running (snd (run gB w33 27 true)) = [(1, false)].
Proof. vm_compute. reflexivity. Qed.
Example runs_again : running (snd (run gB w33 36 true)) = [(1, true)].
Proof. vm_compute. reflexivity. Qed.

(** An optimizer which dies after its report and before the manager waits for it to stop is waited for for ever. *)
Theorem C37_dead_waited_for_forever w limit fuel ids s i h : In i ids -> nget i (k_packs (st_core s)) = Some h ->
  c_alive h = false -> c_run h = true ->
  exists e, fst (hold_loop w limit fuel ids s) = Err e /\ (e = OutOfFuel \/ e = KeyboardInterrupt).
Proof.
  intros Hi Hg Hd Hrun. pose proof (hold_loop_hangs w limit i h Hd Hrun fuel ids Hi s Hg) as H.
  pose proof (hold_loop_errors w limit fuel ids s) as He. destruct (hold_loop w limit fuel ids s) as [[u|e] s']; [destruct H|].
  exists e. split; [reflexivity|]. apply He. reflexivity.
Qed.
Print Assumptions C37_dead_waited_for_forever.

(** For instance one that is hunted during the checkpoint when victims are terminated rather than asked: nothing ever
    happens again. *)
Definition gH : config := mkCfg 2 1 true false true true false true None false false.
Definition wH : world := mkW
  (fun t => if t =? 12 then [MPush [ev 1 1 1]; MPush [ev 2 3 3]; MCheckpointFile]
            else if t =? 30 then [MSig 1 SPaused; MSig 2 SPaused; MPush [ev 1 1 (1#2)]; MHold 1]
            else if t =? 37 then [MExit 2 (-15)%Z] else [])
  (fun _ => false) (fun _ => None)
  (fun t c n => Ok (if (k_o c <? 2) && (1 <=? n) then SOpt (cfA 1) else SNone))
  (fun t c => Ok (1000 <=? k_f c)) (fun _ c _ _ => Ok (3 <=? k_f c)) (fun _ _ => Ok []) (fun _ _ => false) (fun _ => false)
  (fun _ => false) (fun _ _ => true).
Example hanging : map snd (filter (fun x => 24 <? fst x) (tick_events (snd (run gH wH 2000 true)))) =
  [EvSend 2 OPause; EvPaused 2; EvPaused 1; EvAccept (mkIR 1 [Fin 1] (Fin (1#2)) []); EvHunt; EvKill (Some 1) 2; EvSend 1 OSave].
Proof. vm_compute. reflexivity. Qed.
(** Missing in the property: that checkpoints end.  Nobody interrupts this run, no later event happens to it. *)
Theorem C37_checkpoints_end_refuted : exists g w, (forall t, w_intr w t = false /\ (37 < t -> w_moves w t = [])) /\
  fst (run g w 2000 true) = Err OutOfFuel /\ st_hist (snd (run g w 2000 true)) = st_hist (snd (run g w 60 true)).
Proof.
  exists gH, wH. splits; [|vm_compute; reflexivity..]. intro t. split; [reflexivity|]. intro Ht. cbn -[Nat.eqb].
  destruct (Nat.eqb_spec t 12); [lia|]. destruct (Nat.eqb_spec t 30); [lia|]. destruct (Nat.eqb_spec t 37); [lia|]. reflexivity.
Qed.
Print Assumptions C37_checkpoints_end_refuted.
Example corpse_waited_for : exists h, nget 2 (k_packs (st_core (snd (run gH wH 2000 true)))) = Some h /\ c_alive h = false /\ c_run h = true.
Proof. eexists. vm_compute. splits; reflexivity. Qed.

(** ** C38 *)
(** Whoever is killed during a checkpoint - between the request to pause and the request to save - is not saved; but a
    killed optimizer which has not stopped yet is saved by a later checkpoint. *)
Theorem C38_killed_during_checkpoint_not_saved_partial g w s h1 c i h2 : met g w s -> st_hist s = h1 ++ (c, EvSend i OSave) :: h2 ->
  exists b b3, h2 = b ++ b3 /\ In (EvSend i OPause) (map snd b) /\ forall hn, ~ In (EvKill hn i) (map snd b).
Proof.
  intros Hm Hh. destruct (C37_saved_only_when_paused g w s h1 c i h2 Hm Hh) as [_ [b1 [b2 [b3 [H1 [_ [H2 H3]]]]]]].
  exists (b1 ++ b2), b3. rewrite <- app_assoc. splits; auto. rewrite map_app. apply in_or_app. auto.
Qed.
Print Assumptions C38_killed_during_checkpoint_not_saved_partial.

Theorem C38_killed_not_saved_refuted : exists g w s c i h2 hn, met g w s /\ st_hist s = (c, EvSend i OSave) :: h2 /\ In (EvKill hn i) (map snd h2).
Proof.
  pose (w := wB 8 18 [MFile "STOP_1"; MCheckpointFile; MPush [ev 1 2 2]] [MSig 1 SPaused; MHold 1]).
  pose (s := snd (run gB w 27 true)). pose (d := (st_core (fresh true), EvEnd)).
  exists gB, w, s, (fst (hd d (st_hist s))), 1, (tl (st_hist s)), None. splits.
  - exists 27, true. reflexivity.
  - vm_compute. reflexivity.
  - vm_compute. auto 10.
Qed.
Print Assumptions C38_killed_not_saved_refuted.
