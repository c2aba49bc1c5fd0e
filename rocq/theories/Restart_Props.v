(** * C39-C40: resuming from a checkpoint *)
From Coq Require Import Sorted.
From Verif Require Import Prelude Prelude_Proofs Logger_Model Logger_Spec Logger_Proofs FileLogger_Model FileLogger_Spec FileLogger_Proofs
  Restart_Model Restart_Spec Restart_Proofs.

(** ** C39: slots *)
(** A successful division keeps the optimizers and their order, fits in max_jobs, gives everybody at least one slot, and
    changes nothing when the saved slots fit. *)
Theorem C39_slots_fit : forall max_jobs saved out,
  (forall i n, In (i, n) saved -> 1 <= n) -> apportion max_jobs saved = Ok out ->
  map fst out = map fst saved /\ sum_nat (map snd out) <= max_jobs /\ (forall i n, In (i, n) out -> 1 <= n) /\
  (sum_nat (map snd saved) <= max_jobs -> out = saved) /\
  (max_jobs < sum_nat (map snd saved) -> forall i n, In (i, n) out -> n = max_jobs / length saved).
Proof.
  intros mj saved out Hp H. destruct (apportion_spec mj saved out H) as [H1 [H2 [H3 H4]]]. splits; auto.
  - intros i n Hi. destruct (Nat.le_gt_cases (sum_nat (map snd saved)) mj) as [Hle|Hgt]; [rewrite (H3 Hle) in Hi; eauto| eapply H4; eassumption].
  - intros Hgt i n Hi. eapply H4; eassumption.
Qed.
Print Assumptions C39_slots_fit.
Example C39_slots_fit_met : apportion 7 [(1, 3); (4, 5); (6, 1)] = Ok [(1, 2); (4, 2); (6, 2)] /\ apportion 9 [(1, 3); (4, 5); (6, 1)] = Ok [(1, 3); (4, 5); (6, 1)].
Proof. vm_compute. auto. Qed.

(** Loading fails exactly when there are more optimizers than slots and the saved slots do not fit. *)
Theorem C39_fails_iff : forall max_jobs saved e,
  apportion max_jobs saved = Err e <-> e = CheckpointingError /\ max_jobs < sum_nat (map snd saved) /\ max_jobs < length saved.
Proof.
  intros mj saved e. split; [apply apportion_err|]. intros [-> [H1 H2]]. unfold apportion. apply Nat.ltb_lt in H1. rewrite H1.
  rewrite (Nat.div_small _ _ H2). reflexivity.
Qed.
Print Assumptions C39_fails_iff.
Example C39_fails_met : apportion 2 [(1, 1); (2, 1); (3, 2)] = Err CheckpointingError.
Proof. reflexivity. Qed.

(** The optimizers which are in fact rebuilt: those that can be, in order, with their new slots; none at all is an error. *)
Theorem C39_rebuilt : forall max_jobs saved builds,
  match rebuild max_jobs saved builds with
  | Ok packs => sum_nat (map snd packs) <= max_jobs /\ map fst packs = filter builds (map fst saved) /\ (packs = [] -> saved = [])
  | Err e => e = CheckpointingError /\ ((max_jobs < sum_nat (map snd saved) /\ max_jobs < length saved) \/
             (saved <> [] /\ forall i n, In (i, n) saved -> builds i = false))
  end.
Proof.
  intros mj saved b. unfold rebuild. destruct (apportion mj saved) as [r|e] eqn:E.
  2:{ apply apportion_err in E. tauto. }
  destruct (apportion_spec mj saved r E) as [H1 [H2 _]].
  assert (Hsame : forall l : list (nat * nat), map fst (filter (fun p => b (fst p)) l) = filter b (map fst l)).
  { induction l as [|[i n] l IH]; [reflexivity|]. cbn. destruct (b i); cbn; rewrite IH; reflexivity. }
  pose proof (filter_sum (fun p => b (fst p)) r) as Hs. specialize (Hsame r). rewrite H1 in Hsame.
  destruct (filter (fun p => b (fst p)) r) as [|q l] eqn:Ef; [destruct r as [|x r]|].
  - splits; [cbn; lia| exact Hsame|]. intros _. destruct saved; [reflexivity| discriminate].
  - split; [reflexivity|]. right. split; [destruct saved; [discriminate H1| discriminate]|]. intros i n Hi.
    apply not_true_iff_false. intro Hb. assert (Hin : In i (filter b (map fst saved))) by (apply filter_In; split; [apply (in_map fst) in Hi; exact Hi| exact Hb]).
    rewrite <- Hsame in Hin. destruct Hin.
  - splits; [lia| exact Hsame| discriminate].
Qed.
Print Assumptions C39_rebuilt.
Example C39_rebuilt_met : rebuild 4 [(1, 3); (4, 5)] (Nat.eqb 4) = Ok [(4, 2)] /\ rebuild 4 [(1, 3); (4, 5)] (Nat.eqb 2) = Err CheckpointingError.
Proof. vm_compute. auto. Qed.

(** Finding: the equal division can give an optimizer more slots than it had. *)
Theorem C39_never_more_refuted : exists max_jobs saved out i n n',
  max_jobs < sum_nat (map snd saved) /\ apportion max_jobs saved = Ok out /\ In (i, n) saved /\ In (i, n') out /\ n < n'.
Proof. exists 5, [(1, 1); (2, 5)], [(1, 2); (2, 2)], 1, 1, 2. splits; try (vm_compute; auto; lia). Qed.
Print Assumptions C39_never_more_refuted.

(** ** C40: the log file *)
(** Whatever is in the file: exactly the evaluations after the checkpoint and the optimizers started later are removed. *)
Theorem C40_rollback_is_exact : forall sum f o h n,
  h_sum h = sum -> h_count h = Some n -> f < n -> ordered h ->
  exists h', roll_back sum f o h = Rolled h' /\
  forall i, match nget i (h_groups h), nget i (h_groups h') with
            | Some g, Some g' => i <= o /\ trimmed f g g'
            | Some _, None => o < i
            | None, None => True
            | None, Some _ => False
            end.
Proof. exact roll_back_spec. Qed.
Print Assumptions C40_rollback_is_exact.

Definition rr (i : nat) (x : Q) : fop := FOp (PutIter (mkIR i [Fin x] (Fin x) [])).
(** A run used below: a checkpoint after four evaluations, then three more evaluations and another optimizer. *)
Definition ex_before : list fop :=
  [FOp (AddOpt 1 "CMA" "t0"); FOp (AddHist 1 []); rr 1 1; rr 1 2; FOp (AddOpt 2 "CMA" "t1"); FOp (AddHist 2 []); rr 2 3; rr 1 4].
Definition ex_after : list fop :=
  [rr 2 5; FOp (AddOpt 3 "CMA" "t2"); FOp (AddHist 3 []); rr 3 6; rr 1 7; FOp (ClearCache (Some 1))].
Definition ex_again : list fop := [rr 1 8; FOp (AddOpt 3 "GFLS" "t3"); FOp (AddHist 3 []); rr 3 9; rr 2 10].
Definition sz1 (_ : iterres) : N := 1%N.

Example C40_rollback_is_exact_met :
  let h := closed_file "c" (snd (f_close (fexec sz1 (ex_before ++ ex_after) (flog_init true)))) in
  h_sum h = "c"%string /\ h_count h = Some 7 /\ call_ids (h_groups h) = [1; 2; 4; 7; 3; 5; 6] /\
  match roll_back "c" 4 2 h with Rolled h' => call_ids (h_groups h') = [1; 2; 4; 3] /\ map fst (h_groups h') = [1; 2] | _ => False end.
Proof. vm_compute. auto. Qed.
Example C40_ordered_met : ordered (closed_file "c" (snd (f_close (fexec sz1 (ex_before ++ ex_after) (flog_init true))))).
Proof.
  destruct (close_FI sz1 (ex_before ++ ex_after) [] [] (flog_init true) (FI_init true)) as [d [s' [_ [E [HF He]]]]]; [vm_compute; discriminate|].
  rewrite E. eapply FI_ordered; eassumption.
Qed.

(** A run which went past the checkpoint and was closed: after rolling back, the file has exactly the optimizers and
    evaluations there were at the checkpoint, and the resumed run, whatever it does, raises nothing and ends with a file
    which has every evaluation of the two parts once, under consecutive numbers.  The counters of the manager and the
    log agree at the checkpoint, and no optimizer known at the checkpoint had its first evaluation after it. *)
Theorem C40_resume_partial : forall sz sum traj ops1 ops2 ops3 d1 d d3,
  let pre := ops1 ++ [FFlush None] in
  lives [] pre = Some d1 -> lives d1 ops2 = Some d -> evals (erase ops2) <> [] -> lives d1 ops3 = Some d3 ->
  let s1 := fexec sz pre (flog_init traj) in
  exists s' h', f_close (fexec sz ops2 s1) = (Ok tt, s') /\
  roll_back sum (length (evals (erase ops1))) (length d1) (closed_file sum s') = Rolled h' /\
  (forall i, nmemd i (h_groups h') = nmemd i d1 /\ (nmemd i d1 = true -> rows_of i (evals (erase ops1)) (rows_in i (h_groups h')))) /\
  ((forall i, nget i d1 = Some Ready -> f_table i s' = None) ->
   all_ok sz ops3 (resumed s1 h') /\
   exists s3, f_close (fexec sz ops3 (resumed s1 h')) = (Ok tt, s3) /\
   forall i, nmemd i d3 = true -> rows_of i (evals (erase (ops1 ++ ops3))) (rows_in i (f_groups s3))).
Proof.
  intros sz sum traj ops1 ops2 ops3 d1 d d3 pre H1 H2 Hne H3 s1.
  destruct (resumed_run sz sum traj ops1 ops2 ops3 d1 d d3 H1 H2 Hne H3) as [s' [h' [E1 [E2 H]]]]. exists s', h'. splits; auto.
  assert (Ev : evals (erase pre) = evals (erase ops1)) by (unfold pre; rewrite erase_app, evals_app; cbn; apply app_nil_r).
  destruct (rolled_rows sz sum traj pre ops2 d1 d H1 H2 Hne) as [s'' [h'' [E1' [E2' Hi]]]]. rewrite fexec_app in E1'. fold pre in E1. unfold s1 in E1.
  rewrite E1 in E1'. injection E1' as <-. rewrite Ev in *. rewrite E2 in E2'. injection E2' as <-. intro i. destruct (Hi i) as [A [B _]]. split; assumption.
Qed.
Print Assumptions C40_resume_partial.
Example C40_resume_met :
  let pre := ex_before ++ [FFlush None] in let s1 := fexec sz1 pre (flog_init true) in
  let d1 := [(1, Open 0); (2, Open 0)] in
  lives [] pre = Some d1 /\ lives d1 ex_after = Some [(1, Closed); (2, Open 0); (3, Open 0)] /\ evals (erase ex_after) <> [] /\
  lives d1 ex_again = Some [(1, Open 0); (2, Open 0); (3, Open 0)] /\ (forall i, nget i d1 <> Some Ready) /\
  match roll_back "c" 4 2 (closed_file "c" (snd (f_close (fexec sz1 ex_after s1)))) with
  | Rolled h' => call_ids (f_groups (snd (f_close (fexec sz1 ex_again (resumed s1 h'))))) = [1; 2; 4; 5; 3; 7; 6]
  | _ => False
  end.
Proof. cbv zeta. splits; try (vm_compute; (reflexivity || discriminate)). intro i. unfold dget. cbn. destruct (Nat.eqb_spec i 1); [discriminate|]. destruct (Nat.eqb_spec i 2); discriminate. Qed.

(** ** C40: where it does not hold *)
(** The counter is only written when the log is closed: after a crash there is nothing to compare with, and start_manager
    raises AttributeError (outside its try block), so the run cannot be resumed with its log file. *)
Theorem C40_crashed_run_refuted : exists ops1 ops2 d1,
  lives [] (ops1 ++ [FFlush None]) = Some d1 /\ lives d1 ops2 <> None /\ evals (erase ops1) <> [] /\
  roll_back "c" (length (evals (erase ops1))) (length d1)
    (dead_file "c" None (fexec sz1 (ops1 ++ [FFlush None] ++ ops2) (flog_init true))) = NoCounter.
Proof. exists ex_before, ex_after, [(1, Open 0); (2, Open 0)]. splits; try (vm_compute; (reflexivity || discriminate)). Qed.
Print Assumptions C40_crashed_run_refuted.

(** If an earlier session closed the file, a crash leaves its counter there: the file is past the checkpoint, but nothing
    is rolled back, and the resumed run uses numbers which are in the file already. *)
Theorem C40_stale_counter_refuted : exists old ops1 ops2 ops3 d1,
  old < length (evals (erase ops1)) /\ lives [] (ops1 ++ [FFlush None]) = Some d1 /\
  lives d1 (ops2 ++ [FFlush None]) <> None /\ lives d1 ops3 <> None /\
  let s1 := fexec sz1 (ops1 ++ [FFlush None]) (flog_init true) in
  let s2 := fexec sz1 (ops2 ++ [FFlush None]) s1 in
  exists h', roll_back "c" (length (evals (erase ops1))) (length d1) (dead_file "c" (Some old) s2) = Rolled h' /\
  all_ok sz1 ops3 (resumed s1 h') /\
  ~ NoDup (call_ids (f_groups (snd (f_close (fexec sz1 ops3 (resumed s1 h')))))).
Proof.
  exists 2, ex_before, [rr 2 5; rr 1 7], [rr 1 8], [(1, Open 0); (2, Open 0)]. splits; try (vm_compute; (lia || reflexivity || discriminate)).
  eexists. splits; [vm_compute; reflexivity| vm_compute; auto|].
  match goal with |- ~ NoDup ?l => let l' := eval vm_compute in l in change (~ NoDup l') end.
  intro H. apply (NoDup_count_occ Nat.eq_dec) with (x := 5) in H. vm_compute in H. lia.
Qed.
Print Assumptions C40_stale_counter_refuted.

(** Optimizers started after the checkpoint without a further evaluation: nothing is rolled back, and starting the next
    optimizer fails because its node exists. *)
Theorem C40_started_without_evaluation_refuted : exists ops1 ops2 ops3 d1,
  lives [] (ops1 ++ [FFlush None]) = Some d1 /\ lives d1 ops2 <> None /\ lives d1 ops3 <> None /\
  let s1 := fexec sz1 (ops1 ++ [FFlush None]) (flog_init true) in
  exists s' h', f_close (fexec sz1 ops2 s1) = (Ok tt, s') /\
  roll_back "c" (length (evals (erase ops1))) (length d1) (closed_file "c" s') = Rolled h' /\
  nmemd (S (length d1)) (h_groups h') = true /\ ~ all_ok sz1 ops3 (resumed s1 h').
Proof.
  exists ex_before, [FOp (AddOpt 3 "CMA" "t2")], [FOp (AddOpt 3 "GFLS" "t3")], [(1, Open 0); (2, Open 0)]. splits; try (vm_compute; (reflexivity || discriminate)).
  eexists. eexists. splits; [vm_compute; reflexivity| vm_compute; reflexivity| vm_compute; reflexivity|]. vm_compute. intros [H _]. discriminate.
Qed.
Print Assumptions C40_started_without_evaluation_refuted.

(** An optimizer which was started before the checkpoint but had its first evaluation after it: its table stays in the file, empty,
    with the columns of the abandoned run, so has_iter_history is true and the resumed run does not lay out its history in memory. *)
Theorem C40_leftover_table_refuted : exists ops1 ops2 i d1,
  lives [] (ops1 ++ [FFlush None]) = Some d1 /\ lives d1 ops2 <> None /\
  let s1 := fexec sz1 (ops1 ++ [FFlush None]) (flog_init true) in
  f_has_iter_history i s1 = false /\
  exists s' h', f_close (fexec sz1 ops2 s1) = (Ok tt, s') /\
  roll_back "c" (length (evals (erase ops1))) (length d1) (closed_file "c" s') = Rolled h' /\
  rows_in i (h_groups h') = [] /\ f_has_iter_history i (resumed s1 h') = true.
Proof.
  exists (ex_before ++ [FOp (AddOpt 3 "CMA" "t2")]), [FOp (AddHist 3 []); rr 3 6], 3, [(1, Open 0); (2, Open 0); (3, Ready)].
  splits; try (vm_compute; (reflexivity || discriminate)). cbv zeta. split; [vm_compute; reflexivity|]. eexists. eexists. splits; [vm_compute; reflexivity| vm_compute; reflexivity| vm_compute; reflexivity| vm_compute; reflexivity].
Qed.
Print Assumptions C40_leftover_table_refuted.

(** The manager counts an evaluation before the log does (_process_results 1470-1506), and the log may be saved while
    evaluations are still queued (C33): with a log one evaluation behind the manager, the number of the last evaluation kept in the file is used again. *)
Theorem C40_log_behind_refuted : exists ops1 missed ops2 ops3 d1,
  lives [] (ops1 ++ [FFlush None]) = Some d1 /\ evals (erase [missed]) <> [] /\ lives d1 (missed :: ops2) <> None /\ lives d1 ops3 <> None /\
  let s1 := fexec sz1 (ops1 ++ [FFlush None]) (flog_init true) in
  exists s' h', f_close (fexec sz1 (missed :: ops2) s1) = (Ok tt, s') /\
  roll_back "c" (S (length (evals (erase ops1)))) (length d1) (closed_file "c" s') = Rolled h' /\
  all_ok sz1 ops3 (resumed s1 h') /\
  ~ NoDup (call_ids (f_groups (snd (f_close (fexec sz1 ops3 (resumed s1 h')))))).
Proof.
  exists ex_before, (rr 2 5), [rr 1 6], [rr 1 8], [(1, Open 0); (2, Open 0)]. splits; try (vm_compute; (reflexivity || discriminate)).
  eexists. eexists. splits; [vm_compute; reflexivity| vm_compute; reflexivity| vm_compute; auto|].
  match goal with |- ~ NoDup ?l => let l' := eval vm_compute in l in change (~ NoDup l') end.
  intro H. apply (NoDup_count_occ Nat.eq_dec) with (x := 5) in H. vm_compute in H. lia.
Qed.
Print Assumptions C40_log_behind_refuted.

(** Every start writes a fresh checksum into the file (958-959): once a later session has opened the file, an earlier
    checkpoint is refused although the file contains everything it needs. *)
Theorem C40_older_checkpoint_refuted : exists ops1 ops2 d1 new,
  lives [] (ops1 ++ [FFlush None]) = Some d1 /\ lives d1 ops2 <> None /\
  roll_back "c" (length (evals (erase ops1))) (length d1)
    (closed_file new (snd (f_close (fexec sz1 (ops1 ++ [FFlush None] ++ ops2) (flog_init true))))) = BadChecksum.
Proof. exists ex_before, ex_after, [(1, Open 0); (2, Open 0)], "d"%string. splits; try (vm_compute; (reflexivity || discriminate)). Qed.
Print Assumptions C40_older_checkpoint_refuted.
