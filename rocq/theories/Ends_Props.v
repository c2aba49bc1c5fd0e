(** * C85: The log says how and why every optimizer ended *)
From Verif Require Import Prelude Prelude_Proofs Logger_Model Logger_Spec Logger_Proofs Manager_Model Manager_Spec Manager_Proofs
     Manager_Trace Manager_Props Ends_Spec Ends_Proofs.

Lemma ended_logged i s : Ends_Proofs.ended i s -> exists v, end_logged i v (k_log (st_core s)).
Proof.
  intros [H1 H2]. destruct (get_metadata i "t_stop" (k_log (st_core s))) as [t|] eqn:E1; [|discriminate].
  destruct (get_metadata i "end_cond" (k_log (st_core s))) as [v|] eqn:E2; [|discriminate].
  exists v. split; [exists t; exact E1| exact E2].
Qed.

(** At the end of a run the log has an end for every optimizer that was started, with what is behind it: unless the run was
    disturbed and somebody pressed Ctrl-C. *)
Theorem C85_recorded g w limit r res s i : run g w limit true = (Ok (Some r, res), s) ->
  undisturbed r \/ (forall t, w_intr w t = false) -> In i (map fst (starts (st_hist s))) ->
  exists v, end_logged i v (k_log (st_core s)) /\ (end_cause g w (st_hist s) i v \/ v = closing r).
Proof.
  intros E Hr Hi. pose proof (run_ended g w limit (fun v => v = closing r) r res s eq_refl E) as Hx. destruct (Hx ltac:(tauto)) as [HW Ha].
  destruct (ended_logged i s (Ha i Hi)) as [v Hv]. exists v. split; [exact Hv|]. exact (e_cause _ _ _ _ _ _ _ HW i v (proj2 Hv)).
Qed.
Print Assumptions C85_recorded.

(** One Ctrl-C does no harm. *)
Theorem C85_interrupted g w limit res s i : run g w limit true = (Ok (Some RInterrupt, res), s) -> one_interrupt w ->
  In i (map fst (starts (st_hist s))) ->
  exists v, end_logged i v (k_log (st_core s)) /\ (end_cause g w (st_hist s) i v \/ v = "User Interrupt" \/ v = "GloMPO Convergence").
Proof.
  intros E Ho Hi. pose proof (run_ended g w limit (fun v => v = "User Interrupt" \/ v = "GloMPO Convergence") RInterrupt res s
    (or_introl eq_refl) E (or_intror (or_intror (conj eq_refl (conj Ho (or_intror eq_refl)))))) as [HW Ha].
  destruct (ended_logged i s (Ha i Hi)) as [v Hv]. exists v. split; [exact Hv|]. exact (e_cause _ _ _ _ _ _ _ HW i v (proj2 Hv)).
Qed.
Print Assumptions C85_interrupted.

(** At any moment of any run, a recorded end has something behind it. *)
Theorem C85_cause g w limit i v : let s := snd (run g w limit true) in get_metadata i "end_cond" (k_log (st_core s)) = Ok v ->
  end_cause g w (st_hist s) i v \/ v = "GloMPO Convergence" \/ v = "GloMPO Crash" \/ v = "User Interrupt".
Proof. intros s H. exact (e_cause _ _ _ _ _ _ _ (run_W g w limit) i v H). Qed.
Print Assumptions C85_cause.

(** Without checkpoints the log never credits the end of a stopped optimizer to the optimizer itself. *)
Theorem C85_stopped g w limit i v : no_checkpoints g w -> let s := snd (run g w limit true) in
  In i (kills (st_hist s)) -> get_metadata i "end_cond" (k_log (st_core s)) = Ok v ->
  In v ["GloMPO Termination"; "Forced GloMPO Termination"; "GloMPO Convergence"; "GloMPO Crash"; "User Interrupt"].
Proof.
  intros Hn s Hi Hv. destruct (e_killed _ _ _ _ _ _ _ (run_W g w limit) Hn i v Hi Hv) as [ -> | [ -> | [ -> | [ -> | -> ]]]]; cbn; tauto.
Qed.
Print Assumptions C85_stopped.

(** When the run was not disturbed, a stopped optimizer is recorded as terminated. *)
Theorem C85_stopped_done g w limit r res s i : no_checkpoints g w -> run g w limit true = (Ok (Some r, res), s) -> undisturbed r ->
  In i (kills (st_hist s)) ->
  exists v, end_logged i v (k_log (st_core s)) /\ (v = "GloMPO Termination" \/ v = "Forced GloMPO Termination").
Proof.
  intros Hn E Hu Hi. destruct (run_via g w limit no_text r res s E Hu) as (r0 & s2 & s3 & H1 & H2 & H3 & H4 & H5).
  pose proof (body_kills g w limit r0 s2 H1 H2 Hn) as H. rewrite H3 in H. rewrite H5 in Hi. rewrite H4. exact (H i Hi).
Qed.
Print Assumptions C85_stopped_done.

(** ** Examples *)
Definition ends_of (s : mstate) : list (nat * res string) :=
  map (fun i => (i, get_metadata i "end_cond" (k_log (st_core s)))) (map fst (starts (st_hist s))).
Definition gE : config := mkCfg 6 2 false false false true true false None false false.
(** Six optimizers: one reports its end, one gets a STOP file, one fails, one exits without a word, one is silent for too
    long, one is still running at the end. *)
Definition wE (intr : nat -> bool) (err : nat -> option exn) : world := mkW
  (fun t => match t with
     | 70 => [MSig 1 (SDone "ok"); MExit 1 0%Z; MFile "STOP_2"; MExit 3 1%Z; MExit 4 0%Z]
     | _ => [] end)
  intr err
  (fun t c n => Ok (if k_o c <? 6 then (if n =? 0 then SNone else SOpt (cfA 1)) else SFalse))
  (fun t c => Ok (220 <=? t)) (fun _ _ _ v => Ok false) (fun _ _ => Ok []) (fun t i => (60 <=? t) && (i =? 5))
  (fun _ => false) (fun _ => false) (fun _ _ => true).
Definition wE0 : world := wE (fun _ => false) (fun _ => None).
Lemma wE_quiet intr err : no_checkpoints gE (wE intr err).
Proof.
  split; [reflexivity|]. intros t H.
  do 71 (destruct t as [|t]; [cbn in H; repeat destruct H as [H|H]; try discriminate H; try contradiction|]). exact H.
Qed.

Example C85_recorded_met : exists res s, run gE wE0 600 true = (Ok (Some RChecker, res), s) /\ undisturbed RChecker /\
  ends_of s = [(1, Ok "ok"); (2, Ok "GloMPO Termination"); (3, Ok "Error termination");
               (4, Ok "Normal termination (Reason unknown)"); (5, Ok "Forced GloMPO Termination"); (6, Ok "GloMPO Convergence")].
Proof. do 2 eexists. split; [vm_compute; reflexivity|]. split; [left; reflexivity| vm_compute; reflexivity]. Qed.
(** A run that crashes while the fourth is started. *)
Example C85_recorded_crash_met : exists res s, run gE (wE (fun _ => false) (fun t => if t =? 16 then Some OSError else None)) 600 true =
    (Ok (Some (RCrash OSError), res), s) /\
  ends_of s = [(1, Ok "GloMPO Crash"); (2, Ok "GloMPO Crash"); (3, Ok "GloMPO Crash")].
Proof. do 2 eexists. split; vm_compute; reflexivity. Qed.
Example C85_interrupted_met : exists res s, run gE (wE (fun t => t =? 110) (fun _ => None)) 600 true = (Ok (Some RInterrupt, res), s) /\
  one_interrupt (wE (fun t => t =? 110) (fun _ => None)) /\
  ends_of s = [(1, Ok "ok"); (2, Ok "GloMPO Termination"); (3, Ok "Error termination");
               (4, Ok "Normal termination (Reason unknown)"); (5, Ok "User Interrupt"); (6, Ok "User Interrupt")].
Proof.
  do 2 eexists. split; [vm_compute; reflexivity|]. split; [|vm_compute; reflexivity].
  split; try discriminate. cbn. intros t t' H H'. apply Nat.eqb_eq in H, H'. congruence.
Qed.
Example C85_cause_met : let s := snd (run gE wE0 130 true) in get_metadata 4 "end_cond" (k_log (st_core s)) = Ok "Normal termination (Reason unknown)" /\
  is_ok (get_metadata 6 "end_cond" (k_log (st_core s))) = false.
Proof. vm_compute. split; reflexivity. Qed.
Example C85_stopped_met : exists res s, no_checkpoints gE wE0 /\ run gE wE0 600 true = (Ok (Some RChecker, res), s) /\ In 2 (kills (st_hist s)).
Proof. do 2 eexists. split; [apply wE_quiet|]. split; [vm_compute; reflexivity| left; reflexivity]. Qed.

(** ** What does not hold *)
(** Pressing Ctrl-C again, while the run is being closed, leaves the log without an end of optimizers that were running. *)
Theorem C85_two_interrupts_refuted : exists g w res s, run g w 600 true = (Ok (Some RInterrupt, res), s) /\ starts (st_hist s) <> [] /\
  Forall (fun p => snd p = Err KeyError) (ends_of s).
Proof.
  pose (w := wE (fun t => (t =? 42) || (t =? 50)) (fun _ => None)).
  exists gE, w, (mkR None None None None), (snd (run gE w 600 true)).
  split; [vm_compute; reflexivity|]. split; [vm_compute; discriminate|]. vm_compute. repeat constructor.
Qed.
Print Assumptions C85_two_interrupts_refuted.

(** With checkpoints the message of a stopped optimizer replaces the record that it was stopped. *)
Theorem C85_stopped_refuted : exists g w limit i, let s := snd (run g w limit true) in In i (kills (st_hist s)) /\
  get_metadata i "end_cond" (k_log (st_core s)) = Ok "converged".
Proof.
  exists gB, (wB 8 18 [MFile "STOP_1"; MCheckpointFile; MPush [ev 1 2 2]] [MSig 1 (SDone "converged")]), 60, 1.
  vm_compute. split; [left|]; reflexivity.
Qed.
Print Assumptions C85_stopped_refuted.
