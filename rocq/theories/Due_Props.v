(** * C86: Checkpoints are made when they are due or asked for, and only then *)
From Verif Require Import Prelude Prelude_Proofs Logger_Model Manager_Model Manager_Spec Manager_Proofs Manager_Trace Manager_Props
     Due_Spec Due_Proofs.
From Coq Require Import Lia.
Open Scope nat_scope.

(** Without checkpointing control and requests no optimizer is paused and nothing is written. *)
Theorem C86_none g w limit traj p : no_checkpoints g w -> In p (st_hist (snd (run g w limit traj))) -> of_checkpoint (snd p) = false.
Proof. intros H. apply (none_run g w limit H (fresh traj)). split; [reflexivity| intros q []]. Qed.
Print Assumptions C86_none.

(** Without checkpointing control there are no more checkpoints than CHKPT files were placed. *)
Theorem C86_requested g w limit traj : g_chk g = false -> let s := snd (run g w limit traj) in
  length (saves (st_hist s)) <= asked w (k_tick (st_core s)).
Proof.
  intros H s. pose proof (answered_run g w limit H (fresh traj)) as A. unfold answered in A. fold (run g w limit traj) in A.
  assert (X : length (saves (st_hist (fresh traj))) + b2n (k_chkpt (st_core (fresh traj))) <= asked w (k_tick (st_core (fresh traj)))) by (cbn; lia).
  specialize (A X). fold s in A. lia.
Qed.
Print Assumptions C86_requested.

(** A CHKPT file that is there when a turn of the loop begins leads to a checkpoint in that turn. *)
Theorem C86_request g w limit traj c1 mid c0 h0 : (forall t, w_err w t <> Some CheckpointingError) ->
  one_turn (st_hist (snd (run g w limit traj))) c1 mid c0 h0 -> k_chkpt c0 = true -> saves mid <> [].
Proof.
  intros Hw. revert c1 mid c0 h0.
  apply (start_turns g w limit (fun c1 mid c0 h0 => k_chkpt c0 = true -> saves mid <> []) (fun _ => True)); auto.
  intros s b s' new _ E En Hk Hn. pose proof (iteration_request g w limit s Hw Hk s eq_refl) as H. rewrite E in H.
  rewrite En, saves_app, Hn in H. change (saves (st_hist (turned s))) with (saves (st_hist s)) in H. cbn [app] in H. lia.
Qed.
Print Assumptions C86_request.

(** Checkpoints by number of evaluations: after every turn of the loop a checkpoint was just made, or no more than that
    many evaluations were registered since the last one. *)
Theorem C86_due g w limit traj n c1 mid c0 h0 : g_chk g = true -> by_count g w n -> (forall t, w_err w t <> Some CheckpointingError) ->
  one_turn (st_hist (snd (run g w limit traj))) c1 mid c0 h0 -> saves mid <> [] \/ k_f c1 <= last_saved h0 + n.
Proof.
  intros Hg Hb Hw. revert c1 mid c0 h0. assert (Hf : forall t, ~ In MCheckpointFile (w_moves w t)) by apply Hb.
  apply (start_turns g w limit (fun c1 mid c0 h0 => saves mid <> [] \/ k_f c1 <= last_saved h0 + n) cnt).
  - intros s s' H. apply (cnt_inner w _ _ Hf). eapply rl_weak; [exact plain_inner| exact H].
  - intros s b [A B]. split; assumption.
  - intros s b s' Hs E. pose proof (iteration_due g w limit n s Hg Hb Hw Hs s eq_refl) as H. rewrite E in H. apply H.
  - intros s b s' new Hs E En. pose proof (iteration_due g w limit n s Hg Hb Hw Hs s eq_refl) as H. rewrite E in H.
    destruct H as [_ [H|H]]; [left| right; exact H]. intro X. apply H. rewrite En, saves_app, X. reflexivity.
  - split; reflexivity.
  - reflexivity.
Qed.
Print Assumptions C86_due.

(** ... and from one checkpoint to the next more than that many evaluations were registered. *)
Theorem C86_spaced g w limit traj n a b : by_count g w n -> next_to (saves (st_hist (snd (run g w limit traj)))) a b -> k_f b + n < k_f a.
Proof.
  intros Hb. apply (sp_next n). apply (spaced_run g w limit n Hb (fresh traj)). split; cbn; auto; try discriminate; try contradiction.
  - intros x y ([|z l1] & l2 & E); discriminate E.
  - intros [|x h1] c h2 E; discriminate E.
Qed.
Print Assumptions C86_spaced.

(** With checkpoint_at_conv a run that ends by itself ends with a checkpoint of the converged manager: no turn of the loop
    follows. *)
Theorem C86_at_convergence g w limit traj r x s : g_chk g = true -> g_at_conv g = true -> (forall t, w_err w t <> Some CheckpointingError) ->
  run g w limit traj = (Ok (Some r, x), s) -> r <> RInterrupt -> (forall e, r <> RCrash e) ->
  exists h1 c h0, st_hist s = h1 ++ (c, EvSaveLog) :: h0 /\ k_converged c = true /\ begins h1 = [].
Proof. intros Hg Ha Hw E Hi Hc. exact (start_final g w limit _ _ _ _ Hg Ha Hw E Hi Hc). Qed.
Print Assumptions C86_at_convergence.

(** ** Examples *)
(** One optimizer that sends two evaluations at a time and pauses when asked to; more than three evaluations make a
    checkpoint due. *)
Definition gD (chk at_conv : bool) : config := mkCfg 1 2 false false false true false chk (Some 3) at_conv false.
Definition wD (l : nat -> list move) (time : nat -> bool) : world := mkW
  (fun t => (if t mod 20 =? 10 then [MPush [ev 1 2 2; ev 1 3 2]] else []) ++ MSig 1 SPaused :: MHold 1 :: l t)
  (fun _ => false) (fun _ => None)
  (fun t c n => Ok (if (k_o c =? 0) && (1 <=? n) then SOpt (cfA 1) else SFalse))
  (fun t c => Ok (20 <=? k_f c)) (fun _ _ _ v => Ok true) (fun _ _ => Ok []) (fun _ _ => false)
  (fun _ => false) time (fun _ _ => true).
Definition wD0 : world := wD (fun _ => []) (fun _ => false).
Definition files (t : nat) : list move := if t =? 40 then [MCheckpointFile; MCheckpointFile] else if t =? 60 then [MCheckpointFile] else [].
Definition wD1 : world := wD files (fun _ => false).
Lemma wD0_files : forall t, ~ In MCheckpointFile (w_moves wD0 t).
Proof.
  intros t H. unfold wD0, wD in H. cbn [w_moves] in H. apply in_app_iff in H as [H|H]; [destruct (_ =? _)|]; cbn in H; intuition discriminate.
Qed.

Example C86_none_met : no_checkpoints (gD false false) wD0 /\ length (st_hist (snd (run (gD false false) wD0 800 true))) = 57 /\
  k_f (st_core (snd (run (gD false false) wD0 800 true))) = 20.
Proof. split; [split; [reflexivity| exact wD0_files]|]. vm_compute. split; reflexivity. Qed.
Example C86_requested_met : let s := snd (run (gD false false) wD1 800 true) in
  length (saves (st_hist s)) = 2 /\ asked wD1 (k_tick (st_core s)) = 3.
Proof. vm_compute. split; reflexivity. Qed.
Example C86_request_met : exists c1 mid c0 h0, one_turn (st_hist (snd (run (gD false false) wD1 800 true))) c1 mid c0 h0 /\
  k_chkpt c0 = true /\ map k_tick (saves mid) = [51].
Proof.
  pose (h := st_hist (snd (run (gD false false) wD1 800 true))). pose (d := (st_core (fresh true), EvEnd)).
  exists (fst (nth 38 h d)), (firstn 8 (skipn 39 h)), (fst (nth 47 h d)), (skipn 48 h).
  split; [exists (firstn 38 h); split; vm_compute; reflexivity|]. vm_compute. split; reflexivity.
Qed.
Example C86_due_met : by_count (gD true false) wD0 3 /\
  map k_f (saves (st_hist (snd (run (gD true false) wD0 800 true)))) = [20; 16; 12; 8; 4] /\
  map k_f (begins (st_hist (snd (run (gD true false) wD0 800 true)))) = [18; 14; 14; 10; 6; 6; 2; 0; 0].
Proof. split; [repeat split; exact wD0_files|]. vm_compute. split; reflexivity. Qed.
Example C86_spaced_met : by_count (gD true false) wD0 3 /\ exists a b, next_to (saves (st_hist (snd (run (gD true false) wD0 800 true)))) a b.
Proof.
  split; [apply C86_due_met|]. destruct (saves _) as [|a [|b l]] eqn:E; try (vm_compute in E; discriminate E). exists a, b, [], l. reflexivity.
Qed.
Example C86_at_convergence_met : let '(r, s) := run (gD true true) wD0 800 true in
  match r with Ok (Some RChecker, _) => True | _ => False end /\ map (fun c => (k_f c, k_converged c)) (saves (st_hist s)) =
  [(22, true); (20, true); (16, false); (12, false); (8, false); (4, false)].
Proof. vm_compute. split; [exact I| reflexivity]. Qed.

(** ** What does not hold *)
(** A checkpoint on request does not count: the next one that is due by number of evaluations follows after two. *)
Theorem C86_spaced_refuted : exists g w limit n a b, g_iter_freq g = Some n /\ g_at_conv g = false /\ (forall t, w_time_chk w t = false) /\
  next_to (saves (st_hist (snd (run g w limit true)))) a b /\ k_f a <= k_f b + n.
Proof.
  exists (gD true false), wD1, 800, 3. remember (saves (st_hist (snd (run (gD true false) wD1 800 true)))) as l eqn:E.
  destruct l as [|c1 [|c2 [|c3 [|c4 [|c5 l]]]]]; try (vm_compute in E; discriminate E).
  exists c4, c5. repeat split; [exists [c1; c2; c3], l; reflexivity|].
  vm_compute in E. injection E as -> -> -> -> -> ->. apply Nat.leb_le. vm_compute. reflexivity.
Qed.
Print Assumptions C86_spaced_refuted.

(** The turn in which convergence is found may end with a checkpoint, and then checkpoint_at_conv makes another one. *)
Theorem C86_at_convergence_once_refuted : exists g w limit a b, g_chk g = true /\ g_at_conv g = true /\
  next_to (saves (st_hist (snd (run g w limit true)))) a b /\ k_converged a = true /\ k_converged b = true.
Proof.
  exists (gD true true), wD0, 800. remember (saves (st_hist (snd (run (gD true true) wD0 800 true)))) as l eqn:E.
  destruct l as [|c1 [|c2 l]]; try (vm_compute in E; discriminate E).
  exists c1, c2. split; [reflexivity|]. split; [reflexivity|]. split; [exists [], l; reflexivity|].
  vm_compute in E. injection E as -> -> ->. split; reflexivity.
Qed.
Print Assumptions C86_at_convergence_once_refuted.
