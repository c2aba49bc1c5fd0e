(** * C17 in resumed runs *)
From Coq Require Import Lia.
From Verif Require Import Prelude Prelude_Proofs Checkers_Model Selectors_Model Manager_Model Manager_Spec Manager_Proofs Manager_Props
  Restart_Model Resumed_Model Resumed_Spec Resumed_Props Wired_Spec Wired_Proofs Wired_Props NoCrash_Spec NoCrash_Props Budget_Proofs.
From Verif Require Core_Model.
Open Scope nat_scope.

(** A session without checkpoints that goes on from a checkpoint: the budget MaxFuncCalls(fm) covers the evaluations of all
    sessions and is overshot by the same amount at most, unless the checkpoint is beyond it already; then nothing is accepted. *)
Theorem C17_resumed g w kinds tree j fm K limit k builds conv c : no_checkpoints g w -> chunks_within w K -> checks_by kinds tree w ->
  (forall i, made (kinds i)) -> suffices tree j -> kinds j = MaxFuncCalls fm -> load g k builds conv = Ok c ->
  k_f (st_core (snd (resume g w limit k c))) <= Nat.max (k_f (ck_core k)) (Z.to_nat fm + 8 + K).
Proof.
  intros Hn HK Hc Hmade Hj Hk Hl.
  assert (Hc' : forall t c, exists b, w_check w t c = Ok b /\ (b = false -> k_f c < Z.to_nat fm)).
  { intros t c'. destruct (Hc t c') as (now & start & used & st & E). destruct (check_tree_fine kinds tree (seen c' now start used) Hmade st) as [b Eb].
    exists b. split; [congruence|]. intros ->. destruct (sufficient _ tree j _ Hj st Eb) as [p Hp]. unfold check_behav in Hp. rewrite Hk in Hp. cbn in Hp.
    injection Hp as Hp. unfold geZ in Hp. apply Z.leb_gt in Hp. lia. }
  assert (Hload : k_f c = k_f (ck_core k) /\ k_queue c = [] /\ k_chkpt c = false).
  { unfold load in Hl. destruct (restarts _ _); [|discriminate]. destruct (rebuild _ _ _); [|discriminate]. injection Hl as <-. cbn. auto. }
  destruct Hload as (H1 & H2 & H3). unfold resume.
  apply (budget g w limit (Z.to_nat fm) K Hn HK Hc'); [lia|]. unfold below, good, upto. cbn. rewrite H1, H2, H3. splits; [intros ch []|reflexivity|lia].
Qed.
Print Assumptions C17_resumed.
(** The bound is met: a checkpoint with one evaluation, MaxFuncCalls(2) and chunks of at most two, twelve in all. *)
Definition checkers17b (j : nat) : checker := match j with 1 => TargetCost (Fin (-1)) (Fin 0) | _ => MaxFuncCalls 2 end.
Definition w17c : world := mkW (w_moves w17) (w_intr w17) (w_err w17) (w_sel w17)
  (fun t c => fst (Core_Model.call _ _ (check_behav checkers17b) either88 (seen c 0%Q None 0%Q) check_init))
  (w_kill w17) (w_heads w17) (w_late w17) (w_full w17) (w_time_chk w17) (w_saved w17).
Definition c17c : core := match load g1 k87a (fun _ => true) false with Ok c => c | Err _ => st_core (fresh true) end.
Example C17_resumed_met : no_checkpoints g1 w17c /\ chunks_within w17c 2 /\ checks_by checkers17b either88 w17c /\
  (forall i, made (checkers17b i)) /\ suffices either88 2 /\ checkers17b 2 = MaxFuncCalls 2 /\ load g1 k87a (fun _ => true) false = Ok c17c /\
  k_f (ck_core k87a) = 1 /\ k_f (st_core (snd (resume g1 w17c 100 k87a c17c))) = 12 /\ Z.to_nat 2 + 8 + 2 = 12.
Proof.
  destruct overshoot_tight as (H1 & H2 & _). splits; [exact H1|exact H2|intros t c; eexists _, _, _, _; reflexivity| | |reflexivity|..].
  - intros [|[|i]]; exact I.
  - cbn. tauto.
  - vm_compute. reflexivity.
  - vm_compute. reflexivity.
  - vm_compute. reflexivity.
  - reflexivity.
Qed.
