(** * By which exceptions a run can end as a crash (C18) *)
From Verif Require Import Prelude Prelude_Proofs Logger_Model Logger_Spec Logger_Proofs Manager_Model Manager_Spec Crash_Spec
     Manager_Proofs Manager_Trace Manager_Safe Manager_Methods Manager_Props Manager_Props2.

(** Histories retained, and nothing but the children goes wrong.  Whatever the settings and whatever the children do, a run
    ends as a crash only by one of five exceptions: the complaint about optimizers which cannot be started or fail
    (RuntimeError, also raised for an unexpected signal at a checkpoint), a message to an optimizer which has just gone
    (OSError), and at checkpoints a reply awaited from one (EOFError), a results queue not yet empty (AssertionError) or a
    missing restart file (CheckpointingError).  The manager's own tables never miss an entry (KeyError, IndexError). *)
Theorem C18_crash_causes g w limit e x : orderly w -> fst (run g w limit true) = Ok (Some (RCrash e), x) ->
  In e [RuntimeError; OSError; EOFError; AssertionError; CheckpointingError].
Proof.
  intros Hw He.
  destruct (crash_reason g w limit (fun e => In e [OSError; EOFError; AssertionError; CheckpointingError]) Hw) with (e := e) (x := x) as [H|H].
  - right. cbn. auto.
  - right. cbn. splits; auto.
  - exact He.
  - subst e. left. reflexivity.
  - right. exact H.
Qed.
Print Assumptions C18_crash_causes.

(** A missing restart file ends the run only if the user asked for that. *)
Theorem C18_restart_files g w limit e x : orderly w -> g_raise_fail g = false -> fst (run g w limit true) = Ok (Some (RCrash e), x) ->
  e <> CheckpointingError.
Proof.
  intros Hw Hr He.
  destruct (crash_reason g w limit (fun e => In e [OSError; EOFError; AssertionError]) Hw) with (e := e) (x := x) as [H|H].
  - right. cbn. auto.
  - right. cbn. splits; auto. congruence.
  - exact He.
  - congruence.
  - cbn in H. intros ->. repeat destruct H as [H|H]; try discriminate H. exact H.
Qed.
Print Assumptions C18_restart_files.

(** Without checkpoints two exceptions remain. *)
Theorem C18_crash_causes_no_checkpoints g w limit e x : orderly w -> no_checkpoints g w ->
  fst (run g w limit true) = Ok (Some (RCrash e), x) -> e = RuntimeError \/ e = OSError.
Proof.
  intros Hw Hn He. apply (crash_reason g w limit (fun e => e = OSError) Hw) with (x := x); auto.
Qed.
Print Assumptions C18_crash_causes_no_checkpoints.

(** If in addition no messages are sent to optimizers, only the deliberate one. *)
Theorem C18_crash_causes_wordless g w limit e x : orderly w -> wordless g w -> no_checkpoints g w ->
  fst (run g w limit true) = Ok (Some (RCrash e), x) -> e = RuntimeError.
Proof.
  intros Hw Hs Hn He. destruct (crash_reason g w limit (fun _ => False) Hw) with (e := e) (x := x) as [H|[]]; auto.
Qed.
Print Assumptions C18_crash_causes_wordless.

Definition crash (r : res (option reason * result) * mstate) : option exn :=
  match fst r with Ok (Some (RCrash e), _) => Some e | _ => None end.
Definition wC (m : nat -> list move) (saved : bool) : world := mkW m
  (fun _ => false) (fun _ => None)
  (fun t c n => Ok (if (k_o c =? 0) && (1 <=? n) then SOpt (cfA 1) else SFalse))
  (fun t c => Ok (1 <=? k_hunts c)) (fun _ _ _ v => Ok true) (fun _ _ => Ok []) (fun _ _ => false)
  (fun _ => false) (fun _ => false) (fun _ _ => saved).
Lemma wC_orderly m b : orderly (wC m b).
Proof. split; cbn; try (intros; discriminate). reflexivity. Qed.
Definition at_ (l : list (nat * list move)) (t : nat) : list move := match nget t l with Some m => m | None => [] end.
Definition gR : config := mkCfg 1 2 false false false true false true None false true.

Definition chk_ (l : list (nat * list move)) : nat -> list move := at_ ((8, [MCheckpointFile]) :: l).

(** All five occur: the optimizer goes between the manager's question whether it is alive and the request to pause, or while
    its reply is awaited; its last evaluations arrive late; its restart file is missing; its reply is not understood. *)
Example C18_crash_causes_met : forall m b, orderly (wC m b) /\
  crash (run gB (wC (chk_ [(14, [MExit 1 0%Z])]) true) 200 true) = Some OSError /\
  crash (run gB (wC (chk_ [(17, [MExit 1 0%Z])]) true) 200 true) = Some EOFError /\
  crash (run gB (wC (chk_ [(17, [MSig 1 SPaused; MHold 1]); (19, [MPush [ev 1 2 2]])]) true) 200 true) = Some AssertionError /\
  crash (run gR (wC (chk_ [(17, [MSig 1 SPaused; MHold 1])]) false) 200 true) = Some CheckpointingError /\
  crash (run gB (wC (chk_ [(17, [MSig 1 SOther])]) true) 200 true) = Some RuntimeError.
Proof. intros m b. split; [apply wC_orderly|]. vm_compute. repeat split; reflexivity. Qed.
(** The same missing file without that wish: the run goes on. *)
Example C18_restart_files_met : g_raise_fail gB = false /\
  crash (run gB (wC (chk_ [(17, [MExit 1 0%Z])]) false) 200 true) = Some EOFError /\
  crash (run gB (wC (chk_ [(17, [MSig 1 SPaused; MHold 1])]) false) 200 true) = None.
Proof. vm_compute. repeat split; reflexivity. Qed.
Example C18_no_checkpoints_met : orderly w18b /\ no_checkpoints g2k w18b /\ crash (run g2k w18b 100 true) = Some OSError /\
  orderly w18c /\ no_checkpoints g1 w18c /\ wordless g1 w18c /\ crash (run g1 w18c 100 true) = Some RuntimeError.
Proof.
  destruct runtime_error as [H _].
  assert (H1 : orderly w18b) by (split; cbn; [reflexivity|intros; discriminate..]).
  assert (H2 : no_checkpoints g2k w18b).
  { split; [reflexivity|]. intros t Ht. cbn [w_moves w18b] in Ht.
    destruct (t =? 14); [|destruct (t =? 17)]; cbn in Ht; repeat destruct Ht as [Ht|Ht]; try discriminate Ht; exact Ht. }
  assert (H3 : orderly w18c) by (split; try apply H; intros t c i j e0 _ _ _ _; apply H).
  assert (H4 : wordless g1 w18c) by (split; apply H).
  refine (conj H1 (conj H2 (conj _ (conj H3 (conj (bn_chk _ _ H) (conj H4 _)))))); vm_compute; reflexivity.
Qed.

(** C15: a run with a checkpoint on request, told to stop, ends normally. *)
Definition g15 : config := mkCfg 1 2 false false false true false false None false false.
Definition w15c : world := mkW (chk_ [(17, [MSig 1 SPaused; MHold 1]); (27, [MPush [ev 1 1 2]])])
  (fun _ => false) (fun _ => None)
  (fun t c n => Ok (if (k_o c =? 0) && (1 <=? n) then SOpt (cfA 1) else SFalse))
  (fun t c => Ok (1 <=? k_f c)) (fun _ _ _ v => Ok true) (fun _ _ => Ok []) (fun _ _ => false)
  (fun _ => false) (fun _ => false) (fun _ _ => true).
Example C15_told_to_stop_met : let s := snd (run g15 w15c 200 true) in g_chk g15 = false /\
  fst (run g15 w15c 200 true) = Ok (Some RChecker, mkR (Some [Fin 1]) (Some (Fin 2)) (Some (1, 1, 0, 0)) (Some (1, "A"))) /\
  In EvSaveManager (map snd (st_hist s)) /\
  exists h1 c h2, st_hist s = h1 ++ (c, EvJudge true false) :: h2 /\ verdict c true false = true.
Proof.
  cbv zeta. splits; try (vm_compute; reflexivity).
  - occurs.
  - pose (h := st_hist (snd (run g15 w15c 200 true))). exists (firstn 2 h), (fst (nth 2 h (st_core (fresh true), EvEnd))), (skipn 3 h).
    split; vm_compute; reflexivity.
Qed.
