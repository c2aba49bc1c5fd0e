(** * C36: a checkpoint being overwritten is not lost *)
From Verif Require Import Prelude Prelude_Proofs ChkFiles_Model.

(** A complete copy of the earlier checkpoint [v], or the complete new one [n] in its place. *)
Definition safe (v n : nat) (d : disk) : Prop :=
  d_tar d = Some (Whole v) \/ d_ovw d = Some (Whole v) \/ d_tar d = Some (Whole n).
(** Some complete archive. *)
Definition readable (d : disk) : Prop := exists k, d_tar d = Some (Whole k) \/ d_ovw d = Some (Whole k).

Definition held (v n : nat) (m : machine) : Prop :=
  let d := m_disk m in
  match m_at m with
  | AtMkdir | AtLog | AtHistory | AtParts | AtExists | AtReplace => d_tar d = Some (Whole v) /\ m_exc m = None
  | AtOpen => d_tar d = None /\ d_ovw d = Some (Whole v) /\ m_ovw m = true /\ m_exc m = None
  | AtWrite | AtRestore => d_ovw d = Some (Whole v) /\ m_ovw m = true /\ m_exc m = None
  | AtCleanUp => d_tar d = Some (Whole n) /\ m_exc m = None
  | AtHandler => d_tar d = Some (Whole v) /\ m_exc m = Some FCheckpointing
  | AtRmtree | AtUnlink => d_tar d = Some (Whole v) \/ d_tar d = Some (Whole n) \/ (m_exc m = Some FOther /\ d_ovw d = Some (Whole v))
  | AtEnd o => d_tar d = Some (Whole v) \/ d_tar d = Some (Whole n) \/ o = Some FOther
  end.
Lemma held_step strict v n c m m' : c <> Sweep -> held v n m -> step strict n c m = Some m' -> held v n m'.
Proof.
  intros Hc H. destruct m as [p o e [ta ov di hi]]. unfold held, step in *. cbn [m_at m_disk m_ovw m_exc d_tar d_ovw] in *.
  destruct p; destruct c as [|[]|]; try congruence; try discriminate; cbn in *;
    repeat match goal with H0 : _ /\ _ |- _ => destruct H0 end; subst; cbn;
    try (intros [= <-]; cbn; auto; fail); try (destruct strict; intros [= <-]; cbn; auto; fail);
    try (destruct ta; intros [= <-]; cbn; auto; fail); try (destruct ov; intros [= <-]; cbn; auto; fail).
  intros [= <-]. cbn. destruct H as [H|[H|[H _]]]; auto.
Qed.
Lemma held_steps strict v n cs : ~ In Sweep cs -> forall m m', held v n m -> steps strict n cs m = Some m' -> held v n m'.
Proof.
  induction cs as [|c cs IH]; cbn; intros Hs m m' H E; [injection E as <-; exact H|].
  destruct (step strict n c m) as [m1|] eqn:E1; [|discriminate]. eapply IH; [tauto| |exact E]. eapply held_step; [|exact H| exact E1]. intros ->. tauto.
Qed.

(** Whenever the process dies - after any number of steps, whatever failed before - the old archive or the complete new
    one is there; the only exception is a call that was left by an exception other than TarError and
    CheckpointingError.  Missing for the property: that exception, deletion by keep_past (C35), and a second attempt
    after the death. *)
Theorem C36_survives_death_partial strict v n cs d m : d_tar d = Some (Whole v) -> ~ In Sweep cs -> steps strict n cs (start d) = Some m ->
  safe v n (m_disk m) \/ m_at m = AtEnd (Some FOther).
Proof.
  intros Hd Hs E. assert (H : held v n m) by (eapply held_steps; [exact Hs| |exact E]; split; [exact Hd| reflexivity]).
  unfold safe. unfold held in H. destruct (m_at m); try tauto.
  destruct H as [H|[H| ->]]; auto.
Qed.
Print Assumptions C36_survives_death_partial.
Example C36_survives_death_met : exists d m, d_tar d = Some (Whole 1) /\ ~ In Sweep [Go; Go; Go; Go; Go; Go; Go] /\
  steps false 2 [Go; Go; Go; Go; Go; Go; Go] (start d) = Some m /\ m_at m = AtWrite /\ d_tar (m_disk m) = Some Torn /\ d_ovw (m_disk m) = Some (Whole 1).
Proof. eexists (mkDisk (Some (Whole 1)) None false true), _. splits; [reflexivity| cbn; intuition discriminate| vm_compute; reflexivity..]. Qed.

(** When the call is over without such an exception the archive is complete: the new one if everything succeeded, else
    the old one. *)
Theorem C36_survives_handled_failure strict v n cs d m o : d_tar d = Some (Whole v) -> ~ In Sweep cs -> steps strict n cs (start d) = Some m ->
  m_at m = AtEnd o -> o <> Some FOther -> d_tar (m_disk m) = Some (Whole v) \/ d_tar (m_disk m) = Some (Whole n).
Proof.
  intros Hd Hs E Ha Ho. assert (H : held v n m) by (eapply held_steps; [exact Hs| |exact E]; split; [exact Hd| reflexivity]).
  unfold held in H. rewrite Ha in H. tauto.
Qed.
Print Assumptions C36_survives_handled_failure.
Example C36_survives_handled_failure_met : exists m, let d := mkDisk (Some (Whole 1)) None false true in
  let cs := [Go; Go; Go; Go; Go; Go; Go; Fail FTar; Go; Go; Go; Go] in
  d_tar d = Some (Whole 1) /\ ~ In Sweep cs /\ steps true 2 cs (start d) = Some m /\ m_at m = AtEnd (Some FCheckpointing) /\ d_tar (m_disk m) = Some (Whole 1).
Proof. eexists. cbv zeta. splits; [reflexivity| cbn; intuition discriminate| vm_compute; reflexivity..]. Qed.

(** Failure and no copy: if anything but a TarError happens while the archive is written (disk full, Ctrl-C), the finally
    block deletes the earlier checkpoint and leaves the torn one. *)
Theorem C36_lost_on_other_failure_refuted : exists cs d m, d_tar d = Some (Whole 1) /\ ~ In Sweep cs /\ steps false 2 cs (start d) = Some m /\
  m_at m = AtEnd (Some FOther) /\ m_disk m = mkDisk (Some Torn) None false true.
Proof.
  eexists [Go; Go; Go; Go; Go; Go; Go; Fail FOther; Go; Go], (mkDisk (Some (Whole 1)) None false true), _.
  splits; [reflexivity| cbn; intuition discriminate| vm_compute; reflexivity..].
Qed.
Print Assumptions C36_lost_on_other_failure_refuted.

(** Nobody reads or restores _overwriting_chkpt.tar.gz.  A process dies while writing; the next one moves the torn archive
    over the good copy and dies, too. *)
Theorem C36_lost_by_second_death_refuted : exists cs cs' d d', d_tar d = Some (Whole 1) /\ lives false [(2, cs)] d = Some d' /\ readable d' /\
  exists d'', lives false [(2, cs); (3, cs')] d = Some d'' /\ ~ readable d''.
Proof.
  eexists [Go; Go; Go; Go; Go; Go; Go], [Go; Go; Go; Go; Go; Go], (mkDisk (Some (Whole 1)) None false true), _.
  splits; [reflexivity| vm_compute; reflexivity| exists 1; cbn; auto|].
  eexists. split; [vm_compute; reflexivity|]. intros [k [H|H]]; cbn in H; discriminate.
Qed.
Print Assumptions C36_lost_by_second_death_refuted.
(** ... or the next one fails properly with a CheckpointingError and deletes the good copy. *)
Theorem C36_lost_by_next_failure_refuted : exists cs cs' d d', d_tar d = Some (Whole 1) /\ lives false [(2, cs)] d = Some d' /\ readable d' /\
  exists m, steps false 3 cs' (start d') = Some m /\ m_at m = AtEnd None /\ ~ readable (m_disk m).
Proof.
  eexists [Go; Go; Go; Go; Go; Go], [Go; Go; Go; Fail FCheckpointing; Go; Go; Go], (mkDisk (Some (Whole 1)) None false true), _.
  splits; [reflexivity| vm_compute; reflexivity| exists 1; cbn; auto|].
  eexists. splits; [vm_compute; reflexivity..|]. intros [k [H|H]]; cbn in H; discriminate.
Qed.
Print Assumptions C36_lost_by_next_failure_refuted.

(** Through any number of processes, as long as none dies between the renaming and the end of its call and no other
    exception escapes, the last complete archive stays. *)
Definition orderly (r : nat * list choice) : Prop :=
  ~ In Sweep (snd r) /\ forall strict d m, steps strict (fst r) (snd r) (start d) = Some m ->
    match m_at m with AtMkdir | AtLog | AtHistory | AtParts | AtExists | AtReplace => True | AtEnd o => o <> Some FOther | _ => False end.
Theorem C36_orderly_processes strict runs d d' v : d_tar d = Some (Whole v) -> (forall r, In r runs -> orderly r) -> lives strict runs d = Some d' ->
  exists k, d_tar d' = Some (Whole k) /\ (k = v \/ In k (map fst runs)).
Proof.
  revert d v. induction runs as [|[n cs] runs IH]; cbn [lives]; intros d v Hd Hr E; [injection E as <-; eauto|].
  destruct (steps strict n cs (start d)) as [m|] eqn:E1; [|discriminate].
  destruct (Hr (n, cs) (or_introl eq_refl)) as [Hs Hm]. cbn [fst snd] in *. specialize (Hm strict d m E1).
  assert (H : held v n m) by (eapply held_steps; [exact Hs| |exact E1]; split; [exact Hd| reflexivity]).
  assert (Hk : exists k, d_tar (m_disk m) = Some (Whole k) /\ (k = v \/ k = n)).
  { unfold held in H. destruct (m_at m); try tauto; try (destruct H; eauto; fail). destruct H as [H|[H|H]]; eauto. congruence. }
  destruct Hk as [k [Hk Hkv]]. destruct (IH (m_disk m) k Hk (fun r Hi => Hr r (or_intror Hi)) E) as [j [Hj Hjk]].
  exists j. split; [exact Hj|]. cbn [map fst In]. intuition congruence.
Qed.
Print Assumptions C36_orderly_processes.
Definition fine : list choice := [Go; Go; Go; Go; Go; Go; Go; Go; Go; Go; Go].
Definition early : list choice := [Go; Go; Go; Go].
Example C36_orderly_processes_met : (forall r, In r [(2, fine); (3, early)] -> orderly r) /\
  lives false [(2, fine); (3, early)] (mkDisk (Some (Whole 1)) None false true) = Some (mkDisk (Some (Whole 2)) None true true).
Proof.
  split; [|vm_compute; reflexivity]. intros r [<-|[<-|[]]]; (split; [cbn; intuition discriminate|]); cbn [fst snd]; intros strict [[ta|] ov di hi] m; cbn;
    intros [= <-]; cbn; auto; discriminate.
Qed.

(** The history only names archives which are complete when the call is over ... *)
Definition listed (n : nat) (m : machine) : Prop :=
  let d := m_disk m in
  match m_at m with
  | AtMkdir | AtLog | AtHistory => d_hist d = false /\ m_exc m = None
  | AtCleanUp => d_tar d = Some (Whole n) /\ m_exc m = None
  | AtRmtree | AtUnlink => d_hist d = true -> d_tar d = Some (Whole n) \/ m_exc m = Some FOther
  | AtHandler => m_exc m = Some FCheckpointing
  | AtEnd o => d_hist d = true -> d_tar d = Some (Whole n) \/ o = Some FOther
  | _ => m_exc m = None
  end.
Lemma listed_step strict n c m m' : c <> Sweep -> listed n m -> step strict n c m = Some m' -> listed n m'.
Proof.
  intros Hc H. destruct m as [p o e [ta ov di hi]]. unfold listed, step in *. cbn [m_at m_disk m_ovw m_exc d_tar d_ovw d_hist] in *.
  destruct p; destruct c as [|[]|]; try congruence; try discriminate; cbn in *; repeat match goal with H0 : _ /\ _ |- _ => destruct H0 end;
    try (intros [= <-]; cbn; auto; intros; congruence); try (destruct strict; intros [= <-]; cbn; auto; intros; congruence);
    try (destruct ta; intros [= <-]; cbn; auto; fail); try (destruct ov; intros [= <-]; cbn; auto; fail); try (destruct o; intros [= <-]; cbn; auto; fail).
Qed.
Lemma listed_steps strict n cs : ~ In Sweep cs -> forall m m', listed n m -> steps strict n cs m = Some m' -> listed n m'.
Proof.
  induction cs as [|c cs IH]; cbn; intros Hs m m' H E; [injection E as <-; exact H|].
  destruct (step strict n c m) as [m1|] eqn:E1; [|discriminate]. eapply IH; [tauto| |exact E]. eapply listed_step; [|exact H| exact E1]. intros ->. tauto.
Qed.
Theorem C36_history_names_complete_archives strict n cs d m o : d_hist d = false -> ~ In Sweep cs -> steps strict n cs (start d) = Some m ->
  m_at m = AtEnd o -> o <> Some FOther -> d_hist (m_disk m) = true -> d_tar (m_disk m) = Some (Whole n).
Proof.
  intros Hd Hs E Ha Ho Hh. assert (H : listed n m) by (eapply listed_steps; [exact Hs| |exact E]; split; [exact Hd| reflexivity]).
  unfold listed in H. rewrite Ha in H. destruct (H Hh); [assumption| congruence].
Qed.
Print Assumptions C36_history_names_complete_archives.
Example C36_history_names_complete_archives_met : exists m, steps false 1 [Go; Go; Go; Go; Go; Go; Go; Go; Go; Go] (start (mkDisk None None false false)) = Some m /\
  m_at m = AtEnd None /\ m_disk m = mkDisk (Some (Whole 1)) None false true.
Proof. eexists. splits; vm_compute; reflexivity. Qed.
(** ... but after a failed overwriting it forgets the restored one. *)
Theorem C36_history_forgets_refuted : exists cs d m, d = mkDisk (Some (Whole 1)) None false true /\ steps false 2 cs (start d) = Some m /\
  m_at m = AtEnd None /\ m_disk m = mkDisk (Some (Whole 1)) None false false.
Proof. eexists [Go; Go; Go; Go; Go; Go; Go; Fail FTar; Go; Go; Go; Go], _, _. splits; vm_compute; reflexivity. Qed.
Print Assumptions C36_history_forgets_refuted.
(** A first checkpoint that fails leaves its torn archive under the name of a checkpoint, though nothing is raised. *)
Theorem C36_torn_archive_left_refuted : exists cs m, steps false 1 cs (start (mkDisk None None false false)) = Some m /\
  m_at m = AtEnd None /\ m_disk m = mkDisk (Some Torn) None false false.
Proof. eexists [Go; Go; Go; Go; Go; Go; Fail FTar; Go; Go; Go; Go], _. splits; vm_compute; reflexivity. Qed.
Print Assumptions C36_torn_archive_left_refuted.
