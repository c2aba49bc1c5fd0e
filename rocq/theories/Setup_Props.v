(** * C57-C60: Initialising the manager afresh or from a checkpoint *)
From Verif Require Import Prelude_Proofs.
From Verif Require Import Helpers_Spec Setup_Model Setup_Spec Setup_Proofs.

(** Witnesses. *)
Definition fn (i : nat) : pv := VObj i ["function"]%string true true.
Definition sel : pv := VObj 1 ["CycleSelector"; "BaseSelector"]%string true false.
Definition control : pv := VObj 2 ["CheckpointingControl"]%string true false.
Definition hunter : pv := VObj 3 ["MinIterations"; "BaseHunter"]%string true true.
Definition box : list (num * num) := [(Fin 0, Fin 1); (Fin (-2), Fin 5)].
(** setup(task, bounds, selector, checkpoint_control=..., backend=...) *)
Definition call (jobs backend share timeout : pv) : args :=
  mkArgs (fn 7) box sel (VStr "work") (VBool false) jobs backend VNone VNone hunter share (VInt 100) (VInt 600) control (VInt 2)
         (VBool false) (VBool false) VNone (VInt (-1)) (VBool false) timeout (VBool true).
Definition desk : env := mkEnv 8 true false (Ok tt) (Ok tt).
Definition one_cpu : env := mkEnv 1 true false (Ok tt) (Ok tt).
Definition after (e : env) (a : args) : attrs := snd (setup e a init_attrs).
Definition saved_by (e : env) (a : args) (task : option (res pv)) : archive :=
  mkAr (Ok tt) (Some (saved (after e a))) task (Ok tt) (fun _ => Ok tt) (Ok false) (Ok tt).
Definition plain_call : args := call (VInt 4) (VStr "processes") (VBool true) VNone.

(** ** C57: setup *)

(** The values for which a default is used. *)
Theorem C57_false_values v : truthy v = false <-> python_false v.
Proof.
  split.
  - destruct v as [|b|z|[| |q|]|s|l|i cs t c]; cbn [truthy]; intro H; try discriminate; try constructor.
    + subst b. constructor.
    + apply negb_false_iff, Z.eqb_eq in H. subst. constructor.
    + apply negb_false_iff, Qeq_bool_iff in H. exact H.
    + apply negb_false_iff, String.eqb_eq in H. subst. constructor.
    + destruct l; [constructor|discriminate].
    + subst t. constructor.
  - destruct 1; try reflexivity. cbn [truthy]. apply negb_false_iff, Qeq_bool_iff. exact H.
Qed.
Print Assumptions C57_false_values.
Example C57_false_values_met : python_false (VFloat (Fin 0)) /\ truthy (VFloat (Fin 0)) = false /\ truthy (VFloat NaN) = true.
Proof. splits; [now constructor|reflexivity|reflexivity]. Qed.

(** It succeeds exactly for usable arguments. *)
Theorem C57_accepted_iff e a m : is_initialised m = false -> ((exists m', setup e a m = (Ok tt, m')) <-> usable_args e a).
Proof.
  intro U. pose proof (setup_cases e a m U) as C. unfold setup_outcome in C. destruct (setup e a m) as [[[]|x] m'].
  - split; [intros _; apply C|intros _; eauto].
  - split; [intros [m'' X]; discriminate|intro X; exfalso; now apply C].
Qed.
Print Assumptions C57_accepted_iff.
Example C57_accepted_iff_met : usable_args desk plain_call /\ fst (setup desk plain_call init_attrs) = Ok tt /\
  fst (setup desk (call (VInt (-2)) (VStr "processes") (VBool true) VNone) init_attrs) = Err ValueError /\
  fst (setup desk (call (VFloat (Fin 2)) (VStr "processes") (VBool true) VNone) init_attrs) = Err TypeError.
Proof.
  splits; try (vm_compute; reflexivity). apply (C57_accepted_iff desk plain_call init_attrs eq_refl). eexists. vm_compute. reflexivity.
Qed.

(** What was given is what the manager uses. *)
Theorem C57_given e a m m' : is_initialised m = false -> setup e a m = (Ok tt, m') -> e_scope e = Ok tt ->
  attr "task" m' = a_task a /\ attr "bounds" m' = VBounds (a_bounds a) /\ attr "n_parms" m' = VInt (Z.of_nat (length (a_bounds a))) /\
  forall k v s, In (k, v) (named a) -> k <> "visualisation_args"%string -> regular e k v -> In s (stored_as k) -> attr s m' = meaning v s.
Proof.
  intros U E SC. pose proof (setup_cases e a m U) as C. rewrite E in C. destruct C as [_ C].
  splits; try apply C. now apply (settings_given e a m' C SC).
Qed.
Print Assumptions C57_given.
Example C57_given_met : exists m', setup desk plain_call init_attrs = (Ok tt, m') /\ attr "max_jobs" m' = VInt 4 /\
  attr "proc_backend" m' = VBool true /\ attr "opts_daemonic" m' = VBool true /\ attr "_too_long" m' = VInt (-1) /\
  attr "allow_forced_terminations" m' = VBool false /\ attr "killing_conditions" m' = hunter /\ attr "n_parms" m' = VInt 2.
Proof. eexists. splits; vm_compute; reflexivity. Qed.

(** What was not given has the documented default. *)
Theorem C57_defaults e a m m' : is_initialised m = false -> setup e a m = (Ok tt, m') ->
  (a_jobs a = VNone -> attr "max_jobs" m' = VInt (e_cpus e - 1)) /\
  (a_checker a = VNone -> attr "convergence_checker" m' = default_checker) /\
  (a_gen a = VNone -> attr "x0_generator" m' = default_gen) /\
  (a_hunter a = VNone -> attr "killing_conditions" m' = VNone) /\
  (a_control a = VNone -> attr "checkpoint_control" m' = VNone) /\
  (~ In (a_backend a) [VStr "processes"; VStr "threads"; VStr "processes_forced"] ->
    attr "proc_backend" m' = VBool true /\ attr "opts_daemonic" m' = VBool true) /\
  (a_timeout a = VNone -> attr "end_timeout" m' = if is_backend (a_backend a) "threads" then VNone else VInt 10) /\
  (exists big, exceeds (a_summary a) 2 = Ok big /\ attr "opt_log" m' = log_class big).
Proof.
  intros U E. pose proof (setup_cases e a m U) as C. rewrite E in C. destruct C as [_ C].
  destruct C as [S1 [S2 [S3 [S4 [S5 [S6 [S7 [S8 [S9 [S10 [S11 [S12 [S13 [S14 [S15 [S16 [S17 [S18 [S19 [S20 [S21 [S22 [S23 [S24 [S25 [S26 S27]]]]]]]]]]]]]]]]]]]]]]]]]].
  splits.
  - intro H. now rewrite S7, H.
  - intro H. now rewrite S8, H.
  - intro H. now rewrite S9, H.
  - intro H. now rewrite S10, H.
  - intro H. now rewrite S22, H.
  - intro H. rewrite S25, S26. unfold backend_of, is_backend. destruct (a_backend a); cbn; auto.
    destruct (String.eqb s "processes") eqn:Q1; [apply String.eqb_eq in Q1; subst; exfalso; apply H; cbn; auto|].
    destruct (String.eqb s "threads") eqn:Q2; [apply String.eqb_eq in Q2; subst; exfalso; apply H; cbn; auto|].
    destruct (String.eqb s "processes_forced") eqn:Q3; [apply String.eqb_eq in Q3; subst; exfalso; apply H; cbn; auto|]. auto.
  - intro H. rewrite S27, H. cbn [truthy]. unfold backend_of, is_backend. destruct (a_backend a); try reflexivity.
    destruct (String.eqb s "threads") eqn:Q2; [apply String.eqb_eq in Q2; subst; reflexivity|].
    destruct (String.eqb s "processes"), (String.eqb s "processes_forced"); reflexivity.
  - exact S24.
Qed.
Print Assumptions C57_defaults.
Example C57_defaults_met : exists m', setup desk (call VNone (VStr "fibres") (VBool true) VNone) init_attrs = (Ok tt, m') /\
  attr "max_jobs" m' = VInt 7 /\ attr "proc_backend" m' = VBool true /\ attr "end_timeout" m' = VInt 10.
Proof. eexists. splits; vm_compute; reflexivity. Qed.

(** A second call changes nothing. *)
Theorem C57_twice e a m m' e' a' : is_initialised m = false -> setup e a m = (Ok tt, m') -> setup e' a' m' = (Ok tt, m').
Proof.
  intros U E. pose proof (setup_cases e a m U) as C. rewrite E in C. destruct C as [_ [C _]].
  unfold setup. rewrite bind_gets. unfold is_initialised. rewrite C. reflexivity.
Qed.
Print Assumptions C57_twice.
Example C57_twice_met : setup one_cpu (call (VInt 2) (VStr "threads") (VBool false) VNone) (after desk plain_call) = (Ok tt, after desk plain_call) /\
  attr "max_jobs" (after desk plain_call) = VInt 4.
Proof. split; vm_compute; reflexivity. Qed.

(** There is at least one slot.  Missing: a machine with one processor, see below. *)
Theorem C57_slots_partial e a m m' : is_initialised m = false -> setup e a m = (Ok tt, m') -> (2 <= e_cpus e)%Z ->
  exists z, slots_meant (attr "max_jobs" m') = Some z /\ (1 <= z)%Z.
Proof.
  intros U E H. pose proof (setup_cases e a m U) as C. rewrite E in C. destruct C as [[_ _ _ J _ _ _ _ _ _ _ _] C].
  destruct C as [_ [_ [_ [_ [_ [_ [C _]]]]]]]. rewrite C. destruct (truthy (a_jobs a)) eqn:T.
  - destruct J as [J|[J|[z [J Z]]]]; [congruence| |].
    + rewrite J. exists 1%Z. split; [reflexivity|lia].
    + rewrite J. exists z. split; [reflexivity|lia].
  - exists (e_cpus e - 1)%Z. split; [reflexivity|lia].
Qed.
Print Assumptions C57_slots_partial.
Example C57_slots_met : (2 <= e_cpus desk)%Z /\ slots_meant (attr "max_jobs" (after desk (call VNone (VStr "threads") (VBool true) VNone))) = Some 7%Z.
Proof. split; vm_compute; [discriminate|reflexivity]. Qed.
(** On one processor the default is no slot at all. *)
Theorem C57_one_cpu_refuted : exists e a m', setup e a init_attrs = (Ok tt, m') /\ e_cpus e = 1%Z /\ a_jobs a = VNone /\ slots_meant (attr "max_jobs" m') = Some 0%Z.
Proof. exists one_cpu, (call VNone (VStr "processes") (VBool true) VNone). eexists. splits; vm_compute; reflexivity. Qed.
Print Assumptions C57_one_cpu_refuted.
(** A negative max_jobs is refused ("Only positive integers are allowed"), zero is not: it becomes the default. *)
Theorem C57_zero_refuted : exists e a m', setup e a init_attrs = (Ok tt, m') /\ a_jobs a = VInt 0 /\ attr "max_jobs" m' = VInt 7.
Proof. exists desk, (call (VInt 0) (VStr "processes") (VBool true) VNone). eexists. splits; vm_compute; reflexivity. Qed.
Print Assumptions C57_zero_refuted.
(** end_timeout=0 ("do not wait") becomes ten seconds. *)
Theorem C57_timeout_zero_refuted : exists e a m', setup e a init_attrs = (Ok tt, m') /\ a_timeout a = VInt 0 /\ attr "end_timeout" m' = VInt 10.
Proof. exists desk, (call (VInt 2) (VStr "processes") (VBool true) (VInt 0)). eexists. splits; vm_compute; reflexivity. Qed.
Print Assumptions C57_timeout_zero_refuted.

(** ** C58: arguments given while loading *)

(** An argument given to load_checkpoint sets what it sets in setup, for every argument but share_best_solutions and values
    that setup takes as they are. *)
Theorem C58_same_as_setup_partial e a m1 ar ld t kw m2 : setup e a init_attrs = (Ok tt, m1) -> e_scope e = Ok tt ->
  load ar ld t kw init_attrs = (Ok tt, m2) -> NoDup (dkeys kw) -> incl kw (named a) ->
  forall k v s, In (k, v) kw -> k <> "share_best_solutions"%string -> k <> "visualisation_args"%string -> regular e k v ->
  In s (stored_as k) -> attr s m2 = attr s m1.
Proof.
  intros E SC L N I k v s J N1 N2 R K.
  assert (I' : incl (dkeys kw) (dkeys (named a))).
  { intros x X. unfold dkeys in *. apply in_map_iff in X as [kv [<- X]]. apply in_map. auto. }
  rewrite (load_want e a ar ld t kw m2 L N I' k v s J N1 N2 R K).
  destruct (C57_given e a init_attrs m1 eq_refl E SC) as [_ [_ [_ G]]]. symmetry. now apply (G k v s (I _ J) N2 R).
Qed.
Print Assumptions C58_same_as_setup_partial.
Definition new_settings : list (string * pv) := [("backend", VStr "threads"); ("max_jobs", VInt 3); ("force_terminations_after", VInt 20)]%string.
Definition other_call : args :=
  mkArgs (fn 7) box sel (VStr "work") (VBool false) (VInt 3) (VStr "threads") VNone VNone hunter (VBool false) (VInt 100) (VInt 600) control (VInt 2)
         (VBool false) (VBool false) VNone (VInt 20) (VBool false) VNone (VBool true).
Example C58_same_as_setup_met : exists m2, load (saved_by desk plain_call (Some (Ok (fn 7)))) None VNone new_settings init_attrs = (Ok tt, m2) /\
  incl new_settings (named other_call) /\ NoDup (dkeys new_settings) /\ regular desk "backend" (VStr "threads") /\ regular desk "max_jobs" (VInt 3) /\
  attr "proc_backend" m2 = VBool false /\ attr "max_jobs" m2 = VInt 3 /\ attr "allow_forced_terminations" m2 = VBool true /\
  attr "hunt_frequency" m2 = VInt 100.
Proof.
  eexists. splits; [vm_compute; reflexivity|..]; try (vm_compute; reflexivity).
  - intros kv H. cbn in H. cbn [named other_call]. repeat destruct H as [<-|H]; [..|destruct H]; vm_compute; tauto.
  - repeat constructor; cbn; intuition discriminate.
  - unfold regular. splits; try (intro X; exfalso; cbn in X; intuition discriminate). intros _. cbn. auto.
  - unfold regular. splits; try (intro X; exfalso; cbn in X; intuition discriminate). intros _. reflexivity.
Qed.

(** What has a file of its own in a checkpoint, or belongs to the running process. *)
Definition own_file : list string := ["task"; "opt_log"; "scope"]%string.
Definition of_process : list string := ["logger"; "_process"; "_mp_manager"; "_optimizer_packs"; "optimizer_queue"; "is_initialised"]%string.

(** The file 'manager' holds every other attribute, and none of these. *)
Theorem C58_saved m k v : In (k, v) (saved m) <-> In (k, v) m /\ ~ In k own_file /\ ~ In k of_process.
Proof.
  unfold saved. rewrite filter_In, negb_true_iff. cbn [fst].
  assert (E : existsb (String.eqb k) no_pickle = true <-> In k own_file \/ In k of_process).
  { rewrite existsb_exists. split.
    - intros [j [H1 H2]]. apply String.eqb_eq in H2. subst j. cbn in *. tauto.
    - intro H. exists k. split; [cbn in *; tauto|apply String.eqb_refl]. }
  destruct (existsb (String.eqb k) no_pickle); intuition discriminate.
Qed.
Print Assumptions C58_saved.
Example C58_saved_met : sget "task" (after desk plain_call) <> None /\ sget "task" (saved (after desk plain_call)) = None /\
  sget "max_jobs" (saved (after desk plain_call)) = sget "max_jobs" (after desk plain_call).
Proof. splits; vm_compute; congruence. Qed.

(** What is not mentioned has the value it had when the checkpoint was made. *)
Theorem C58_kept m ar ld t kw m2 : NoDup (dkeys m) -> ar_vars ar = Some (saved m) -> load ar ld t kw init_attrs = (Ok tt, m2) ->
  forall s, In s (dkeys m) -> ~ In s own_file -> ~ In s of_process -> ~ In s set_by_load ->
  (forall k, In k (dkeys kw) -> s <> k /\ ~ In s (stored_as k)) -> attr s m2 = attr s m.
Proof.
  intros N V L s I NP NP' NL NK.
  rewrite (load_keeps ar ld t kw m2 L (saved m) s V); auto.
  - unfold saved. rewrite (sget_filter (fun k => negb (existsb (String.eqb k) no_pickle))).
    + unfold attr at 2. destruct (sget s m) eqn:G; [reflexivity|]. exfalso. clear - G I. unfold dkeys in I.
      induction m as [|[k v] m IH]; cbn in *; [exact I|]. destruct (String.eqb s k) eqn:Q; [discriminate|].
      destruct I as [->|I]; [rewrite String.eqb_refl in Q; discriminate|auto].
    + apply negb_true_iff. destruct (existsb (String.eqb s) no_pickle) eqn:X; [|reflexivity].
      apply existsb_exists in X as [j [X1 X2]]. apply String.eqb_eq in X2. subst j. exfalso. cbn in X1, NP, NP'. tauto.
  - now apply nodup_filter.
  - intros k K [X|X]; destruct (NK k K) as [A B]; [congruence|auto].
Qed.
Print Assumptions C58_kept.
Example C58_kept_met : NoDup (dkeys (after desk plain_call)) /\ In "hunt_frequency"%string (dkeys (after desk plain_call)) /\
  fst (load (saved_by desk plain_call (Some (Ok (fn 7)))) None VNone new_settings init_attrs) = Ok tt.
Proof.
  splits; [|vm_compute; tauto|vm_compute; reflexivity].
  assert (X : nodup string_dec (dkeys (after desk plain_call)) = dkeys (after desk plain_call)) by (vm_compute; reflexivity).
  rewrite <- X. apply NoDup_nodup.
Qed.

(** A loaded manager starts a new session: no times, no crash, and convergence as the checker now says. *)
Theorem C58_new_session ar ld t kw m2 : load ar ld t kw init_attrs = (Ok tt, m2) ->
  is_initialised m2 = true /\ attr "_is_restart" m2 = VBool true /\ attr "t_start" m2 = VNone /\ attr "t_end" m2 = VNone /\
  attr "opt_crashed" m2 = VBool false /\ (attr "converged" m2 = VBool true <-> ar_checker ar = Ok true) /\
  (attr "opt_log" m2 = log_class true <-> exists v, attr "summary_files" m2 = v /\ exceeds v 2 = Ok true).
Proof.
  intros L. destruct (load_sets ar ld t kw init_attrs m2 eq_refl L) as (A & B & C & D & big & X & _ & O).
  apply load_inv in L; [|reflexivity]. destruct L as [l [x1 [x1' [x1'' [_ [_ [_ [_ [_ [_ R]]]]]]]]]].
  splits; try assumption.
  - unfold is_initialised. rewrite R. reflexivity.
  - rewrite D. destruct (ar_checker ar) as [[|]|]; split; congruence.
  - rewrite O. split.
    + destruct big; intro H; [eauto|discriminate].
    + intros [v [<- H]]. congruence.
Qed.
Print Assumptions C58_new_session.
Example C58_new_session_met : exists m2, load (saved_by desk plain_call (Some (Ok (fn 7)))) None VNone [] init_attrs = (Ok tt, m2) /\ attr "opt_crashed" m2 = VBool false.
Proof. eexists. splits; vm_compute; reflexivity. Qed.
(** share_best_solutions is accepted by setup only: the loader finds no attribute of that name and ignores it. *)
Theorem C58_share_refuted : exists m2, load (saved_by desk plain_call (Some (Ok (fn 7)))) None VNone [("share_best_solutions", VBool false)]%string init_attrs = (Ok tt, m2) /\
  attr "incumbent_sharing" m2 = VBool true /\
  attr "incumbent_sharing" (after desk (call (VInt 4) (VStr "processes") (VBool false) VNone)) = VBool false.
Proof. eexists. splits; vm_compute; reflexivity. Qed.
Print Assumptions C58_share_refuted.
(** Threads cannot be ended by force, so setup gives them no timeout.  A run loaded with backend='threads' keeps that of
    processes. *)
Theorem C58_timeout_refuted : exists m2, load (saved_by desk plain_call (Some (Ok (fn 7)))) None VNone [("backend", VStr "threads")]%string init_attrs = (Ok tt, m2) /\
  attr "end_timeout" m2 = VInt 10 /\ attr "end_timeout" (after desk (call (VInt 4) (VStr "threads") (VBool true) VNone)) = VNone.
Proof. eexists. splits; vm_compute; reflexivity. Qed.
Print Assumptions C58_timeout_refuted.
(** An unknown backend means processes in setup and threads while loading. *)
Theorem C58_backend_refuted : exists m2, load (saved_by desk plain_call (Some (Ok (fn 7)))) None VNone [("backend", VStr "process")]%string init_attrs = (Ok tt, m2) /\
  attr "proc_backend" m2 = VBool false /\ attr "proc_backend" (after desk (call (VInt 4) (VStr "process") (VBool true) VNone)) = VBool true.
Proof. eexists. splits; vm_compute; reflexivity. Qed.
Print Assumptions C58_backend_refuted.
(** Values that setup refuses are accepted while loading. *)
Theorem C58_unchecked_refuted : exists m2, load (saved_by desk plain_call (Some (Ok (fn 7)))) None VNone [("max_jobs", VInt (-1)); ("opt_selector", VNone)]%string init_attrs = (Ok tt, m2) /\
  attr "max_jobs" m2 = VInt (-1) /\ attr "opt_selector" m2 = VNone /\
  fst (setup desk (call (VInt (-1)) (VStr "processes") (VBool true) VNone) init_attrs) = Err ValueError.
Proof. eexists. splits; vm_compute; reflexivity. Qed.
Print Assumptions C58_unchecked_refuted.

(** ** C59: the task *)

(** The task used is the first candidate, in the documented order, that is a true value. *)
Theorem C59_first ar pickled loaded given kw m2 v : load ar (option_map Ok loaded) given kw init_attrs = (Ok tt, m2) ->
  ar_task ar = option_map Ok pickled -> ~ In "task"%string (dkeys kw) -> find truthy (candidates pickled loaded given) = Some v ->
  attr "task" m2 = v.
Proof. intros L P N F. eapply load_task_is; eauto. Qed.
Print Assumptions C59_first.
Example C59_first_met : exists m2, load (saved_by desk plain_call None) (Some (Ok (fn 8))) (fn 9) [] init_attrs = (Ok tt, m2) /\
  find truthy (candidates None (Some (fn 8)) (fn 9)) = Some (fn 8) /\ attr "task" m2 = fn 8.
Proof. eexists. splits; vm_compute; reflexivity. Qed.

(** A task that can be pickled comes back. *)
Theorem C59_round_trip e a m1 own f ar ld given kw m2 : setup e a init_attrs = (Ok tt, m1) -> truthy (a_task a) = true ->
  checkpoint_task false (Ok tt) own = Ok f -> ar_task ar = option_map Ok (found f (attr "task" m1)) ->
  load ar ld given kw init_attrs = (Ok tt, m2) -> ~ In "task"%string (dkeys kw) -> attr "task" m2 = a_task a.
Proof.
  intros S T C A L N. injection C as <-. cbn [found option_map] in A.
  assert (X : attr "task" m1 = a_task a).
  { pose proof (setup_cases e a init_attrs eq_refl) as C. rewrite S in C. destruct C as [_ C]. apply C. }
  apply load_inv in L; [|reflexivity]. destruct L as [l [x1 [x1' [x1'' [_ [_ [_ [L2 [L3 [[O _] _]]]]]]]]]].
  rewrite O by (cbn; intuition discriminate). destruct (overrides_only _ _ _ _ _ L3) as [O3 _]. rewrite O3.
  - apply (load_task_pickled ar ld given x1 x1' (a_task a)); auto. now rewrite <- X.
  - intro Z. apply in_concat in Z as [ks [Z1 Z2]]. apply in_map_iff in Z1 as [k [<- Z1]]. revert Z2. apply touched_task. intros ->. contradiction.
Qed.
Print Assumptions C59_round_trip.
Example C59_round_trip_met : exists m2, checkpoint_task false (Ok tt) (Err AttributeError) = Ok TPickled /\
  load (saved_by desk plain_call (Some (Ok (attr "task" (after desk plain_call))))) (Some (Err ValueError)) (fn 9) [("max_jobs", VInt 2)]%string init_attrs = (Ok tt, m2) /\
  attr "task" m2 = fn 7.
Proof. eexists. splits; vm_compute; reflexivity. Qed.

(** Without any candidate loading fails. *)
Theorem C59_none ar kw l : ar_open ar = Ok tt -> ar_vars ar = Some l -> ar_task ar = None -> fst (load ar None VNone kw init_attrs) = Err CheckpointingError.
Proof.
  intros O V T. unfold load. rewrite bind_gets. change (is_initialised init_attrs) with false. cbn iota. rewrite O, bind_lift, V.
  destruct (vars_ok l init_attrs) as [m1 E1]. erewrite bind_ok by exact E1.
  erewrite bind_err by (apply load_task_none; exact T). reflexivity.
Qed.
Print Assumptions C59_none.
Example C59_none_met : fst (load (saved_by desk plain_call None) None VNone [("max_jobs", VInt 2)]%string init_attrs) = Err CheckpointingError.
Proof. vm_compute. reflexivity. Qed.

(** Saving the task never stops the checkpoint.  Missing: failures of dill.dump other than PickleError, see below. *)
Theorem C59_saving_partial force dump own : (dump = Ok tt \/ dump = Err PickleError) -> own <> Err KeyboardInterrupt -> exists f, checkpoint_task force dump own = Ok f.
Proof.
  intros D O. unfold checkpoint_task. destruct force, D as [->| ->], own as [[]|x]; try (eexists; reflexivity); destruct x; try (eexists; reflexivity); congruence.
Qed.
Print Assumptions C59_saving_partial.
Example C59_saving_met : checkpoint_task false (Err PickleError) (Ok tt) = Ok TOwn /\ checkpoint_task false (Err PickleError) (Err AttributeError) = Ok TNothing.
Proof. split; reflexivity. Qed.
(** Nothing is written only if neither way that may be used works. *)
Theorem C59_nothing force dump own : checkpoint_task force dump own = Ok TNothing -> (force = true \/ dump <> Ok tt) /\ own <> Ok tt.
Proof. unfold checkpoint_task. destruct force, dump as [[]|x], own as [[]|y]; try discriminate; try (destruct x; discriminate); split; try discriminate; auto; right; discriminate. Qed.
Print Assumptions C59_nothing.
Example C59_nothing_met : checkpoint_task false (Err PickleError) (Err AttributeError) = Ok TNothing.
Proof. reflexivity. Qed.
(** Objects with a lock or an open file raise TypeError in dill.dump: the task's own checkpoint_save is not tried. *)
Theorem C59_type_error_refuted : exists dump own, dump = Err TypeError /\ own = Ok tt /\ checkpoint_task false dump own = Err TypeError /\ checkpoint_task true dump own = Ok TOwn.
Proof. exists (Err TypeError), (Ok tt). splits; reflexivity. Qed.
Print Assumptions C59_type_error_refuted.
(** "first attempt to use the task_loader and then only use task if that fails": a failing loader stops the loading. *)
Theorem C59_fallback_refuted : exists x, callable (fn 9) = true /\
  fst (load (saved_by desk plain_call None) (Some (Err x)) (fn 9) [] init_attrs) = Err CheckpointingError /\
  fst (load (saved_by desk plain_call None) None (fn 9) [] init_attrs) = Ok tt.
Proof. exists ValueError. splits; vm_compute; reflexivity. Qed.
Print Assumptions C59_fallback_refuted.
(** The same for a file 'task' that cannot be unpickled. *)
Theorem C59_unpickling_refuted : exists x, fst (load (saved_by desk plain_call (Some (Err x))) (Some (Ok (fn 8))) (fn 9) [] init_attrs) = Err CheckpointingError.
Proof. exists PickleError. vm_compute. reflexivity. Qed.
Print Assumptions C59_unpickling_refuted.
(** A callable object whose truth value is false (for instance one with __len__) is replaced although it was unpickled. *)
Theorem C59_false_task_refuted : exists t m2, callable t = true /\ load (saved_by desk plain_call (Some (Ok t))) None (fn 9) [] init_attrs = (Ok tt, m2) /\ attr "task" m2 = fn 9.
Proof. exists (VObj 7 ["DataSet"]%string false true). eexists. splits; vm_compute; reflexivity. Qed.
Print Assumptions C59_false_task_refuted.

(** ** C60: after a failure *)

(** A setup that fails leaves the manager uninitialised, except for the checkpoint at the end, and can be repeated. *)
Theorem C60_setup_retry_partial e a m x m' : is_initialised m = false -> setup e a m = (Err x, m') ->
  e_at_init e = false \/ e_chk e = Ok tt -> is_initialised m' = false /\
  forall e' a', usable_args e' a' -> exists m'', setup e' a' m' = (Ok tt, m'').
Proof.
  intros U E H. pose proof (setup_cases e a m U) as C. rewrite E in C. destruct C as [_ [C|[C1 [_ C2]]]].
  - split; [exact C|]. intros e' a' A. now apply C57_accepted_iff.
  - destruct H; congruence.
Qed.
Print Assumptions C60_setup_retry_partial.
Example C60_setup_retry_met : exists m' m'', setup desk (call (VInt (-2)) (VStr "processes") (VBool true) VNone) init_attrs = (Err ValueError, m') /\
  setup desk plain_call m' = (Ok tt, m'') /\ attr "max_jobs" m'' = VInt 4.
Proof. do 2 eexists. splits; vm_compute; reflexivity. Qed.
Theorem C60_at_init_refuted : exists e m', setup e plain_call init_attrs = (Err CheckpointingError, m') /\ is_initialised m' = true.
Proof. exists (mkEnv 8 true true (Ok tt) (Err CheckpointingError)). eexists. split; vm_compute; reflexivity. Qed.
Print Assumptions C60_at_init_refuted.

(** A load that fails before the manager's variables are read leaves everything as it was. *)
Theorem C60_load_early ar ld t kw m r m' : is_initialised m = false -> load ar ld t kw m = (r, m') ->
  (exists x, ar_open ar = Err x) \/ ar_vars ar = None -> (exists x, r = Err x) /\ m' = m.
Proof.
  intros U E H. unfold load in E. rewrite bind_gets, U in E. destruct (ar_open ar) as [[]|x].
  - rewrite bind_lift in E. destruct H as [[x H]|H]; [discriminate|]. rewrite H, bind_raise in E. injection E as <- <-. eauto.
  - rewrite bind_lift_err in E. injection E as <- <-. eauto.
Qed.
Print Assumptions C60_load_early.
Example C60_load_early_met : load (mkAr (Err OSError) None None (Ok tt) (fun _ => Ok tt) (Ok false) (Ok tt)) None VNone [] init_attrs = (Err OSError, init_attrs).
Proof. vm_compute. reflexivity. Qed.

(** One that fails later leaves a manager which says it is initialised and so cannot be loaded or set up any more.  This
    holds for every archive of a manager that was initialised. *)
Theorem C60_load_sticks m ar ld t kw x m' : NoDup (dkeys m) -> is_initialised m = true -> ar_open ar = Ok tt -> ar_vars ar = Some (saved m) ->
  ~ In "_is_restart"%string (dkeys kw) -> load ar ld t kw init_attrs = (Err x, m') ->
  is_initialised m' = true /\ (forall ar' ld' t' kw', load ar' ld' t' kw' m' = (Ok tt, m')) /\ forall e a, setup e a m' = (Ok tt, m').
Proof.
  intros N I O V K E.
  assert (X : is_initialised m' = true).
  { unfold is_initialised, attr in I. destruct (sget "_is_restart" m) as [v|] eqn:G; [|discriminate].
    apply (load_sticks ar ld t kw (saved m) v (Err x) m' E O V).
    - now apply nodup_filter.
    - unfold saved. rewrite (sget_filter (fun k => negb (existsb (String.eqb k) no_pickle))); [exact G|reflexivity].
    - intros ->. discriminate.
    - exact K. }
  splits; [exact X|..]; intros; [unfold load|unfold setup]; rewrite bind_gets, X; reflexivity.
Qed.
Print Assumptions C60_load_sticks.
Example C60_load_sticks_met : is_initialised (after desk plain_call) = true /\
  fst (load (saved_by desk plain_call None) None VNone [] init_attrs) = Err CheckpointingError.
Proof. split; vm_compute; reflexivity. Qed.
(** So the mistake of leaving out the task cannot be repaired with the same manager: the second call, which is right, only
    warns, and the manager has no task. *)
Theorem C60_load_retry_refuted : exists m1 m2, load (saved_by desk plain_call None) None VNone [] init_attrs = (Err CheckpointingError, m1) /\
  load (saved_by desk plain_call None) None (fn 9) [] m1 = (Ok tt, m2) /\ is_initialised m2 = true /\ attr "task" m2 = VNone /\
  fst (load (saved_by desk plain_call None) None (fn 9) [] init_attrs) = Ok tt.
Proof. do 2 eexists. splits; vm_compute; reflexivity. Qed.
Print Assumptions C60_load_retry_refuted.
