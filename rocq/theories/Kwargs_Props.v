(** * C80: what an optimizer is given is what the user configured *)
From Verif Require Import Kwargs_Proofs.

(** Two entries: CMA with a backend, a callback for minimize; a second entry with the same dictionary for the constructor. *)
Definition kd : list kws :=
  [[("sigma", VNum 3); ("backend", VText "processes"); ("hook", VRef 0)]; [("callbacks", VRef 1)]; [("callbacks", VRef 0)]].
Definition kh : heap := mkHeap kd [10; 20].
Definition ki : list item := [ITuple "CMA" (Some 0) (Some 1); IClass "Random"; ITuple "GFLS" (Some 0) (Some 2)].
Ltac user := unfold user_ok, heap_ok; cbn; split; [|split];
  [repeat (apply Forall_cons || apply Forall_nil);
   (split; [cbn; repeat (apply NoDup_cons; [cbn; intuition discriminate|]); apply NoDup_nil
           |cbn; intros; repeat match goal with H : _ \/ _ |- _ => destruct H end; try tauto; try discriminate;
            match goal with H : (_, _) = (_, _) |- _ => injection H as _ <- end; lia])
  |intros; repeat match goal with H : _ \/ _ |- _ => destruct H end; try tauto; subst; lia
  |intros ? H H'; repeat match goal with H : _ \/ _ |- _ => destruct H end; try tauto; subst; discriminate].
Lemma k_ok : user_ok ki kh.
Proof. user. Qed.

(** The state after an execution and its optimizers, to name witnesses. *)
Definition fin (backend : string) (evs : list event) (items : list item) (h : heap) : st :=
  match run (mode_of backend) evs (start items h) with Ok s => s | Err _ => start items h end.
Definition opt (s : st) (i : nat) : optim := nth i (s_opts s) (mkOpt "" (VNum 0) [] [] (VNum 0) None).

(** C80: the entries of a selector are those given; one worker is added where none are named. *)
Theorem C80_entries items h : user_ok items h ->
  Forall2 (entry_for (h_dicts h) (h_dicts (s_heap (start items h)))) items (s_sel (start items h)).
Proof. apply start_for. Qed.
Print Assumptions C80_entries.
Example C80_entries_met : user_ok ki kh /\ s_sel (start ki kh) = [mkE "CMA" 0 1; mkE "Random" 3 4; mkE "GFLS" 0 2] /\
  nth 0 (h_dicts (s_heap (start ki kh))) [] = [("sigma", VNum 3); ("backend", VText "processes"); ("hook", VRef 0); ("workers", VNum 1)].
Proof. splits; try reflexivity. apply k_ok. Qed.

(** C80: names that the manager sets itself end the run with TypeError, and nothing else does. *)
Theorem C80_names items h m evs : user_ok items h -> let s0 := start items h in
  (forall x, run m evs s0 = Err x -> x = TypeError) /\
  (run m evs s0 = Err TypeError <-> exists e, In e (selections (s_sel s0) evs) /\ clashes (h_dicts (s_heap s0)) e).
Proof.
  intros H. destruct (run_inv items h m evs H) as [[H1 H2]|[H1 [s [H2 _]]]]; cbn zeta in *; rewrite H2; split; try congruence.
  - tauto.
  - split; [discriminate|]. intros [e [Q1 Q2]]. destruct (H1 e Q1 Q2).
Qed.
Print Assumptions C80_names.
Example C80_names_met : run (mode_of "threads") [Select 0] (start [ITuple "CMA" (Some 0) None] (mkHeap [[("is_log_detailed", VNum 1)]] [])) = Err TypeError.
Proof. reflexivity. Qed.

(** C80: every optimizer gets the class, the texts and numbers under the names, and the slots of the entry it was selected from; the backend is
    taken out, and objects are replaced by objects. *)
Theorem C80_settings items h m evs s : user_ok items h -> run m evs (start items h) = Ok s ->
  let ds := h_dicts (s_heap (start items h)) in let sel := selections (s_sel (start items h)) evs in
  length (s_opts s) = length sel /\
  forall i e o, nth_error sel i = Some e -> nth_error (s_opts s) i = Some o ->
  o_class o = e_class e /\ same_kws (given ds e true) (o_init o) /\ same_kws (given ds e false) (o_call o) /\
  exists v, In ("workers", v) (configured ds e true) /\ same_val v (o_slots o).
Proof.
  intros H Hr. destruct (run_inv items h m evs H) as [[H1 H2]|[H1 [s' [H2 I]]]]; cbn zeta in *; rewrite Hr in H2; [discriminate|]. injection H2 as <-.
  destruct I as [_ [_ [_ [I4 [I5 _]]]]]. split; [exact I4|]. intros i e o He Ho. destruct (I5 i e o He Ho) as [[F1 [F2 [F3 _]]] [_ [v [P1 P2]]]].
  splits; auto. exists v. split; [apply sget_In, P1|exact P2].
Qed.
Print Assumptions C80_settings.
Example C80_settings_met : user_ok ki kh /\ exists s, run (mode_of "threads") [Select 0; Tick 0 true "hook"; Select 2] (start ki kh) = Ok s /\
  s_opts s = [mkOpt "CMA" (VText "processes") [("sigma", VNum 3); ("hook", VRef 2); ("workers", VNum 1)] [("callbacks", VRef 3)] (VNum 1) None;
              mkOpt "GFLS" (VText "processes") [("sigma", VNum 3); ("hook", VRef 4); ("workers", VNum 1)] [("callbacks", VRef 5)] (VNum 1) None].
Proof. split; [apply k_ok|]. eexists. split; reflexivity. Qed.

(** C80: no optimizer sees what another does to an object: the state it finds is the configured one and the changes it made itself,
    with threads as with processes. *)
Theorem C80_objects items h m evs s : user_ok items h -> run m evs (start items h) = Ok s ->
  let ds := h_dicts (s_heap (start items h)) in let es := s_sel (start items h) in
  forall i e o w k a, nth_error (selections es evs) i = Some e -> nth_error (s_opts s) i = Some o -> sget k (given ds e w) = Some (VRef a) ->
  exists c, nth_error (h_cells h) a = Some c /\ sees s o w k = Some (c + own ds es (proc_backend m) i e w a 0 evs).
Proof.
  intros H Hr. destruct (run_inv items h m evs H) as [[H1 H2]|[H1 [s' [H2 I]]]]; cbn zeta in *; rewrite Hr in H2; [discriminate|]. injection H2 as <-.
  destruct I as [_ [_ [_ [_ [I5 _]]]]]. intros i e o w k a He Ho Hk. destruct (I5 i e o He Ho) as [[_ [_ [_ [_ [_ [F _]]]]]] _].
  destruct (F w k a Hk) as [b [c [Q1 [Q2 [Q3 _]]]]]. exists c. split; [exact Q2|]. unfold sees. rewrite Q1. exact Q3.
Qed.
Print Assumptions C80_objects.
Example C80_objects_met : user_ok ki kh /\ exists s o o', run (mode_of "processes") [Select 0; Tick 0 true "hook"; Select 2; Tick 0 true "hook"; Tick 1 true "hook"] (start ki kh) = Ok s /\
  s_opts s = [o; o'] /\ sees s o true "hook" = Some 12 /\ sees s o' true "hook" = Some 11 /\ sees s o' false "callbacks" = Some 11.
Proof. split; [apply k_ok|]. set (s := fin "processes" [Select 0; Tick 0 true "hook"; Select 2; Tick 0 true "hook"; Tick 1 true "hook"] ki kh).
  exists s, (opt s 0), (opt s 1). splits; vm_compute; reflexivity. Qed.

(** C80: with threads this does not hold for one object passed to both the constructor and minimize: they are copied one after the other, and
    the optimizer gets two objects.  With processes it gets one. *)
Theorem C80_twice_refuted : exists items h evs s o s' o', user_ok items h /\
  configured (h_dicts (s_heap (start items h))) (mkE "GFLS" 0 1) true = [("hook", VRef 0); ("workers", VNum 1)] /\
  configured (h_dicts (s_heap (start items h))) (mkE "GFLS" 0 1) false = [("callbacks", VRef 0)] /\
  run (mode_of "processes") evs (start items h) = Ok s /\ s_opts s = [o] /\ sees s o true "hook" = Some 8 /\ sees s o false "callbacks" = Some 8 /\
  run (mode_of "threads") evs (start items h) = Ok s' /\ s_opts s' = [o'] /\ sees s' o' true "hook" = Some 8 /\ sees s' o' false "callbacks" = Some 7.
Proof.
  exists [ITuple "GFLS" (Some 0) (Some 1)], (mkHeap [[("hook", VRef 0)]; [("callbacks", VRef 0)]] [7]), [Select 0; Tick 0 true "hook"].
  set (s := fin "processes" [Select 0; Tick 0 true "hook"] [ITuple "GFLS" (Some 0) (Some 1)] (mkHeap [[("hook", VRef 0)]; [("callbacks", VRef 0)]] [7])).
  set (s' := fin "threads" [Select 0; Tick 0 true "hook"] [ITuple "GFLS" (Some 0) (Some 1)] (mkHeap [[("hook", VRef 0)]; [("callbacks", VRef 0)]] [7])).
  exists s, (opt s 0), s', (opt s' 0). splits; try (vm_compute; reflexivity). user.
Qed.
Print Assumptions C80_twice_refuted.

(** C80: what belongs to the user stays as it is; only with processes the backend disappears from the dictionaries of the optimizers started. *)
Theorem C80_kept items h m evs s : user_ok items h -> run m evs (start items h) = Ok s ->
  let ds := h_dicts (s_heap (start items h)) in let sel := selections (s_sel (start items h)) evs in
  (exists ext, h_cells (s_heap s) = h_cells h ++ ext) /\
  (proc_backend m = false -> h_dicts (s_heap s) = ds) /\
  forall a d, nth_error ds a = Some d ->
    ((forall e, In e sel -> e_init e <> a) -> nth_error (h_dicts (s_heap s)) a = Some d) /\
    (forall e, In e sel -> e_init e = a -> proc_backend m = true -> nth_error (h_dicts (s_heap s)) a = Some (without "backend" d)).
Proof.
  intros H Hr. destruct (run_inv items h m evs H) as [[H1 H2]|[H1 [s' [H2 I]]]]; cbn zeta in *; rewrite Hr in H2; [discriminate|]. injection H2 as <-.
  destruct I as [_ [I2 [[ext [I3 _]] _]]]. splits.
  - exists ext. exact I3.
  - intro Hp. apply nth_ext with (d := []) (d' := []).
    + assert (L : forall a, nth_error (h_dicts (s_heap s)) a = None <-> nth_error (h_dicts (s_heap (start items h))) a = None).
      { intro a. rewrite I2. destruct (nth_error _ a); cbn; split; congruence. }
      apply Nat.le_antisymm; apply nth_error_None; apply L; apply nth_error_None; reflexivity.
    + intros n _. specialize (I2 n). unfold used in I2. rewrite Hp in I2. cbn in I2.
      destruct (nth_error (h_dicts (s_heap (start items h))) n) as [d|] eqn:E; cbn in I2.
      * rewrite (nth_error_nth _ _ _ E). apply nth_error_nth, I2.
      * rewrite !nth_overflow; auto; apply nth_error_None; assumption.
  - intros a d Hd. rewrite I2, Hd. cbn. unfold used. split.
    + intro Hn. replace (existsb _ _) with false; [rewrite andb_false_r; reflexivity|]. symmetry. apply not_true_is_false. intro E.
      apply existsb_exists in E as [e [Q1 Q2]]. apply Nat.eqb_eq in Q2. exact (Hn e Q1 Q2).
    + intros e He Ha Hp. rewrite Hp. replace (existsb _ _) with true; [reflexivity|]. symmetry. apply existsb_exists. exists e. split; [exact He|apply Nat.eqb_eq, Ha].
Qed.
Print Assumptions C80_kept.
Example C80_kept_met : user_ok ki kh /\ exists s, run (mode_of "processes") [Select 1; Select 2] (start ki kh) = Ok s /\
  nth 0 (h_dicts (s_heap s)) [] = [("sigma", VNum 3); ("hook", VRef 0); ("workers", VNum 1)] /\ h_cells (s_heap s) = [10; 20].
Proof. split; [apply k_ok|]. exists (fin "processes" [Select 1; Select 2] ki kh). splits; vm_compute; reflexivity. Qed.

(** C80: the backend: without one in the configuration the default; with one, that one, unless the manager uses processes and an optimizer
    was started before from the same dictionary: then the default again. *)
Theorem C80_backend items h m evs s : user_ok items h -> run m evs (start items h) = Ok s ->
  let ds := h_dicts (s_heap (start items h)) in let sel := selections (s_sel (start items h)) evs in
  forall i e o, nth_error sel i = Some e -> nth_error (s_opts s) i = Some o ->
  (sget "backend" (configured ds e true) = None -> o_backend o = default_backend m) /\
  forall b, sget "backend" (configured ds e true) = Some b ->
    ((proc_backend m = false \/ (forall j e', j < i -> nth_error sel j = Some e' -> e_init e' <> e_init e)) -> same_val b (o_backend o)) /\
    (forall j e', proc_backend m = true -> j < i -> nth_error sel j = Some e' -> e_init e' = e_init e -> o_backend o = default_backend m).
Proof.
  intros H Hr. destruct (run_inv items h m evs H) as [[H1 H2]|[H1 [s' [H2 I]]]]; cbn zeta in *; rewrite Hr in H2; [discriminate|]. injection H2 as <-.
  destruct I as [_ [_ [_ [_ [I5 _]]]]]. intros i e o He Ho. destruct (I5 i e o He Ho) as [_ [P _]].
  split; [intro E; rewrite E in P; exact P|]. intros b Hb. rewrite Hb in P. unfold used in P.
  assert (Hi : i < length (selections (s_sel (start items h)) evs)) by (apply nth_error_Some; congruence).
  assert (Nf : forall j, j < i -> nth_error (firstn i (selections (s_sel (start items h)) evs)) j = nth_error (selections (s_sel (start items h)) evs) j).
  { intros j Hj. rewrite <- (firstn_skipn i (selections (s_sel (start items h)) evs)) at 2. symmetry. apply nth_error_app1. rewrite firstn_length. lia. }
  split.
  - intros Hc. assert (E : proc_backend m && existsb (fun e0 => Nat.eqb (e_init e0) (e_init e)) (firstn i (selections (s_sel (start items h)) evs)) = false).
    { destruct Hc as [->|Hc]; [reflexivity|]. apply andb_false_iff. right. apply not_true_is_false. intro E. apply existsb_exists in E as [e' [Q1 Q2]].
      apply In_nth_error in Q1 as [j Q1]. assert (Hj : j < i) by (assert (L : j < length (firstn i (selections (s_sel (start items h)) evs))) by (apply nth_error_Some; congruence); rewrite firstn_length in L; lia).
      rewrite Nf in Q1 by exact Hj. apply (Hc j e' Hj Q1). apply Nat.eqb_eq, Q2. }
    rewrite E in P. exact P.
  - intros j e' Hp Hj He' Ei. rewrite Hp in P. cbn [andb] in P. replace (existsb _ _) with true in P; [exact P|]. symmetry. apply existsb_exists.
    exists e'. split; [apply (nth_error_In _ j); rewrite Nf by exact Hj; exact He'|apply Nat.eqb_eq, Ei].
Qed.
Print Assumptions C80_backend.
(** C80: the second optimizer of the same kind does not get the backend that the first one got. *)
Theorem C80_backend_refuted : exists items h s, user_ok items h /\ run (mode_of "processes_forced") [Select 0; Select 0] (start items h) = Ok s /\
  nth_error (h_dicts h) 0 = Some [("backend", VText "threads")] /\ map o_backend (s_opts s) = [VText "threads"; VText "processes"] /\
  nth_error (h_dicts (s_heap s)) 0 = Some [("workers", VNum 1)].
Proof.
  exists [ITuple "CMA" (Some 0) None], (mkHeap [[("backend", VText "threads")]] []),
    (fin "processes_forced" [Select 0; Select 0] [ITuple "CMA" (Some 0) None] (mkHeap [[("backend", VText "threads")]] [])). splits; try (vm_compute; reflexivity). user.
Qed.
Print Assumptions C80_backend_refuted.
Example C80_backend_met : user_ok ki kh /\ exists s s', run (mode_of "processes") [Select 0; Select 1; Select 2; Select 0] (start ki kh) = Ok s /\
  map o_backend (s_opts s) = [VText "processes"; VText "threads"; VText "threads"; VText "threads"] /\
  run (mode_of "threads") [Select 0; Select 1; Select 2; Select 0] (start ki kh) = Ok s' /\
  map o_backend (s_opts s') = [VText "processes"; VText "threads"; VText "processes"; VText "processes"].
Proof. split; [apply k_ok|]. exists (fin "processes" [Select 0; Select 1; Select 2; Select 0] ki kh), (fin "threads" [Select 0; Select 1; Select 2; Select 0] ki kh).
  splits; vm_compute; reflexivity. Qed.

(** C80: an optimizer resumed from a checkpoint keeps what its constructor got; the backend is the default one, whatever was configured, and
    minimize is called without the configured arguments: a callback never comes back. *)
Theorem C80_resumed_refuted : exists items h s o, user_ok items h /\ run (mode_of "threads") [Select 0] (start items h) = Ok s /\ s_opts s = [o] /\
  o_backend o = VText "processes" /\ sees s o false "callbacks" = Some 20 /\
  o_backend (resume (mode_of "threads") 1 o) = VText "threads" /\ sees s (resume (mode_of "threads") 1 o) false "callbacks" = None.
Proof. exists ki, kh, (fin "threads" [Select 0] ki kh), (opt (fin "threads" [Select 0] ki kh) 0). splits; try (vm_compute; reflexivity). apply k_ok. Qed.
Print Assumptions C80_resumed_refuted.
