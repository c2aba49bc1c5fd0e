(** * Properties of the summary file (C83) *)
From Verif Require Import Prelude Prelude_Proofs Helpers_Model Summary_Model Summary_Spec Summary_Proofs.
From Coq Require Import Lia.
Open Scope string_scope.

(** Whatever is written: it can be read without Python if and only if no value reached through elements, keys and public attributes
    is of a type YAML does not know. *)
Theorem C83_native : forall v n, represent v = Ok n -> (native n = true <-> forall u, within u v -> ~ foreign u).
Proof. exact native_iff. Qed.
Print Assumptions C83_native.
(** Writing raises if and only if a public attribute that is reached cannot be read. *)
Theorem C83_raises_iff : forall v, (exists e, represent v = Err e) <-> exists u, within u v /\ broken u.
Proof. exact fails_iff. Qed.
Print Assumptions C83_raises_iff.
(** Of an object: exactly the public attributes that are not callable, each under its name. *)
Theorem C83_object : forall c ct l n k x, NoDup (names l) -> represent (VObj c ct l) = Ok n ->
  look n [c; k] = Some x <-> exists u, In (Attr k false (Ok u)) l /\ public k = true /\ represent u = Ok x.
Proof. exact object_shown. Qed.
Print Assumptions C83_object.
Theorem C83_generator : forall c l n k x, NoDup (names l) -> k <> "Generator" -> represent (VGen c l) = Ok n ->
  look n [k] = Some x <-> exists u, In (Attr k false (Ok u)) l /\ public k = true /\ k <> "logger" /\ k <> "bounds" /\ represent u = Ok x.
Proof. exact generator_shown. Qed.
Print Assumptions C83_generator.
(** Of a selector: every optimizer with both sets of arguments, under its number. *)
Theorem C83_selector : forall c s o n, represent (VSel c s o) = Ok n ->
  look n ["Selector"] = Some (text c) /\ (exists x, represent s = Ok x /\ look n ["Allow Spawn"] = Some x) /\
  exists l, look n ["Available Optimizers"] = Some (Map TMap l) /\ length l = length o /\
    forall i a k v, nth_error o i = Some (a, k, v) -> exists x na nk nv, nth_error l i = Some (Scalar TInt (SInt (Z.of_nat i)), x) /\
      represent a = Ok na /\ represent k = Ok nk /\ represent v = Ok nv /\
      look x ["type"] = Some na /\ look x ["init_kwargs"] = Some nk /\ look x ["call_kwargs"] = Some nv.
Proof. exact selector_shown. Qed.
Print Assumptions C83_selector.

(** A summary that was written shows the numbers, texts and objects of the manager in their places. *)
Theorem C83_content : forall m r c level plot d d', (0 < level)%nat -> save_log m r c level plot d = (Ok tt, d') ->
  exists n, d_yml d' = Some (Some n) /\ (forall p x, In (p, x) (expected m) -> look n p = Some x) /\
    (forall p v, In (p, v) (objects m) -> exists x, represent v = Ok x /\ look n p = Some x) /\
    (look n ["Checkpointing"] = None <-> m_chk m = None) /\ (look n ["Run Information"] = None <-> m_info m = None).
Proof.
  intros m r c level plot d d' L E. destruct (save_ok _ _ _ _ _ _ _ L E) as (r' & v & n & Ev & En & Y). exists n. split; [exact Y|].
  destruct (vlook_summary _ _ _ Ev) as (A & B & C & _). destruct (C n En) as [C1 C2]. splits; try assumption.
  - intros p x I. destruct (A p x I) as (u & V & R). destruct (vlook_look _ _ _ _ En V) as (y & R' & G). congruence.
  - intros p u I. exact (vlook_look _ _ _ _ En (B p u I)).
Qed.
Print Assumptions C83_content.
(** It can be read without Python if and only if what it takes over as it is can. *)
Theorem C83_readable : forall m r c level plot d d', (0 < level)%nat -> save_log m r c level plot d = (Ok tt, d') ->
  exists n, d_yml d' = Some (Some n) /\ (native n = true <-> forall t u, In t (given m) -> within u t -> ~ foreign u).
Proof.
  intros m r c level plot d d' L E. destruct (save_ok _ _ _ _ _ _ _ L E) as (r' & v & n & Ev & En & Y). exists n. split; [exact Y|].
  rewrite (native_iff v n En). pose proof (summary_reaches foreign m r' v foreign_plain Ev) as H. rewrite Exists_exists in H. split.
  - intros N t u I W F. destruct (proj2 H) as (x & W' & F'); [|exact (N x W' F')]. exists t. split; [exact I|now exists u].
  - intros N u W F. destruct (proj1 H) as (t & I & x & W' & F'); [now exists u|]. exact (N t x I W' F').
Qed.
Print Assumptions C83_readable.
(** When write_summary_file succeeds. *)
Theorem C83_written : forall m d, (exists d', write_summary_file m d = (Ok tt, d')) <->
  (m_start m = true -> m_end m = true) /\ (m_checker m <> "" /\ m_checker m <> "[") /\ (forall h, m_hunters m = Some h -> h <> "" /\ h <> "[") /\
  (forall t u, In t (given m) -> within u t -> ~ broken u).
Proof.
  intros m d. pose proof (summary_ok_iff m "Manual Save State") as H. unfold write_summary_file, save_log. cbn [Nat.ltb Nat.leb]. split.
  - intros [d' E]. destruct (summary m "Manual Save State") as [v|] eqn:Ev; [|discriminate].
    destruct (proj1 H (ex_intro _ v eq_refl)) as (A & B & C & _). refine (conj A (conj B (conj C _))).
    intros t u I W Br. pose proof (summary_reaches broken m _ v broken_plain Ev) as G. rewrite Exists_exists in G.
    destruct (proj2 G) as (x & W' & B'); [exists t; split; [exact I|now exists u]|].
    destruct (proj2 (fails_iff v)) as [e Er]; [now exists x|]. rewrite Er in E. discriminate.
  - intros (A & B & C & N). destruct (proj2 H) as [v Ev]; [refine (conj A (conj B (conj C _))); split; discriminate|]. rewrite Ev.
    destruct (represent v) as [n|e] eqn:En; [eauto|]. exfalso. destruct (proj1 (fails_iff v) (ex_intro _ e En)) as (x & W & Br).
    pose proof (summary_reaches broken m _ v broken_plain Ev) as G. rewrite Exists_exists in G.
    destruct (proj1 G) as (t & I & u & W' & Br'); [now exists x|]. exact (N t u I W' Br').
Qed.
Print Assumptions C83_written.
(** Which files a level writes; the others stay as they are. *)
Theorem C83_levels : forall m r c level plot d d', save_log m r c level plot d = (Ok tt, d') ->
  (level = 0%nat -> d' = d) /\ (level < 2 -> d_png d' = d_png d)%nat /\ (level < 3 -> d_h5 d' = d_h5 d)%nat /\
  ((1 <= level)%nat -> exists n, d_yml d' = Some (Some n)) /\ ((2 <= level)%nat -> d_png d' = true) /\
  ((3 <= level)%nat -> exists l, d_h5 d' = Some l /\ In ("username", m_user m) l /\
     match c with Some s => s <> "" -> In ("exit_reason", "Process Crash: " ++ s) l | None => In ("exit_reason", r) l end).
Proof.
  intros m r c level plot d d' E.
  assert (Y : (1 <= level)%nat -> exists n, d_yml d' = Some (Some n)).
  { intros L. destruct (save_ok _ _ _ _ _ _ _ L E) as (r' & v & n & _ & _ & G). eauto. }
  unfold save_log in E. destruct level as [|[|[|level]]]; cbn [Nat.ltb Nat.leb] in E.
  - inversion E; subst. splits; auto; lia.
  - destruct (summary m _) as [v|]; [|discriminate]. destruct (represent v) as [n|]; [|discriminate]. inversion E; subst. splits; auto; lia.
  - destruct (summary m _) as [v|]; [|discriminate]. destruct (represent v) as [n|]; [|discriminate]. destruct plot; [discriminate|]. inversion E; subst. splits; auto; lia.
  - destruct (summary m _) as [v|]; [|discriminate]. destruct (represent v) as [n|]; [|discriminate]. destruct plot; [discriminate|]. inversion E; subst. splits; auto; try lia.
    intros _. eexists. splits; [reflexivity|right; now left|]. destruct c as [s|]; [|right; right; right; now left].
    intros N. apply String.eqb_neq in N. rewrite N. right; right; right; now left.
Qed.
Print Assumptions C83_levels.

(** ** What is not shown *)
(** The elements of a container of a class of its own do not appear at all. *)
Theorem C83_elements_refuted : exists c ct ct' l n, ct <> ct' /\ represent (VObj c ct l) = Ok n /\ represent (VObj c ct' l) = Ok n.
Proof.
  exists "defaultdict", [VStr "workers"; VInt 4], [], [Attr "__len__" true (Ok (VFunc "len")); Attr "default_factory" false (Ok VNone)].
  eexists. split; [discriminate|]. vm_compute. now split.
Qed.
Print Assumptions C83_elements_refuted.
(** The name of a function given as task does not appear: every such task is called "function". *)
Theorem C83_task_name_never : forall m f r c level plot d d', (0 < level)%nat -> m_task m = VFunc f -> save_log m r c level plot d = (Ok tt, d') ->
  exists n, d_yml d' = Some (Some n) /\ look n ["Assignment"; "Task"] = Some (text "function").
Proof.
  intros m f r c level plot d d' L T E. destruct (save_ok _ _ _ _ _ _ _ L E) as (r' & v & n & Ev & En & Y). exists n. split; [exact Y|].
  destruct (vlook_summary _ _ _ Ev) as (_ & _ & _ & V). rewrite T in V. destruct (vlook_look _ _ _ _ En V) as (x & R & G). rewrite G. injection R as <-. reflexivity.
Qed.
Print Assumptions C83_task_name_never.
(** While a session is running no summary can be written, but the file stays as it is. *)
Theorem C83_running_raises : forall m d, m_start m = true -> m_end m = false -> write_summary_file m d = (Err TypeError, d).
Proof. intros m d A B. unfold write_summary_file, save_log, summary. rewrite A, B. reflexivity. Qed.
Print Assumptions C83_running_raises.

(** ** Examples *)
Definition ex_cma : val := VClass true "CMAOptimizer".
Definition ex_sel (spawn : val) : val :=
  VSel "CycleSelector" spawn [(ex_cma, VDict [(VStr "workers", VInt 1)], VDict [(VStr "sigma0", VFloat (Fin (1#2)))]);
                              (VClass true "RandomOptimizer", VNone, VNone)].
Definition ex_gen (a : res val) : val :=
  VGen "RandomGenerator" [Attr "__class__" true (Ok (VClass true "RandomGenerator")); Attr "bounds" false (Ok (VTuple [VInt 0; VInt 1]));
     Attr "generate" true (Ok (VFunc "generate")); Attr "logger" false (Ok (VObj "Logger" [] [])); Attr "n_params" false a].
Definition ex_mng gen sel task started ended : mng :=
  mkMng "2.0" task "/home" "me" "here" [("a", "b")] "1:00" started ended "0:30" gen "MaxFuncCalls(10)" (Some "[A() and B()]") sel 4 (VBounds [("(0, 1)", [1%nat; 2%nat])])
    25 3 6 2 1 None None (VFloat (Fin 2)) (VDict [(VStr "opt_id", VInt 3); (VStr "type", VStr "CMAOptimizer")]) (Some [VNumpy (NpFloat (Fin 1)); VFloat (Fin 2)]).
Definition ex_spawn : val := VObj "IterSpawnStop" [] [Attr "_private" false (Ok (VTuple [])); Attr "max_calls" false (Ok (VInt 1000)); Attr "run" true (Ok (VFunc "run"))].
Definition ex_good : mng := ex_mng (ex_gen (Ok (VInt 2))) (ex_sel ex_spawn) (VObj "Sphere" [] []) true true.
Definition ex_empty : dirc := mkDir None false None.

(** A manager with an object as spawn rule: everything in its place, readable without Python. *)
Example C83_met : exists n, write_summary_file ex_good ex_empty = (Ok tt, mkDir (Some (Some n)) false None) /\ native n = true /\
  look n ["Settings"; "Optimizer Selector"; "Allow Spawn"; "IterSpawnStop"; "max_calls"] = Some (Scalar TInt (SInt 1000)) /\
  look n ["Settings"; "Optimizer Selector"; "Allow Spawn"; "IterSpawnStop"; "_private"] = None /\
  look n ["Settings"; "x0 Generator"; "n_params"] = Some (Scalar TInt (SInt 2)) /\ look n ["Settings"; "x0 Generator"; "bounds"] = None /\
  look n ["Counters"; "Optimizers"; "Started"] = Some (numeral 6) /\ look n ["Assignment"; "Task"] = Some (text "Sphere") /\
  look n ["Solution"; "x"] = Some (Seq TSeq true [Scalar TFloat (SFloat (Fin 1)); Scalar TFloat (SFloat (Fin 2))]).
Proof.
  destruct (write_summary_file ex_good ex_empty) as [r d] eqn:E. vm_compute in E. injection E as <- <-. eexists. split; [reflexivity|]. vm_compute. repeat split.
Qed.
Example C83_levels_met : exists d, save_log ex_good "done" (Some "boom") 3 None ex_empty = (Ok tt, d) /\ d_png d = true /\
  exists l, d_h5 d = Some l /\ In ("exit_reason", "Process Crash: boom") l.
Proof. eexists. split; [reflexivity|]. split; [reflexivity|]. eexists. split; [reflexivity|]. cbn. tauto. Qed.
(** A reachable value without a type in YAML and a reachable attribute that cannot be read. *)
Example C83_within_met : within (VTuple [VInt 1]) (VObj "IterSpawnStop" [] [Attr "range" false (Ok (VTuple [VInt 1]))]) /\ foreign (VTuple [VInt 1]) /\
  broken (ex_gen (Err AttributeError)).
Proof. splits; [eapply (W_obj _ _ _ _ "range"); [now left|reflexivity|apply W_here]|exact I|]. exists "n_params", false, AttributeError. split; [cbn; tauto|reflexivity]. Qed.
Example C83_names_met : NoDup (names [Attr "_private" false (Ok (VTuple [])); Attr "max_calls" false (Ok (VInt 1000)); Attr "run" true (Ok (VFunc "run"))]).
Proof. cbn. repeat constructor; cbn; intuition congruence. Qed.

(** A function as spawn rule, as the documentation of the selector allows: the else of helpers.py 441 is never taken, the file holds
    a tag only Python understands. *)
Theorem C83_readable_refuted : exists m n, write_summary_file m ex_empty = (Ok tt, mkDir (Some (Some n)) false None) /\ native n = false /\
  look n ["Settings"; "Optimizer Selector"; "Allow Spawn"] = Some (Scalar (TPyName "module.stop_spawning") (SText "")).
Proof.
  exists (ex_mng (ex_gen (Ok (VInt 2))) (ex_sel (VFunc "module.stop_spawning")) (VObj "Sphere" [] []) true true).
  destruct (write_summary_file _ ex_empty) as [r d] eqn:E. vm_compute in E. injection E as <- <-. eexists. split; [reflexivity|]. vm_compute. repeat split.
Qed.
Print Assumptions C83_readable_refuted.
(** The file is opened before anything is known about success: a summary that existed is lost when the new one cannot be written. *)
Theorem C83_kept_refuted : exists m d n e d', d_yml d = Some (Some n) /\ write_summary_file m d = (Err e, d') /\ d_yml d' = Some None.
Proof.
  exists (ex_mng (ex_gen (Err AttributeError)) (ex_sel ex_spawn) (VObj "Sphere" [] []) true true), (mkDir (Some (Some (text "old"))) false None).
  eexists _, _, _. vm_compute. repeat split.
Qed.
Print Assumptions C83_kept_refuted.
(** Two managers for different functions, the same words about the task. *)
Example C83_task_met : exists n n', write_summary_file (ex_mng (ex_gen (Ok (VInt 2))) (ex_sel ex_spawn) (VFunc "f") true true) ex_empty = (Ok tt, mkDir (Some (Some n)) false None) /\
  write_summary_file (ex_mng (ex_gen (Ok (VInt 2))) (ex_sel ex_spawn) (VFunc "g") true true) ex_empty = (Ok tt, mkDir (Some (Some n')) false None) /\ n = n'.
Proof. eexists _, _. vm_compute. repeat split. Qed.
(** A defaultdict as arguments: its entries do not appear. *)
Example C83_content_met : represent (VObj "defaultdict" [VStr "workers"; VInt 4] [Attr "__len__" true (Ok (VFunc "len")); Attr "default_factory" false (Ok VNone)])
  = Ok (Map TMap [(text "defaultdict", Map TMap [(text "default_factory", null)])]).
Proof. reflexivity. Qed.
Example C83_running_met : write_summary_file (ex_mng (ex_gen (Ok (VInt 2))) (ex_sel ex_spawn) (VFunc "f") true false) ex_empty = (Err TypeError, ex_empty).
Proof. reflexivity. Qed.

(** ** Reading the file again *)
(** Whatever has a counterpart of basic types is read back as that: numbers, texts, sets, lists and dictionaries as they were, arrays
    and numpy's scalars as lists and numbers. *)
Theorem C83_round_trip : forall v w, basic v = Some w -> exists n, represent v = Ok n /\ reload n = Some w.
Proof. exact round_trip. Qed.
Print Assumptions C83_round_trip.
(** Arrays and the lists marked for it stand on one line, element by element; other lists do not. *)
Theorem C83_one_line : forall l n,
  (represent (VFlow l) = Ok n \/ represent (VArray l) = Ok n -> exists ns, n = Seq TSeq true ns /\ Forall2 (fun u x => represent u = Ok x) l ns) /\
  (represent (VList l) = Ok n -> exists ns, n = Seq TSeq false ns /\ Forall2 (fun u x => represent u = Ok x) l ns).
Proof.
  intros l n. split; [intros [E|E]|intros E]; cbn [represent] in E; apply rmap_ok in E as (ns & E & ->); exists ns; (split; [reflexivity|]); now apply mapM_ok.
Qed.
Print Assumptions C83_one_line.
(** What begins with an underscore is never shown; nor are the logger and the bounds of a generator. *)
Theorem C83_hidden : forall c ct l n k,
  (represent (VObj c ct l) = Ok n -> look n [c; String "_" k] = None) /\
  (represent (VGen c l) = Ok n -> look n [String "_" k] = None /\ look n ["logger"] = None /\ look n ["bounds"] = None).
Proof.
  intros c ct l n k. split; intros E; cbn [represent] in E; (destruct (first_error l); [discriminate|]);
    apply rmap_ok in E as (ns & E & ->); apply mapM_ok in E; cbn [look]; rewrite ?entry_text.
  - rewrite String.eqb_refl. pose proof (attrs_hidden public l ns (String "_" k) E eq_refl) as H.
    destruct (somes ns) as [|y ys]; [reflexivity|]. now rewrite H.
  - cbn [String.eqb Ascii.eqb Bool.eqb]. splits; [rewrite (attrs_hidden shown_gen l ns (String "_" k) E eq_refl)|rewrite (attrs_hidden shown_gen l ns "logger" E eq_refl)|rewrite (attrs_hidden shown_gen l ns "bounds" E eq_refl)]; reflexivity.
Qed.
Print Assumptions C83_hidden.
(** An object with nothing to show: its name and null. *)
Theorem C83_nothing_to_show : forall c ct l n, (forall k f u, In (Attr k f (Ok u)) l -> f = true \/ exists k', k = String "_" k') ->
  represent (VObj c ct l) = Ok n -> reload n = Some (VDict [(VStr c, VNone)]).
Proof.
  intros c ct l n H E. cbn [represent] in E. destruct (first_error l); [discriminate|]. apply rmap_ok in E as (ns & E & ->). apply mapM_ok in E.
  assert (somes ns = []) as ->; [|reflexivity].
  induction E as [|[k f [u|e]] b l ns E F IH]; [reflexivity| |].
  - assert (b = None) as ->.
    { destruct (H k f u (or_introl eq_refl)) as [->|[k' ->]]; [rewrite Bool.andb_false_r in E|]; now injection E as <-. }
    apply IH. intros k' f' u' I. apply (H k' f' u'). now right.
  - injection E as <-. apply IH. intros k' f' u' I. apply (H k' f' u'). now right.
Qed.
Print Assumptions C83_nothing_to_show.
(** The solution: why the optimization ended, that of an exception if there was one, and the parameters on one line. *)
Theorem C83_solution : forall m r c level plot d d', (0 < level)%nat -> save_log m r c level plot d = (Ok tt, d') ->
  exists n t, d_yml d' = Some (Some n) /\ nested_string_formatting (told r c) = Ok t /\ look n ["Solution"; "exit cond."] = Some (text (unpad t)) /\
    (forall l, m_x m = Some l -> exists ns, look n ["Solution"; "x"] = Some (Seq TSeq true ns) /\ Forall2 (fun u x => represent u = Ok x) l ns) /\
    (m_x m = None -> look n ["Solution"; "x"] = Some null).
Proof.
  intros m r c level plot d d' L E. destruct (save_ok_told _ _ _ _ _ _ _ L E) as (v & n & Ev & En & Y).
  destruct (vlook_summary _ _ _ Ev) as (_ & B & _). pose proof Ev as Ev'. unfold summary in Ev. destruct (m_start m && negb (m_end m)); [discriminate|].
  destruct (nested_string_formatting (m_checker m)) as [ch|]; [|discriminate].
  destruct (match m_hunters m with None => _ | Some h => _ end) as [h|]; [|discriminate].
  destruct (nested_string_formatting (told r c)) as [t|] eqn:Et; [|discriminate]. exists n, t. splits; try assumption; try reflexivity.
  - injection Ev as Ev. destruct (vlook_look ["Solution"; "exit cond."] v n (VLiteral t) En) as (x & R & G).
    { rewrite <- Ev. destruct (m_info m), (m_chk m) as [[? ?]|]; reflexivity. }
    rewrite G. now injection R as <-.
  - intros l Hl. destruct (vlook_look ["Solution"; "x"] v n (VFlow l) En) as (x & R & G).
    { apply B. unfold objects. rewrite Hl. apply in_or_app. right. now left. }
    cbn [represent] in R. apply rmap_ok in R as (ns & R & ->). exists ns. split; [exact G|]. now apply mapM_ok.
  - intros Hl. destruct (vlook_look ["Solution"; "x"] v n VNone En) as (x & R & G).
    { apply B. unfold objects. rewrite Hl. apply in_or_app. right. now left. }
    injection R as <-. exact G.
Qed.
Print Assumptions C83_solution.
(** The task goes by the name of its class. *)
Theorem C83_task : forall m cls ct l r c level plot d d', (0 < level)%nat -> m_task m = VObj cls ct l -> save_log m r c level plot d = (Ok tt, d') ->
  exists n, d_yml d' = Some (Some n) /\ look n ["Assignment"; "Task"] = Some (text cls).
Proof.
  intros m cls ct l r c level plot d d' L T E. destruct (save_ok _ _ _ _ _ _ _ L E) as (r' & v & n & Ev & En & Y). exists n. split; [exact Y|].
  destruct (vlook_summary _ _ _ Ev) as (_ & _ & _ & V). rewrite T in V. destruct (vlook_look _ _ _ _ En V) as (x & R & G). rewrite G. injection R as <-. reflexivity.
Qed.
Print Assumptions C83_task.
(** A text marked as literal: at the end of each line one space, if there is one, is dropped, from left to right, and nothing else. *)
Theorem C83_literal : forall s t, (forall a b, s <> a ++ pad ++ b) ->
  unpad s = s /\ unpad (s ++ pad ++ t) = s ++ String (ascii_of_nat 10) (unpad t).
Proof.
  intros s t. induction s as [|a s IH]; intros N.
  - split; reflexivity.
  - assert (N' : forall x b, s <> x ++ pad ++ b) by (intros x b ->; now apply (N (String a x) b)). destruct (IH N') as [I1 I2]. split.
    + rewrite unpad_cons, I1; [reflexivity|]. intros s' E. now apply (N "" s').
    + cbn [append]. rewrite unpad_cons.
      * rewrite I2. reflexivity.
      * intros s' E. destruct s as [|y s]; [discriminate|]. cbn in E. injection E as -> -> E. now apply (N "" s).
Qed.
Print Assumptions C83_literal.
Example C83_basic_met : basic (VDict [(VStr "x", VArray [VNumpy (NpFloat (Fin 1)); VFloat (Fin 2)]); (VStr "s", VSet [VInt 3])])
  = Some (VDict [(VStr "x", VList [VFloat (Fin 1); VFloat (Fin 2)]); (VStr "s", VSet [VInt 3])]).
Proof. reflexivity. Qed.
Example C83_literal_met : unpad ("a" ++ pad ++ "b " ++ pad) = "a" ++ String (ascii_of_nat 10) ("b " ++ String (ascii_of_nat 10) "").
Proof. reflexivity. Qed.
Example C83_solution_met : exists d n, save_log ex_good "done" (Some "boom") 1 None ex_empty = (Ok tt, d) /\ d_yml d = Some (Some n) /\
  look n ["Solution"; "exit cond."] = Some (text "Process Crash: boom").
Proof. eexists _, _. vm_compute. repeat split. Qed.
Example C83_nothing_met : represent (VObj "Sphere" [] [Attr "_n" false (Ok (VInt 1)); Attr "run" true (Ok (VFunc "run"))]) = Ok (Map TMap [(text "Sphere", null)]).
Proof. reflexivity. Qed.
