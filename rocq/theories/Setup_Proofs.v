(** * Lemmas about the initialisation of the manager *)
From Verif Require Import Prelude Prelude_Proofs Helpers_Model Helpers_Spec Helpers_Proofs Setup_Model Setup_Spec.

Lemma attr_set k k' v m : attr k (sset k' v m) = if String.eqb k k' then v else attr k m.
Proof. unfold attr. rewrite sget_sset. destruct (String.eqb k k'); reflexivity. Qed.

(** Each step of setup either writes what it should or raises because of its argument. *)
Lemma jobs_step e v m :
  (setup_jobs e v m = (Ok tt, sset "max_jobs" (if truthy v then v else VInt (e_cpus e - 1)) m) /\
   default_or (v = VBool true \/ exists z, v = VInt z /\ (0 < z)%Z) v) \/
  (exists x, setup_jobs e v m = (Err x, m)) /\ ~ default_or (v = VBool true \/ exists z, v = VInt z /\ (0 < z)%Z) v.
Proof.
  unfold setup_jobs, default_or, put, modify, raise, lift, bind. destruct (truthy v) eqn:T; [|left; auto].
  destruct v as [|b|z|x|s|l|i cs t c]; cbn in T; try discriminate;
    try (right; split; [eexists; reflexivity| intros [X|[X|[z [X _]]]]; discriminate]).
  - subst b. left. cbn. split; [reflexivity|right; left; reflexivity].
  - cbn. destruct (Z.ltb 0 z) eqn:L.
    + left. split; [reflexivity|]. right. right. exists z. apply Z.ltb_lt in L. auto.
    + right. split; [eexists; reflexivity|]. intros [X|[X|[w [X Y]]]]; try discriminate.
      injection X as <-. apply Z.ltb_ge in L. lia.
  - cbn [isinstance]. destruct (existsb (String.eqb "int") cs) eqn:I.
    + right. cbn. split; [eexists; reflexivity|]. intros [X|[X|[w [X _]]]]; discriminate.
    + right. split; [eexists; reflexivity|]. intros [X|[X|[w [X _]]]]; discriminate.
Qed.

Lemma opt_step k cls v d m :
  (setup_opt k cls v d m = (Ok tt, sset k (if truthy v then v else d) m) /\ default_or (isinstance v cls = true) v) \/
  (exists x, setup_opt k cls v d m = (Err x, m)) /\ ~ default_or (isinstance v cls = true) v.
Proof.
  unfold setup_opt, default_or, put, modify, raise. destruct (truthy v) eqn:T; [|left; auto].
  destruct (isinstance v cls) eqn:I; [left; auto|].
  right. split; [eexists; reflexivity|intros [X|X]; discriminate].
Qed.

Lemma exceeds_step v n :
  ((exists b, exceeds v n = Ok b) /\ a_number v) \/ (exists x, exceeds v n = Err x) /\ ~ a_number v.
Proof.
  unfold a_number. destruct v; cbn;
    try (left; split; [eexists; reflexivity|]; eauto; fail);
    right; (split; [eexists; reflexivity|intros [[? X]|[[? X]|[? X]]]; discriminate]).
Qed.

Lemma int_step v :
  ((exists z, to_int v = Ok z) /\ ((exists b, v = VBool b) \/ (exists z, v = VInt z) \/ (exists q, v = VFloat (Fin q)))) \/
  (exists x, to_int v = Err x) /\ ~ ((exists b, v = VBool b) \/ (exists z, v = VInt z) \/ (exists q, v = VFloat (Fin q))).
Proof.
  destruct v as [|b|z|[| |q|]|s|l|i cs t c]; cbn;
    try (left; split; [eexists; reflexivity|]; eauto; fail);
    right; (split; [eexists; reflexivity|intros [[? X]|[[? X]|[? X]]]; discriminate]).
Qed.

Lemma scope_step e v va m :
  (setup_scope e v va m = (Ok tt, if truthy v then match e_scope e with Ok _ => sset "visualisation_args" va (sset "visualisation" v m)
                                                 | Err _ => sset "visualisation" (VBool false) m end else m) /\
   default_or (e_scope e = Ok tt \/ e_scope e = Err ImportError) v) \/
  (exists x m', setup_scope e v va m = (Err x, m') /\ attr "_is_restart" m' = attr "_is_restart" m) /\ ~ default_or (e_scope e = Ok tt \/ e_scope e = Err ImportError) v.
Proof.
  unfold setup_scope, default_or, put, modify, bind, raise, ret. destruct (truthy v) eqn:T; [|left; auto].
  destruct (e_scope e) as [[]|x].
  - left. split; [reflexivity|auto].
  - destruct x; try (left; split; [reflexivity|auto]; fail);
      (right; split; [do 2 eexists; split; [reflexivity|rewrite !attr_set; reflexivity]|]; intros [X|[X|X]]; discriminate).
Qed.

Lemma bounds_step l : (is_bounds_valid l true = Ok true /\ Forall usable_bound l) \/ (is_bounds_valid l true = Err ValueError /\ ~ Forall usable_bound l).
Proof.
  destruct (valid_cases l true) as [E|E]; [left|right]; (split; [exact E|]); [now apply (valid_iff l true)|].
  intro F. apply (valid_iff l true) in F. rewrite F in E. discriminate.
Qed.

Definition backend_of (v : pv) : bool * bool :=
  if is_backend v "processes" || is_backend v "threads" || is_backend v "processes_forced"
  then (negb (is_backend v "threads"), negb (is_backend v "processes_forced")) else (true, true).

Lemma backend_step v m :
  setup_backend v m = (Ok tt, sset "opts_daemonic" (VBool (snd (backend_of v))) (sset "proc_backend" (VBool (fst (backend_of v))) m)).
Proof.
  unfold setup_backend, backend_of, put, modify, bind.
  destruct (is_backend v "processes" || is_backend v "threads" || is_backend v "processes_forced"); reflexivity.
Qed.

Lemma timeout_step v m :
  setup_timeout v m = (Ok tt, sset "end_timeout" (if truthy v then v else if truthy (attr "proc_backend" m) then VInt 10 else VNone) m).
Proof.
  unfold setup_timeout, put, modify, bind, gets. destruct (truthy v); [reflexivity|].
  destruct (truthy (attr "proc_backend" m)); reflexivity.
Qed.

(** The settings after a successful setup. *)
Definition settings_ok (e : env) (a : args) (m' : attrs) : Prop :=
  attr "_is_restart" m' = VBool false /\
  attr "working_dir" m' = (if isinstance (a_dir a) "Path" || isinstance (a_dir a) "str" then a_dir a else VStr ".") /\
  attr "task" m' = a_task a /\ attr "opt_selector" m' = a_selector a /\
  attr "bounds" m' = VBounds (a_bounds a) /\ attr "n_parms" m' = VInt (Z.of_nat (length (a_bounds a))) /\
  attr "max_jobs" m' = (if truthy (a_jobs a) then a_jobs a else VInt (e_cpus e - 1)) /\
  attr "convergence_checker" m' = (if truthy (a_checker a) then a_checker a else default_checker) /\
  attr "x0_generator" m' = (if truthy (a_gen a) then a_gen a else default_gen) /\
  attr "killing_conditions" m' = (if truthy (a_hunter a) then a_hunter a else VNone) /\
  (exists f, exceeds (a_force a) 0 = Ok f /\ attr "allow_forced_terminations" m' = VBool f) /\
  attr "_too_long" m' = a_force a /\ attr "aggressive_kill" m' = a_aggressive a /\
  attr "summary_files" m' = a_summary a /\ attr "is_log_detailed" m' = a_detailed a /\
  attr "split_printstreams" m' = VBool (truthy (a_split a)) /\ attr "overwrite_existing" m' = VBool (truthy (a_overwrite a)) /\
  attr "hunt_frequency" m' = a_hfreq a /\ attr "spawning_opts" m' = VBool true /\ attr "incumbent_sharing" m' = a_share a /\
  (exists s, to_int (a_status a) = Ok s /\ attr "status_frequency" m' = VInt s) /\
  attr "checkpoint_control" m' = (if isinstance (a_control a) "CheckpointingControl" && e_dill e then a_control a else VNone) /\
  (truthy (a_vis a) = true -> e_scope e = Ok tt -> attr "visualisation" m' = a_vis a) /\
  (exists b, exceeds (a_summary a) 2 = Ok b /\ attr "opt_log" m' = log_class b) /\
  attr "proc_backend" m' = VBool (fst (backend_of (a_backend a))) /\
  attr "opts_daemonic" m' = VBool (snd (backend_of (a_backend a))) /\
  attr "end_timeout" m' = (if truthy (a_timeout a) then a_timeout a else if fst (backend_of (a_backend a)) then VInt 10 else VNone).

Lemma bind_ok {A B} (f : M attrs A) (g : A -> M attrs B) m a m' : f m = (Ok a, m') -> bind f g m = g a m'.
Proof. intro E. unfold bind. now rewrite E. Qed.
Lemma bind_err {A B} (f : M attrs A) (g : A -> M attrs B) m x m' : f m = (Err x, m') -> bind f g m = (Err x, m').
Proof. intro E. unfold bind. now rewrite E. Qed.
Lemma bind_put {B} k v (g : unit -> M attrs B) m : bind (put k v) g m = g tt (sset k v m).
Proof. reflexivity. Qed.
Lemma bind_lift {A B} (a : A) (g : A -> M attrs B) m : bind (lift (Ok a)) g m = g a m.
Proof. reflexivity. Qed.
Lemma bind_lift_err {A B} x (g : A -> M attrs B) m : bind (lift (Err x)) g m = (Err x, m).
Proof. reflexivity. Qed.
Lemma bind_gets {A B} (h : attrs -> A) (g : A -> M attrs B) m : bind (gets h) g m = g (h m) m.
Proof. reflexivity. Qed.
Lemma bind_raise {A B} x (g : A -> M attrs B) m : bind (raise x) g m = (Err x, m).
Proof. reflexivity. Qed.

(** What setup does, in one statement. *)
Definition setup_outcome (e : env) (a : args) (p : res unit * attrs) : Prop :=
  match p with
  | (Ok _, m') => usable_args e a /\ settings_ok e a m'
  | (Err x, m') => ~ usable_args e a /\
      (is_initialised m' = false \/ (e_at_init e = true /\ truthy (attr "checkpoint_control" m') = true /\ e_chk e = Err x))
  end.

Lemma setup_cases e a m : is_initialised m = false -> setup_outcome e a (setup e a m).
Proof.
  intro U. assert (N : forall m', attr "_is_restart" m' = attr "_is_restart" m -> is_initialised m' = false).
  { intros m' E. unfold is_initialised in *. rewrite E. exact U. }
  unfold setup. rewrite bind_gets, U, bind_put.
  set (m1 := sset "working_dir" _ m).
  destruct (callable (a_task a)) eqn:T.
  2:{ rewrite bind_raise. split; [intros [X ? ? ? ? ? ? ? ? ? ? ?]; congruence|].
      left. apply N. unfold m1. now rewrite attr_set. }
  rewrite bind_put. set (m2 := sset "task" _ m1).
  destruct (isinstance (a_selector a) "BaseSelector") eqn:S.
  2:{ rewrite bind_raise. split; [intros [? X ? ? ? ? ? ? ? ? ? ?]; congruence|].
      left. apply N. unfold m2, m1. now rewrite !attr_set. }
  rewrite bind_put. set (m3 := sset "opt_selector" _ m2).
  destruct (bounds_step (a_bounds a)) as [[B1 B2]|[B1 B2]]; rewrite B1.
  2:{ rewrite bind_lift_err. split; [intros [? ? X ? ? ? ? ? ? ? ? ?]; congruence|].
      left. apply N. unfold m3, m2, m1. now rewrite !attr_set. }
  rewrite bind_lift, bind_put. set (m4 := sset "bounds" _ m3).
  rewrite bind_put. set (m5 := sset "n_parms" _ m4).
  destruct (jobs_step e (a_jobs a) m5) as [[J1 J2]|[[x J1] J2]].
  2:{ erewrite bind_err by exact J1. split; [intros [? ? ? X ? ? ? ? ? ? ? ?]; contradiction|].
      left. apply N. unfold m5, m4, m3, m2, m1. now rewrite !attr_set. }
  erewrite bind_ok by exact J1. set (m6 := sset "max_jobs" _ m5).
  destruct (opt_step "convergence_checker" "BaseChecker" (a_checker a) default_checker m6) as [[C1 C2]|[[x C1] C2]].
  2:{ erewrite bind_err by exact C1. split; [intros [? ? ? ? X ? ? ? ? ? ? ?]; contradiction|].
      left. apply N. unfold m6, m5, m4, m3, m2, m1. now rewrite !attr_set. }
  erewrite bind_ok by exact C1. set (m7 := sset "convergence_checker" _ m6).
  destruct (opt_step "x0_generator" "BaseGenerator" (a_gen a) default_gen m7) as [[G1 G2]|[[x G1] G2]].
  2:{ erewrite bind_err by exact G1. split; [intros [? ? ? ? ? X ? ? ? ? ? ?]; contradiction|].
      left. apply N. unfold m7, m6, m5, m4, m3, m2, m1. now rewrite !attr_set. }
  erewrite bind_ok by exact G1. set (m8 := sset "x0_generator" _ m7).
  destruct (opt_step "killing_conditions" "BaseHunter" (a_hunter a) VNone m8) as [[H1 H2]|[[x H1] H2]].
  2:{ erewrite bind_err by exact H1. split; [intros [? ? ? ? ? ? X ? ? ? ? ?]; contradiction|].
      left. apply N. unfold m8, m7, m6, m5, m4, m3, m2, m1. now rewrite !attr_set. }
  erewrite bind_ok by exact H1. set (m9 := sset "killing_conditions" _ m8).
  assert (R9 : attr "_is_restart" m9 = attr "_is_restart" m).
  { unfold m9, m8, m7, m6, m5, m4, m3, m2, m1. now rewrite !attr_set. }
  destruct (exceeds_step (a_force a) 0) as [[[f F1] F2]|[[x F1] F2]]; rewrite F1.
  2:{ rewrite bind_lift_err. split; [intros [? ? ? ? ? ? ? X ? ? ? ?]; contradiction|]. left. auto. }
  rewrite bind_lift, !bind_put.
  match goal with |- context [bind (lift (to_int _)) _ ?X] => set (m10 := X) end.
  assert (R10 : attr "_is_restart" m10 = attr "_is_restart" m) by (unfold m10; rewrite !attr_set; exact R9).
  destruct (int_step (a_status a)) as [[[st I1] I2]|[[x I1] I2]]; rewrite I1.
  2:{ rewrite bind_lift_err. split; [intros [? ? ? ? ? ? ? ? X ? ? ?]; contradiction|]. left. auto. }
  rewrite bind_lift, !bind_put.
  set (m11 := sset "checkpoint_control" _ _).
  destruct (scope_step e (a_vis a) (a_visargs a) m11) as [[V1 V2]|[[x [mx [V1 V3]]] V2]].
  2:{ erewrite bind_err by exact V1. split; [intros [? ? ? ? ? ? ? ? ? X ? ?]; contradiction|].
      left. apply N. rewrite V3. unfold m11. rewrite !attr_set. exact R10. }
  erewrite bind_ok by exact V1.
  match goal with |- context [bind (lift (exceeds (a_summary a) 2)) _ ?X] => set (m12 := X) end.
  assert (R12 : attr "_is_restart" m12 = attr "_is_restart" m).
  { unfold m12. destruct (truthy (a_vis a)); [destruct (e_scope e)|]; unfold m11; rewrite ?attr_set; exact R10. }
  destruct (exceeds_step (a_summary a) 2) as [[[big S1] S2]|[[x S1] S2]]; rewrite S1.
  2:{ rewrite bind_lift_err. split; [intros [? ? ? ? ? ? ? ? ? ? X ?]; contradiction|]. left. auto. }
  rewrite bind_lift, bind_put. set (m13 := sset "opt_log" _ m12).
  erewrite bind_ok by apply backend_step. erewrite bind_ok by apply timeout_step. rewrite bind_put, bind_gets.
  set (m14 := sset "_is_restart" _ _).
  assert (K : attr "checkpoint_control" m14 = if isinstance (a_control a) "CheckpointingControl" && e_dill e then a_control a else VNone).
  { unfold m14, m13. rewrite !attr_set. cbn [String.eqb Ascii.eqb Bool.eqb]. unfold m12.
    destruct (truthy (a_vis a)); [destruct (e_scope e)|]; rewrite ?attr_set; cbn [String.eqb Ascii.eqb Bool.eqb]; unfold m11; rewrite !attr_set; reflexivity. }
  assert (Z : settings_ok e a m14).
  { assert (W : forall k, attr k m14 = if String.eqb k "_is_restart" then VBool false else if String.eqb k "end_timeout" then
        (if truthy (a_timeout a) then a_timeout a else if fst (backend_of (a_backend a)) then VInt 10 else VNone) else
        if String.eqb k "opts_daemonic" then VBool (snd (backend_of (a_backend a))) else
        if String.eqb k "proc_backend" then VBool (fst (backend_of (a_backend a))) else
        if String.eqb k "opt_log" then log_class big else attr k m12).
    { intro k. unfold m14, m13. rewrite !attr_set. cbn [truthy]. reflexivity. }
    assert (W2 : forall k, k <> "visualisation"%string -> k <> "visualisation_args"%string -> attr k m12 = attr k m11).
    { intros k A1 A2. unfold m12. apply String.eqb_neq in A1. apply String.eqb_neq in A2.
      destruct (truthy (a_vis a)); [destruct (e_scope e)|]; rewrite ?attr_set, ?A1, ?A2; reflexivity. }
    assert (G : forall k, k <> "visualisation"%string -> k <> "visualisation_args"%string -> existsb (String.eqb k)
              ["_is_restart"; "end_timeout"; "opts_daemonic"; "proc_backend"; "opt_log"]%string = false -> attr k m14 = attr k m11).
    { intros k A1 A2 A3. rewrite W. cbn in A3. repeat (apply orb_false_iff in A3; destruct A3 as [?A A3]).
      rewrite A, A0, A4, A5, A6. now apply W2. }
    unfold settings_ok. splits; try (rewrite W; reflexivity);
      try (rewrite G by first [discriminate|reflexivity]);
      try (repeat (match goal with |- attr ?k ?X = _ => unfold X end || rewrite attr_set; cbn [String.eqb Ascii.eqb Bool.eqb]); reflexivity).
    - exists f. split; [exact F1|]. unfold m11, m10. rewrite !attr_set. reflexivity.
    - exists st. split; [exact I1|]. unfold m11. rewrite !attr_set. reflexivity.
    - intros X Y. rewrite W. cbn [String.eqb Ascii.eqb Bool.eqb]. unfold m12. rewrite X, Y, !attr_set. reflexivity.
    - exists big. split; [exact S1|]. rewrite W. reflexivity. }
  destruct (truthy (attr "checkpoint_control" m14) && e_at_init e) eqn:D.
  - apply andb_true_iff in D as [D1 D2]. unfold lift. destruct (e_chk e) as [[]|x] eqn:E.
    + split; [constructor; auto|exact Z].
    + split; [|right; auto].
      intros [? ? ? ? ? ? ? ? ? ? ? X]. rewrite K in D1.
      destruct (isinstance (a_control a) "CheckpointingControl") eqn:Q1; [|discriminate].
      destruct (e_dill e) eqn:Q2; [|discriminate]. cbn in D1. specialize (X eq_refl eq_refl D1 D2). congruence.
  - split; [constructor; auto|exact Z].
    intros Q1 Q2 Q3 Q4. rewrite K, Q1, Q2 in D. cbn in D. rewrite Q3, Q4 in D. discriminate.
Qed.

(** ** Loading *)
Lemma bind_inv {A B} (f : M attrs A) (g : A -> M attrs B) m b m' :
  bind f g m = (Ok b, m') -> exists a m1, f m = (Ok a, m1) /\ g a m1 = (Ok b, m').
Proof. unfold bind. destruct (f m) as [[a|x] m1]; intro E; [eauto|discriminate]. Qed.
Lemma lift_inv {A} (r : res A) m a m' : lift r m = (Ok a, m') -> r = Ok a /\ m' = m.
Proof. unfold lift. intro E. injection E as -> ->. auto. Qed.

Lemma keys_put k k' (v : pv) m : In k (dkeys m) -> In k (dkeys (sset k' v m)).
Proof.
  unfold dkeys. induction m as [|[a b] m IH]; cbn; [tauto|]. intros [->|I].
  - destruct (String.eqb k' k); cbn; auto.
  - destruct (String.eqb k' a); cbn; auto.
Qed.

Lemma vars_attr l : forall m m' s, for_each l (fun kv => put (fst kv) (snd kv)) m = (Ok tt, m') -> NoDup (dkeys l) ->
  attr s m' = match sget s l with Some v => v | None => attr s m end.
Proof.
  induction l as [|[k v] l IH]; intros m m' s E N; cbn [for_each fst snd] in E.
  - injection E as <-. reflexivity.
  - rewrite bind_put in E. cbn [dkeys map fst] in N. inversion N; subst. rewrite (IH _ _ s E H2). cbn [dget].
    rewrite attr_set. destruct (String.eqb s k) eqn:Q; [|reflexivity].
    apply String.eqb_eq in Q. subst s. destruct (sget k l) eqn:G; [|reflexivity].
    exfalso. apply H1. clear - G. unfold dkeys. induction l as [|[a b] l IH]; cbn in *; [discriminate|].
    destruct (String.eqb k a) eqn:Q; [left; now apply String.eqb_eq in Q|right; auto].
Qed.
Lemma vars_ok l : forall m, exists m', for_each l (fun kv => put (fst kv) (snd kv)) m = (Ok tt, m').
Proof. induction l as [|[k v] l IH]; intro m; cbn [for_each fst snd]; [eexists; reflexivity|rewrite bind_put; apply IH]. Qed.
Lemma vars_keys l : forall m m' k, for_each l (fun kv => put (fst kv) (snd kv)) m = (Ok tt, m') -> In k (dkeys m) -> In k (dkeys m').
Proof.
  induction l as [|[a b] l IH]; intros m m' k E I; cbn [for_each fst snd] in E.
  - injection E as <-. exact I.
  - rewrite bind_put in E. apply (IH _ _ k E). now apply keys_put.
Qed.

(** The attributes a keyword may write. *)
Definition touched (k : string) : list string := k :: stored_as k.
Definition only (ks : list string) (m m' : attrs) : Prop :=
  (forall s, ~ In s ks -> attr s m' = attr s m) /\ (forall k, In k (dkeys m) -> In k (dkeys m')).
Lemma only_refl ks m : only ks m m.
Proof. split; auto. Qed.
Lemma only_set ks k v m m' : only ks m m' -> In k ks -> only ks m (sset k v m').
Proof.
  intros [A B] I. split; [|intros; apply keys_put; auto]. intros s Ns. rewrite attr_set.
  destruct (String.eqb s k) eqn:Q; [apply String.eqb_eq in Q; subst; contradiction|auto].
Qed.
Lemma only_trans ks m1 m2 m3 : only ks m1 m2 -> only ks m2 m3 -> only ks m1 m3.
Proof. intros [A B] [C D]. split; auto. intros s N. rewrite C by exact N. auto. Qed.
Lemma only_incl ks ks' m m' : only ks m m' -> incl ks ks' -> only ks' m m'.
Proof. intros [A B] I. split; auto. Qed.

Lemma override_only p k v m r m' : override p (k, v) m = (r, m') -> only (touched k) m m'.
Proof.
  unfold override, touched, stored_as. 
  destruct (String.eqb k "backend").
  { unfold lift, bind. destruct (mentions_processes v); intro E; injection E as _ <-; [|apply only_refl].
    repeat (apply only_set; [|cbn; auto]). apply only_refl. }
  destruct (String.eqb k "force_terminations_after").
  { unfold lift, bind. destruct (exceeds v 0); intro E; injection E as _ <-; [|apply only_refl].
    repeat (apply only_set; [|cbn; auto]). apply only_refl. }
  destruct (String.eqb k "visualisation_args"); [intro E; injection E as _ <-; apply only_refl|].
  destruct (String.eqb k "working_dir") eqn:W.
  { apply String.eqb_eq in W. subst k. intro E; injection E as _ <-. apply only_set; [apply only_refl|cbn; auto]. }
  destruct (existsb (String.eqb k) p); [|intro E; injection E as _ <-; apply only_refl].
  destruct (String.eqb k "is_initialised"); intro E; injection E as _ <-; [apply only_refl|].
  apply only_set; [apply only_refl|cbn; auto].
Qed.
Lemma overrides_only p kw : forall m r m', for_each kw (override p) m = (r, m') -> only (concat (map touched (dkeys kw))) m m'.
Proof.
  induction kw as [|[k v] kw IH]; intros m r m' E; cbn [for_each] in E.
  - injection E as _ <-. apply only_refl.
  - cbn [dkeys map concat fst]. unfold bind in E. destruct (override p (k, v) m) as [[a|x] m1] eqn:O.
    + eapply only_trans; [eapply only_incl; [exact (override_only _ _ _ _ _ _ O)|apply incl_appl, incl_refl]|].
      eapply only_incl; [exact (IH _ _ _ E)|apply incl_appr, incl_refl].
    + injection E as _ <-. eapply only_incl; [exact (override_only _ _ _ _ _ _ O)|apply incl_appl, incl_refl].
Qed.

(** The keywords with an attribute of the same name. *)
Definition plain : list string :=
  ["opt_selector"; "overwrite_existing"; "max_jobs"; "convergence_checker"; "x0_generator"; "killing_conditions"; "hunt_frequency";
   "status_frequency"; "checkpoint_control"; "summary_files"; "is_log_detailed"; "visualisation"; "aggressive_kill"; "end_timeout";
   "split_printstreams"]%string.
Definition changeable : list string := "working_dir"%string :: "backend"%string :: "force_terminations_after"%string :: plain.

Definition plain_name (k : string) : bool :=
  (match stored_as k with [j] => String.eqb j k | _ => false end)
  && negb (String.eqb k "proc_backend") && negb (String.eqb k "opts_daemonic") && negb (String.eqb k "allow_forced_terminations")
  && negb (String.eqb k "backend") && negb (String.eqb k "force_terminations_after") && negb (String.eqb k "visualisation_args")
  && negb (String.eqb k "working_dir") && negb (String.eqb k "is_initialised").
Lemma plain_names : forallb plain_name plain = true.
Proof. vm_compute. reflexivity. Qed.
Lemma String_list_eqb l k : match l with [j] => String.eqb j k | _ => false end = true -> l = [k].
Proof. destruct l as [|j [|]]; try discriminate. intro E. apply String.eqb_eq in E. now subst. Qed.
Lemma override_plain p k v m : In k plain -> existsb (String.eqb k) p = true -> override p (k, v) m = (Ok tt, sset k v m).
Proof.
  intros C X. pose proof plain_names as F. rewrite forallb_forall in F. specialize (F _ C). unfold plain_name in F.
  repeat (apply andb_true_iff in F as [F ?F]). unfold override.
  repeat match goal with H : negb (String.eqb k _) = true |- _ => apply negb_true_iff in H; try rewrite H end.
  rewrite X. reflexivity.
Qed.
Lemma override_want e p k v m m' s : override p (k, v) m = (Ok tt, m') -> In k changeable -> incl plain p -> regular e k v ->
  In s (stored_as k) -> attr s m' = meaning v s.
Proof.
  intros O C P [_ [_ [_ [_ [RB _]]]]] I. 
  assert (Q : forall j, In j plain -> existsb (String.eqb j) p = true).
  { intros j J. apply existsb_exists. exists j. split; [auto|apply String.eqb_refl]. }
  destruct C as [<-|[<-|[<-|C]]].
  - cbn in I. destruct I as [<-|[]]. cbn in O. injection O as <-. rewrite attr_set. reflexivity.
  - unfold override in O. cbn [String.eqb Ascii.eqb Bool.eqb] in O. apply bind_inv in O as [b [m1 [O1 O2]]].
    apply lift_inv in O1 as [O1 ->]. rewrite bind_put in O2. injection O2 as <-.
    destruct (RB eq_refl) as [<-|[<-|[<-|[]]]]; cbn in O1; injection O1 as <-;
      destruct I as [<-|[<-|[]]]; rewrite !attr_set; reflexivity.
  - unfold override in O. cbn [String.eqb Ascii.eqb Bool.eqb] in O. apply bind_inv in O as [b [m1 [O1 O2]]].
    apply lift_inv in O1 as [O1 ->]. rewrite bind_put in O2. injection O2 as <-.
    destruct I as [<-|[<-|[]]]; rewrite !attr_set; cbn [String.eqb Ascii.eqb Bool.eqb]; unfold meaning; cbn [String.eqb Ascii.eqb Bool.eqb].
    + rewrite O1. reflexivity.
    + reflexivity.
  - pose proof (Q _ C) as X. rewrite (override_plain p k v m C X) in O. injection O as <-.
    pose proof plain_names as F. rewrite forallb_forall in F. specialize (F _ C).
    repeat (apply andb_true_iff in F as [F ?F]). apply String_list_eqb in F. rewrite F in I. destruct I as [<-|[]].
    rewrite attr_set, String.eqb_refl. unfold meaning.
    repeat match goal with H : negb (String.eqb k _) = true |- _ => apply negb_true_iff in H; try rewrite H end. reflexivity.
Qed.

Definition disjointb (k k' : string) : bool := negb (existsb (fun s => existsb (String.eqb s) (touched k')) (stored_as k)).
Lemma names_disjoint a : forallb (fun k => forallb (fun k' => String.eqb k k' || disjointb k k') (dkeys (named a))) changeable = true.
Proof. vm_compute. reflexivity. Qed.
Lemma not_touched a k k' s : In k changeable -> In k' (dkeys (named a)) -> k <> k' -> In s (stored_as k) -> ~ In s (touched k').
Proof.
  intros C C' N I J. pose proof (names_disjoint a) as F. rewrite forallb_forall in F. specialize (F _ C).
  rewrite forallb_forall in F. specialize (F _ C'). apply orb_true_iff in F as [F|F].
  - apply String.eqb_eq in F. contradiction.
  - unfold disjointb in F. apply negb_true_iff in F.
    assert (X : existsb (fun s => existsb (String.eqb s) (touched k')) (stored_as k) = true).
    { apply existsb_exists. exists s. split; [exact I|]. apply existsb_exists. exists s. split; [exact J|apply String.eqb_refl]. }
    congruence.
Qed.

Lemma overrides_want e a p k v s : In k changeable -> incl plain p -> regular e k v -> In s (stored_as k) ->
  forall kw m m', for_each kw (override p) m = (Ok tt, m') -> NoDup (dkeys kw) -> incl (dkeys kw) (dkeys (named a)) ->
  In (k, v) kw -> attr s m' = meaning v s.
Proof.
  intros C P R I. induction kw as [|[k' v'] kw IH]; intros m m' E N L J; [destruct J|].
  cbn [for_each] in E. apply bind_inv in E as [[] [m1 [E1 E2]]]. cbn [dkeys map fst] in N, L. inversion N; subst.
  destruct J as [J|J].
  - injection J as -> ->. destruct (overrides_only _ _ _ _ _ E2) as [O _]. rewrite O.
    + exact (override_want e p k v m m1 s E1 C P R I).
    + intro Z. apply in_concat in Z as [ks [Z1 Z2]]. apply in_map_iff in Z1 as [k'' [<- Z1]].
      apply (not_touched a k k'' s C); auto.
      * apply L. now right.
      * intros ->. contradiction.
  - apply (IH m1 m' E2 H2); [|exact J]. intros x X. apply L. now right.
Qed.

(** The parts of a successful load. *)
Lemma load_inv ar ld t kw m m2 : is_initialised m = false -> load ar ld t kw m = (Ok tt, m2) ->
  exists l m1 m1' m1'', ar_open ar = Ok tt /\ ar_vars ar = Some l /\ for_each l (fun kv => put (fst kv) (snd kv)) m = (Ok tt, m1) /\
    load_task ar ld t m1 = (Ok tt, m1') /\
    for_each kw (override (dkeys m1' ++ methods)) m1' = (Ok tt, m1'') /\
    only ["opt_log"; "t_start"; "t_end"; "opt_crashed"; "converged"; "_is_restart"]%string m1'' m2 /\
    attr "_is_restart" m2 = VBool true.
Proof.
  intros U E. unfold load in E. rewrite bind_gets, U in E.
  apply bind_inv in E as [[] [x1 [E1 E]]]. apply lift_inv in E1 as [E1 ->].
  apply bind_inv in E as [[] [m1 [E2 E]]]. destruct (ar_vars ar) as [l|]; [|discriminate].
  apply bind_inv in E as [[] [m1' [E3 E]]]. rewrite bind_gets in E.
  apply bind_inv in E as [[] [m1'' [E4 E]]]. rewrite bind_gets in E.
  apply bind_inv in E as [[] [x2 [E5 E]]].
  assert (x2 = m1'').
  { destruct (truthy (attr "visualisation" m1'')); [apply lift_inv in E5 as [_ ->]; reflexivity|injection E5 as ->; reflexivity]. }
  subst x2. rewrite bind_gets in E.
  apply bind_inv in E as [big [x3 [E6 E]]]. apply lift_inv in E6 as [E6 ->].
  apply bind_inv in E as [[] [x4 [E7 E]]]. apply lift_inv in E7 as [E7 ->].
  rewrite !bind_put in E. apply bind_inv in E as [[] [x5 [E8 E]]]. apply lift_inv in E8 as [E8 ->].
  injection E as <-. exists l, m1, m1', m1''. splits; auto.
  - repeat (apply only_set; [|cbn; tauto]). apply only_refl.
  - rewrite attr_set. reflexivity.
Qed.

(** The rest of what load sets. *)
Lemma load_sets ar ld t kw m m2 : is_initialised m = false -> load ar ld t kw m = (Ok tt, m2) ->
  attr "t_start" m2 = VNone /\ attr "t_end" m2 = VNone /\ attr "opt_crashed" m2 = VBool false /\
  attr "converged" m2 = VBool (match ar_checker ar with Ok b => b | Err _ => false end) /\
  exists big, exceeds (attr "summary_files" m2) 2 = Ok big /\ ar_log ar big = Ok tt /\ attr "opt_log" m2 = log_class big.
Proof.
  intros U E. unfold load in E. rewrite bind_gets, U in E.
  apply bind_inv in E as [[] [x1 [E1 E]]]. apply lift_inv in E1 as [E1 ->].
  apply bind_inv in E as [[] [m1 [E2 E]]]. destruct (ar_vars ar) as [l|]; [|discriminate].
  apply bind_inv in E as [[] [m1' [E3 E]]]. rewrite bind_gets in E.
  apply bind_inv in E as [[] [m1'' [E4 E]]]. rewrite bind_gets in E.
  apply bind_inv in E as [[] [x2 [E5 E]]].
  assert (x2 = m1'').
  { destruct (truthy (attr "visualisation" m1'')); [apply lift_inv in E5 as [_ ->]; reflexivity|injection E5 as ->; reflexivity]. }
  subst x2. rewrite bind_gets in E.
  apply bind_inv in E as [big [x3 [E6 E]]]. apply lift_inv in E6 as [E6 ->].
  apply bind_inv in E as [[] [x4 [E7 E]]]. apply lift_inv in E7 as [E7 ->].
  rewrite !bind_put in E. apply bind_inv in E as [[] [x5 [E8 E]]]. apply lift_inv in E8 as [E8 ->].
  injection E as <-. rewrite !attr_set. cbn [String.eqb Ascii.eqb Bool.eqb]. splits; try reflexivity. exists big. splits; [exact E6|exact E7|reflexivity].
Qed.

Lemma task_only ar ld t m r m' : load_task ar ld t m = (r, m') -> only ["task"%string] m m'.
Proof.
  unfold load_task, try_except. intro E.
  match type of E with (match ?X with _ => _ end) = _ => destruct X as [r1 m1] eqn:G end.
  assert (O : only ["task"%string] m m1).
  { rewrite bind_put in G. unfold bind at 1 in G.
    set (f := match ar_task ar with Some (Ok v) => put "task" v | Some (Err x) => raise x | None => ret tt end) in G.
    assert (F : forall m r m', f m = (r, m') -> only ["task"%string] m m').
    { intros a b c. unfold f. destruct (ar_task ar) as [[v|x]|]; intro Q; injection Q as _ <-; [|apply only_refl|apply only_refl].
      apply only_set; [apply only_refl|cbn; auto]. }
    destruct (f (sset "task" VNone m)) as [[[]|x] n1] eqn:G1; apply F in G1.
    2:{ injection G as _ <-. eapply only_trans; [apply only_set; [apply only_refl|cbn; auto]|exact G1]. }
    assert (O1 : only ["task"%string] m n1) by (eapply only_trans; [apply only_set; [apply only_refl|cbn; auto]|exact G1]).
    clear G1 F f. rewrite bind_gets in G. unfold bind at 1 in G.
    match type of G with (match ?X with _ => _ end) = _ => destruct X as [[[]|x] n2] eqn:G2 end.
    2:{ injection G as _ <-. destruct ld as [rl|]; [|discriminate]. destruct (truthy (attr "task" n1)); [discriminate|].
        cbn [negb] in G2. unfold bind, lift in G2. destruct rl as [v|y]; [|injection G2 as _ <-; exact O1].
        cbn in G2. destruct (callable v); injection G2; intros; subst; try discriminate. apply only_set; [exact O1|cbn; auto]. }
    assert (O2 : only ["task"%string] m n2).
    { destruct ld as [rl|]; [|injection G2 as <-; exact O1]. destruct (truthy (attr "task" n1)); [injection G2 as <-; exact O1|].
      cbn [negb] in G2. unfold bind, lift in G2. destruct rl as [v|y]; [|discriminate].
      cbn in G2. destruct (callable v); injection G2; intros; subst; try discriminate. apply only_set; [exact O1|cbn; auto]. }
    rewrite bind_gets in G. unfold bind at 1 in G.
    match type of G with (match ?X with _ => _ end) = _ => destruct X as [[[]|x] n3] eqn:G3 end.
    2:{ injection G as _ <-. destruct (negb (truthy (attr "task" n2)) && truthy t); [|discriminate].
        unfold bind in G3. cbn in G3. destruct (callable t); injection G3; intros; subst; try discriminate. apply only_set; [exact O2|cbn; auto]. }
    assert (O3 : only ["task"%string] m n3).
    { destruct (negb (truthy (attr "task" n2)) && truthy t); [|injection G3 as <-; exact O2].
      unfold bind in G3. cbn in G3. destruct (callable t); injection G3; intros; subst; try discriminate. apply only_set; [exact O2|cbn; auto]. }
    rewrite bind_gets in G. destruct (attr "task" n3); injection G as _ <-; exact O3. }
  destruct r1 as [[]|x]; [injection E as _ <-; exact O|].
  destruct (caught x); injection E as _ <-; exact O.
Qed.

(** The settings after setup in terms of the arguments. *)
Lemma settings_given e a m' : settings_ok e a m' -> e_scope e = Ok tt -> forall k v s, In (k, v) (named a) -> k <> "visualisation_args"%string ->
  regular e k v -> In s (stored_as k) -> attr s m' = meaning v s.
Proof.
  intros [S1 [S2 [S3 [S4 [S5 [S6 [S7 [S8 [S9 [S10 [S11 [S12 [S13 [S14 [S15 [S16 [S17 [S18 [S19 [S20 [S21 [S22 [S23 [S24 [S25 [S26 S27]]]]]]]]]]]]]]]]]]]]]]]]]].
  intros SC k v s I NV [R1 [R2 [R3 [R4 [R5 R6]]]]] J.
  cbn [named In] in I.
  repeat (destruct I as [I|I]; [injection I as <- <-|]); [..|destruct I]; cbn in J;
    repeat match type of J with _ \/ _ => destruct J as [<-|J] end; try contradiction; unfold meaning; cbn [String.eqb Ascii.eqb Bool.eqb]; try congruence.
  - destruct (R6 eq_refl) as [X|X]; rewrite S2, X; rewrite ?orb_true_r; reflexivity.
  - destruct (R3 (or_intror (or_introl eq_refl))) as [b Eb]. rewrite S17, Eb. reflexivity.
  - rewrite S7, R1; [reflexivity|cbn; tauto].
  - rewrite S25. destruct (R5 eq_refl) as [E|[E|[E|[]]]]; rewrite <- E; reflexivity.
  - rewrite S26. destruct (R5 eq_refl) as [E|[E|[E|[]]]]; rewrite <- E; reflexivity.
  - rewrite S8, R1; [reflexivity|cbn; tauto].
  - rewrite S9, R1; [reflexivity|cbn; tauto].
  - rewrite S10, R1; [reflexivity|cbn; tauto].
  - destruct S21 as [z [T1 T2]]. destruct (R2 eq_refl) as [z' Ez]. rewrite T2. rewrite Ez in T1 |- *. cbn in T1. congruence.
  - destruct (R4 eq_refl) as [X Y]. rewrite S22, X, Y. reflexivity.
  - apply S23; [apply R1; cbn; tauto|exact SC].
  - destruct S11 as [f [F1 F2]]. rewrite F2, F1. reflexivity.
  - rewrite S27, R1; [reflexivity|cbn; tauto].
  - destruct (R3 (or_introl eq_refl)) as [b Eb]. rewrite S16, Eb. reflexivity.
Qed.

Lemma named_changeable a k : In k (dkeys (named a)) -> k <> "share_best_solutions"%string -> k <> "visualisation_args"%string -> In k changeable.
Proof.
  intros I N1 N2. cbn in I. repeat (destruct I as [<-|I]; [try congruence; vm_compute; tauto|]). destruct I.
Qed.
Lemma plain_init : incl plain (dkeys init_attrs).
Proof.
  intros k I. assert (F : forallb (fun k => existsb (String.eqb k) (dkeys init_attrs)) plain = true) by (vm_compute; reflexivity).
  rewrite forallb_forall in F. specialize (F k I). apply existsb_exists in F as [j [F1 F2]]. apply String.eqb_eq in F2. now subst.
Qed.
Lemma not_by_load a k s : In k (dkeys (named a)) -> In s (stored_as k) -> ~ In s set_by_load.
Proof.
  intros I J K. assert (F : forallb (fun k => forallb (fun s => negb (existsb (String.eqb s) set_by_load)) (stored_as k)) (dkeys (named a)) = true)
    by (vm_compute; reflexivity).
  rewrite forallb_forall in F. specialize (F k I). rewrite forallb_forall in F. specialize (F s J). apply negb_true_iff in F.
  assert (X : existsb (String.eqb s) set_by_load = true) by (apply existsb_exists; exists s; split; [exact K|apply String.eqb_refl]). congruence.
Qed.

Lemma load_want e a ar ld t kw m2 : load ar ld t kw init_attrs = (Ok tt, m2) -> NoDup (dkeys kw) -> incl (dkeys kw) (dkeys (named a)) ->
  forall k v s, In (k, v) kw -> k <> "share_best_solutions"%string -> k <> "visualisation_args"%string -> regular e k v ->
  In s (stored_as k) -> attr s m2 = meaning v s.
Proof.
  intros E N L k v s I N1 N2 R J. apply load_inv in E; [|reflexivity].
  destruct E as [l [m1 [m1' [m1'' [_ [_ [E1 [E2 [E3 [[O _] _]]]]]]]]]].
  assert (K : In k (dkeys (named a))) by (apply L; change k with (fst (k, v)); now apply in_map).
  rewrite O.
  - eapply (overrides_want e a); eauto; [eapply named_changeable; eauto|].
    intros x X. apply in_or_app. left. apply task_only in E2 as [_ E2]. apply E2. eapply vars_keys; [exact E1|]. now apply plain_init.
  - intro X. apply (not_by_load a k s K J). unfold set_by_load. right. exact X.
Qed.

Lemma load_keeps ar ld t kw m2 : load ar ld t kw init_attrs = (Ok tt, m2) -> forall l s, ar_vars ar = Some l -> NoDup (dkeys l) ->
  ~ In s set_by_load -> (forall k, In k (dkeys kw) -> ~ In s (touched k)) ->
  attr s m2 = match sget s l with Some v => v | None => attr s init_attrs end.
Proof.
  intros E l s V N NL NT. apply load_inv in E; [|reflexivity].
  destruct E as [l' [m1 [m1' [m1'' [_ [V' [E1 [E2 [E3 [[O _] _]]]]]]]]]]. rewrite V in V'. injection V' as <-.
  rewrite O by (intro X; apply NL; unfold set_by_load; right; exact X).
  destruct (overrides_only _ _ _ _ _ E3) as [O3 _]. rewrite O3.
  - apply task_only in E2 as [O2 _]. rewrite O2 by (intro X; apply NL; destruct X as [<-|[]]; left; reflexivity).
    now apply vars_attr.
  - intro X. apply in_concat in X as [ks [X1 X2]]. apply in_map_iff in X1 as [k [<- X1]]. exact (NT k X1 X2).
Qed.

(** What is saved of the attributes. *)
Lemma sget_filter (P : string -> bool) (m : attrs) s : P s = true -> sget s (filter (fun kv => P (fst kv)) m) = sget s m.
Proof.
  intro H. induction m as [|[k v] m IH]; [reflexivity|]. cbn [filter fst]. destruct (P k) eqn:Q; cbn [dget].
  - now rewrite IH.
  - destruct (String.eqb s k) eqn:Z; [apply String.eqb_eq in Z; subst; congruence|exact IH].
Qed.
Lemma nodup_filter (P : string * pv -> bool) m : NoDup (dkeys m) -> NoDup (dkeys (filter P m)).
Proof.
  unfold dkeys. induction m as [|[k v] m IH]; cbn; intro N; [constructor|]. inversion N; subst. destruct (P (k, v)); cbn; auto.
  constructor; auto. intro X. apply H1. apply in_map_iff in X as [[k' v'] [X1 X2]]. apply filter_In in X2 as [X2 _].
  cbn in X1. subst. apply in_map_iff. exists (k, v'). auto.
Qed.

(** Whatever happens after the file 'manager' was read, the manager stays initialised. *)
Definition keeps_init {A} (f : M attrs A) : Prop := forall m r m', f m = (r, m') -> is_initialised m = true -> is_initialised m' = true.
Lemma keeps_bind {A B} (f : M attrs A) (g : A -> M attrs B) : keeps_init f -> (forall a, keeps_init (g a)) -> keeps_init (bind f g).
Proof.
  intros F G m r m' E I. unfold bind in E. destruct (f m) as [[a|x] m1] eqn:Q.
  - eapply G; [exact E|]. eapply F; eauto.
  - injection E as _ <-. eapply F; eauto.
Qed.
Lemma keeps_lift {A} (r : res A) : keeps_init (lift r).
Proof. intros m r' m' E I. injection E as _ <-. exact I. Qed.
Lemma keeps_gets {A} (h : attrs -> A) : keeps_init (gets h).
Proof. intros m r' m' E I. injection E as _ <-. exact I. Qed.
Lemma keeps_ret {A} (a : A) : keeps_init (ret a : M attrs A).
Proof. intros m r' m' E I. injection E as _ <-. exact I. Qed.
Lemma keeps_put k v : k <> "_is_restart"%string \/ v <> VNone -> keeps_init (put k v).
Proof.
  intros H m r' m' E I. injection E as _ <-. unfold is_initialised in *. rewrite attr_set.
  destruct (String.eqb "_is_restart" k) eqn:Q; [|exact I]. apply String.eqb_eq in Q. subst k.
  destruct H as [H|H]; [congruence|]. destruct v; congruence.
Qed.
Lemma keeps_overrides p kw : ~ In "_is_restart"%string (dkeys kw) -> keeps_init (for_each kw (override p)).
Proof.
  intros N m r m' E I. apply overrides_only in E as [O _]. unfold is_initialised in *. rewrite O; [exact I|].
  intro X. apply in_concat in X as [ks [X1 X2]]. apply in_map_iff in X1 as [k [<- X1]]. unfold touched in X2.
  destruct X2 as [->|X2]; [contradiction|]. unfold stored_as in X2.
  destruct (String.eqb k "backend"); [destruct X2 as [X2|[X2|[]]]; discriminate|].
  destruct (String.eqb k "force_terminations_after"); [destruct X2 as [X2|[X2|[]]]; discriminate|].
  destruct (String.eqb k "share_best_solutions"); [destruct X2 as [X2|[]]; discriminate|].
  destruct X2 as [->|[]]. contradiction.
Qed.
Lemma load_sticks ar ld t kw l v r m' : load ar ld t kw init_attrs = (r, m') -> ar_open ar = Ok tt -> ar_vars ar = Some l -> NoDup (dkeys l) ->
  sget "_is_restart" l = Some v -> v <> VNone -> ~ In "_is_restart"%string (dkeys kw) -> is_initialised m' = true.
Proof.
  intros E O V N G NV NK. unfold load in E. rewrite bind_gets in E. cbn [is_initialised] in E.
  change (is_initialised init_attrs) with false in E. cbn iota in E. rewrite O, bind_lift, V in E.
  destruct (vars_ok l init_attrs) as [m1 E1]. erewrite bind_ok in E by exact E1.
  assert (I1 : is_initialised m1 = true).
  { unfold is_initialised. rewrite (vars_attr l _ _ "_is_restart" E1 N), G. destruct v; congruence. }
  revert E I1. clear - NK.
  match goal with |- ?f m1 = _ -> _ => assert (K : keeps_init f); [|exact (K m1 r m')] end.
  repeat (apply keeps_bind; [|intro]); try apply keeps_gets; try apply keeps_lift; try apply keeps_ret;
    try (apply keeps_put; first [right; discriminate|left; discriminate]).
  - intros m2 r2 m3 E I. apply task_only in E as [O _]. unfold is_initialised in *. rewrite O; [exact I|].
    intros [X|[]]. discriminate.
  - now apply keeps_overrides.
  - destruct (truthy _); [apply keeps_lift|apply keeps_ret].
Qed.

(** The task that is loaded. *)
Lemma touched_task k : k <> "task"%string -> ~ In "task"%string (touched k).
Proof.
  intros N [X|X]; [congruence|]. unfold stored_as in X.
  destruct (String.eqb k "backend"); [destruct X as [X|[X|[]]]; discriminate|].
  destruct (String.eqb k "force_terminations_after"); [destruct X as [X|[X|[]]]; discriminate|].
  destruct (String.eqb k "share_best_solutions"); [destruct X as [X|[]]; discriminate|].
  destruct X as [->|[]]. contradiction.
Qed.
Lemma load_task_first ar pk ldv t m m' v : ar_task ar = option_map Ok pk ->
  find truthy (opt_list pk ++ opt_list ldv ++ [t]) = Some v ->
  load_task ar (option_map Ok ldv) t m = (Ok tt, m') -> attr "task" m' = v.
Proof.
  intros P F E. unfold load_task, try_except in E. rewrite P in E.
  destruct pk as [p|], ldv as [q|]; cbn [option_map opt_list app find] in *;
    rewrite ?bind_put in E; unfold put, ret, modify in E; unfold bind in E; cbn [gets] in E; unfold gets, lift in E;
    rewrite ?attr_set in E; cbn [String.eqb Ascii.eqb Bool.eqb] in E.
  - destruct (truthy p) eqn:Tp; cbn [negb andb] in E.
    + injection F as ->. rewrite attr_set in E. cbn [String.eqb Ascii.eqb Bool.eqb] in E. rewrite Tp in E. cbn [negb andb] in E.
      rewrite attr_set in E. cbn [String.eqb Ascii.eqb Bool.eqb] in E. destruct v; try discriminate; injection E as <-; rewrite attr_set; reflexivity.
    + destruct (callable q); [|discriminate]. rewrite attr_set in E. cbn [String.eqb Ascii.eqb Bool.eqb] in E.
      destruct (truthy q) eqn:Tq; cbn [negb andb] in E.
      * injection F as ->. rewrite attr_set in E. cbn [String.eqb Ascii.eqb Bool.eqb] in E. destruct v; try discriminate; injection E as <-; rewrite attr_set; reflexivity.
      * destruct (truthy t) eqn:Tt; [|discriminate]. injection F as ->. destruct (callable v); [|discriminate].
        rewrite attr_set in E. cbn [String.eqb Ascii.eqb Bool.eqb] in E. destruct v; try discriminate; injection E as <-; rewrite attr_set; reflexivity.
  - destruct (truthy p) eqn:Tp; cbn [negb andb] in E.
    + injection F as ->. rewrite ?attr_set in E. cbn [String.eqb Ascii.eqb Bool.eqb] in E. destruct v; try discriminate; injection E as <-; rewrite attr_set; reflexivity.
    + destruct (truthy t) eqn:Tt; [|discriminate]. injection F as ->. destruct (callable v); [|discriminate].
      rewrite attr_set in E. cbn [String.eqb Ascii.eqb Bool.eqb] in E. destruct v; try discriminate; injection E as <-; rewrite attr_set; reflexivity.
  - cbn [truthy negb] in E. destruct (callable q); [|discriminate]. rewrite attr_set in E. cbn [String.eqb Ascii.eqb Bool.eqb] in E.
    destruct (truthy q) eqn:Tq; cbn [negb andb] in E.
    * injection F as ->. rewrite attr_set in E. cbn [String.eqb Ascii.eqb Bool.eqb] in E. destruct v; try discriminate; injection E as <-; rewrite attr_set; reflexivity.
    * destruct (truthy t) eqn:Tt; [|discriminate]. injection F as ->. destruct (callable v); [|discriminate].
      rewrite attr_set in E. cbn [String.eqb Ascii.eqb Bool.eqb] in E. destruct v; try discriminate; injection E as <-; rewrite attr_set; reflexivity.
  - cbn [truthy negb andb] in E. destruct (truthy t) eqn:Tt; [|discriminate]. injection F as ->. destruct (callable v); [|discriminate].
    rewrite attr_set in E. cbn [String.eqb Ascii.eqb Bool.eqb] in E. destruct v; try discriminate; injection E as <-; rewrite attr_set; reflexivity.
Qed.
Lemma load_task_is ar pk ldv t kw m2 v : load ar (option_map Ok ldv) t kw init_attrs = (Ok tt, m2) -> ar_task ar = option_map Ok pk ->
  find truthy (opt_list pk ++ opt_list ldv ++ [t]) = Some v -> ~ In "task"%string (dkeys kw) -> attr "task" m2 = v.
Proof.
  intros E P F NK. apply load_inv in E; [|reflexivity].
  destruct E as [l [m1 [m1' [m1'' [_ [_ [_ [E2 [E3 [[O _] _]]]]]]]]]]. rewrite O by (cbn; intuition discriminate).
  destruct (overrides_only _ _ _ _ _ E3) as [O3 _]. rewrite O3.
  - eapply load_task_first; eauto.
  - intro X. apply in_concat in X as [ks [X1 X2]]. apply in_map_iff in X1 as [k [<- X1]]. revert X2. apply touched_task. intros ->. contradiction.
Qed.
Lemma load_task_pickled ar ld t m m' v : ar_task ar = Some (Ok v) -> truthy v = true -> load_task ar ld t m = (Ok tt, m') -> attr "task" m' = v.
Proof.
  intros P T E. unfold load_task, try_except in E. rewrite P, !bind_put, bind_gets in E. rewrite attr_set in E. cbn [String.eqb Ascii.eqb Bool.eqb] in E.
  rewrite T in E. cbn [negb] in E.
  assert (Z : (match ld with Some _ => ret tt | None => ret tt end : M attrs unit) = ret tt) by (destruct ld; reflexivity).
  rewrite Z in E. unfold bind, ret, gets in E. rewrite attr_set in E. cbn [String.eqb Ascii.eqb Bool.eqb] in E.
  rewrite T in E. cbn [negb andb] in E. rewrite attr_set in E. cbn [String.eqb Ascii.eqb Bool.eqb] in E.
  destruct v; try discriminate; injection E as <-; rewrite attr_set; reflexivity.
Qed.
Lemma load_task_none ar m : ar_task ar = None -> load_task ar None VNone m = (Err CheckpointingError, sset "task" VNone m).
Proof.
  intro T. unfold load_task, try_except. rewrite T. rewrite bind_put. unfold bind, ret, gets, raise. rewrite !attr_set.
  cbn [String.eqb Ascii.eqb Bool.eqb truthy negb andb]. rewrite attr_set. reflexivity.
Qed.
