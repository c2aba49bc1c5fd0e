(** * C63-C66: the wrappers around external optimizers *)
From Verif Require Import Prelude_Proofs Wrappers_Model Wrappers_Spec Wrappers_Proofs.
From Coq Require Import Sorting.Permutation.

Definition either {X} (o : cma X + cma X) : cma X := match o with inl c => c | inr c => c end.

(** ** C63: the algorithm is told the values of its own vectors *)
(** Whatever the order in which evaluations finish, the messages and the moment of a stop: the strategy is told whole
    populations, in order, each vector with its own value; a population which is asked for and not told is the last one and was
    interrupted by a stop. *)
Theorem C63_told {X} g (f : X -> num) x0 ws c o : cma_minimize false g f x0 ws c = Ok o ->
  exists k, k <= length ws /\ e_told (c_es (either o)) = own_values f (map i_ask (firstn k ws)) /\ e_iter (c_es (either o)) = k /\
    (forall c', o = inl c' -> k < length ws /\ (e_flag (c_es c') || match nth_error ws k with Some w => i_stop w | None => false end) = true) /\
    (forall c', o = inr c' -> k = length ws).
Proof.
  unfold cma_minimize. cbn [fresh c_es e_iter]. destruct (loop _ _ _ _ _ _ _) as [[c1 xs|c1 xs]|] eqn:L; try discriminate.
  - destruct (finish c1 xs) as [c2|] eqn:F; [|discriminate]. intro H. injection H as <-. apply loop_told in L as [k [K [T [I [D _]]]]].
    unfold finish in F. apply read_result_spec in F as [_ [_ [_ [_ [_ [_ F]]]]]]. exists k. cbn [either state_of] in *. rewrite F.
    splits; auto; [|discriminate]. intros c' H. injection H as <-. rewrite F. exact (D c1 xs eq_refl).
  - intro H. injection H as <-. apply loop_told in L as [k [K [T [I [_ N]]]]]. exists k. cbn [either state_of] in *. splits; auto; [discriminate|].
    intros c' _. exact (N c1 xs eq_refl).
Qed.
Print Assumptions C63_told.

(** GFLS: after any number of rounds, whichever evaluation finishes first: each vector asked for was told exactly once with its
    own value or is one of the fewer than [workers] in progress; ncall counts them. *)
Lemma gfls_loop_accounted {X} workers queue (f : X -> num) ws : forall s s' r, gfls_loop workers queue f ws s = Ok (s', r) -> accounted f s ->
  length (s_futures s) <= workers - 1 -> accounted f s' /\ length (s_futures s') <= workers - 1 /\ (r = None -> length (s_told s') = length (s_told s) + length ws).
Proof.
  induction ws as [|w ws IH]; intros s s' r E A L; cbn in E.
  - destruct (s_stop s); injection E as <- <-; splits; auto; discriminate.
  - destruct (s_stop s); [injection E as <- <-; splits; auto; discriminate|].
    unfold gfls_round in E. destruct (evaluate workers f w s) as [s1|] eqn:V; [|discriminate].
    apply evaluate_accounted in V as [B [_ [_ [T F]]]]; [|exact A].
    match type of E with gfls_loop _ _ _ _ ?t = _ => set (s2 := t) in E end.
    assert (H : s_asked s2 = s_asked s1 /\ s_futures s2 = s_futures s1 /\ s_told s2 = s_told s1 /\ s_ncall s2 = s_ncall s1).
    { assert (G : forall l t, s_asked (fold_left gfls_handle l t) = s_asked t /\ s_futures (fold_left gfls_handle l t) = s_futures t /\
        s_told (fold_left gfls_handle l t) = s_told t /\ s_ncall (fold_left gfls_handle l t) = @s_ncall X t).
      { induction l as [|m l IHl]; intro t; [auto|]. cbn. destruct (IHl (gfls_handle t m)) as [-> [-> [-> ->]]]. destruct m; auto. }
      unfold s2. destruct queue, (gi_hook w); cbn; auto; match goal with |- context [fold_left gfls_handle ?l ?t] => destruct (G l t) as [-> [-> [-> ->]]] end; auto. }
    destruct H as [H1 [H2 [H3 H4]]].
    assert (A2 : accounted f s2) by (destruct B as [B1 [B2 B3]]; unfold accounted; rewrite H1, H2, H3, H4; auto).
    destruct (IH s2 s' r E A2) as [C [D N]]; [rewrite H2; auto|]. splits; auto. intro R. cbn [length]. rewrite (N R), H3, T. lia.
Qed.
Lemma accounted_new {X} (f : X -> num) : accounted f new_gfls.
Proof. unfold accounted, new_gfls. cbn. splits; auto. contradiction. Qed.
Theorem C63_gfls {X} workers queue (f : X -> num) ws s r : gfls_loop workers queue f ws new_gfls = Ok (s, r) ->
  accounted f s /\ NoDup (map fst (s_told s)) /\ length (s_futures s) <= workers - 1 /\ (r = None -> length (s_told s) = length ws).
Proof.
  intro E. apply gfls_loop_accounted in E as [A [B C]]; [|apply accounted_new|cbn; lia]. splits; auto.
  destruct A as [A _]. pose proof (seq_NoDup (length (s_asked s)) 0) as ND. apply (Permutation_NoDup (Permutation_sym A)) in ND.
  clear - ND. revert ND. generalize (s_futures s). induction (map fst (s_told s)) as [|b l IH]; intros m ND; [constructor|].
  cbn in ND. inversion ND; subst. constructor; [|eauto]. intro I. apply H1. apply in_or_app. now left.
Qed.
Print Assumptions C63_gfls.

(** Three workers under a manager, whose second population is stopped after its first evaluation. *)
Definition demo_f (n : nat) : num := Fin (inject_Z (10 - Z.of_nat n)).
Definition demo_ws : list (inp nat) :=
  [mkI false [1; 2; 3] [[]; [MSave]] (fun _ => true) false [];
   mkI false [4; 5; 6] [[MStop ManagerSignal]] (fun k => Nat.eqb k 2) false [];
   mkI false [7] [] (fun _ => false) false []].
Example C63_met :
  match cma_minimize false (mkCfg 3 true None) demo_f 1 demo_ws (new_cma None) with
  | Ok (inl c) => e_told (c_es c) = own_values demo_f [[1; 2; 3]] /\ r_fx (c_result c) = demo_f 3 /\ r_x (c_result c) = Some 3
  | _ => False
  end /\
  match gfls_loop 3 true demo_f [mkGI [1; 2; 3] 2 false []; mkGI [4] 0 false []; mkGI [5] 1 false [MStop ManagerSignal]] new_gfls with
  | Ok (s, Some _) => s_told s = [(2, demo_f 3); (0, demo_f 1); (3, demo_f 4)] /\ s_futures s = [1; 4] /\ s_ncall s = 5
  | _ => False
  end.
Proof. vm_compute. auto 10. Qed.

(** After a restart from a checkpoint the vectors in progress are neither told nor evaluated again, though they are counted. *)
Theorem C63_gfls_restart_refuted : exists (ws1 ws2 : list (ginp nat)) s1 s2 r1 r2,
  gfls_loop 2 true demo_f ws1 new_gfls = Ok (s1, r1) /\ gfls_loop 2 true demo_f ws2 (restart_gfls s1) = Ok (s2, r2) /\
  length (s_asked s2) = 4 /\ s_ncall s2 = 4 /\ length (s_told s2) + length (s_futures s2) = 3 /\ ~ In 1 (map fst (s_told s2) ++ s_futures s2).
Proof.
  exists [mkGI [1; 2] 0 false []], [mkGI [3; 4] 0 false []]. do 4 eexists. splits; try (vm_compute; reflexivity).
  vm_compute. intro H. decompose [or] H; try discriminate; contradiction.
Qed.
Print Assumptions C63_gfls_restart_refuted.

(** ** C64: what the wrappers return *)
(** A finished run of CMA returns the lowest of all values told, with its vector and its own value; if no value is below
    infinity, the first vector of the last population. *)
Theorem C64_cma {X} g (f : X -> num) x0 ws c c' : cma_minimize false g f x0 ws c = Ok (inl c') ->
  (exists x, r_x (c_result c') = Some x /\ lowest_of (e_told (c_es c')) x (r_fx (c_result c')) /\ r_fx (c_result c') = f x) \/
  (r_fx (c_result c') = PInf /\ hopeless (e_told (c_es c')) /\ exists w a r, In w ws /\ i_ask w = a :: r /\ r_x (c_result c') = Some a).
Proof.
  intro H. pose proof (C63_told _ _ _ _ _ _ H) as [k [_ [T _]]]. cbn [either] in T. revert H T. unfold cma_minimize.
  destruct (loop _ _ _ _ _ _ _) as [[c1 xs|c1 xs]|] eqn:L; try discriminate. destruct (finish c1 xs) as [c2|] eqn:F; [|discriminate].
  intros H T. injection H as <-. unfold finish in F. apply read_result_spec in F as [_ [_ [_ [V [A [B E]]]]]]. rewrite E in T |- *.
  unfold es_result in *. destruct (best_spec (e_told (c_es c1)) (None, PInf) eq_refl) as [_ [Lw [Q|[x [Q1 [Q2 Q3]]]]]]; cbv zeta in *.
  - right. rewrite Q in *. cbn [fst snd] in *. rewrite V in *. destruct (B eq_refl) as [a [r [B1 B2]]]. splits; [reflexivity|exact Lw|].
    assert (G : forall ws i ys c o, loop g f x0 i ys ws c = Ok o -> forall c' xs, o = Done c' xs -> xs = ys \/ exists w, In w ws /\ xs = Some (i_ask w)).
    { clear. induction ws as [|w ws IH]; intros i ys c o L c' xs E; cbn in L; [injection L as <-; discriminate|].
      destruct (e_flag (c_es c) || i_stop w); [injection L as <-; injection E as <- <-; now left|].
      destruct (round g f x0 (S i) w c) as [[c1|c1]|]; try discriminate.
      - injection L as <-. injection E as <- <-. right. exists w. split; [now left|reflexivity].
      - destruct (IH _ _ _ _ L _ _ E) as [->|[v [I ->]]]; right; [exists w; split; [now left|reflexivity]|exists v; split; [now right|reflexivity]]. }
    destruct (G _ _ _ _ _ L c1 xs eq_refl) as [->|[w [I Ex]]]; [discriminate|]. exists w, a, r. splits; auto. congruence.
  - left. exists x. assert (N : neq (r_fx (c_result c2)) PInf = false).
    { rewrite V. destruct (snd (best (None, PInf) (e_told (c_es c1)))); cbn in *; congruence. }
    rewrite (A N), Q1. rewrite V in *. splits; [reflexivity| |].
    + split; [exact Q2|exact Lw].
    + rewrite T in Q2. unfold own_values in Q2. apply in_flat_map in Q2 as [p [_ Q2]]. apply in_map_iff in Q2 as [y [Q2 _]]. injection Q2 as E1 E2. rewrite <- E1, E2, T. reflexivity.
Qed.
Print Assumptions C64_cma.
(** Success is only reported with a finite value and after a stop for a reason other than the manager's. *)
Theorem C64_success {X} g (f : X -> num) x0 ws c c' : cma_minimize false g f x0 ws c = Ok (inl c') -> r_success (c_result c') = true ->
  nfinite (r_fx (c_result c')) = true /\ exists w, In w ws /\ In Other (stop_requests w).
Proof.
  unfold cma_minimize. destruct (loop _ _ _ _ _ _ _) as [[c1 xs|c1 xs]|] eqn:L; try discriminate. destruct (finish c1 xs) as [c2|] eqn:F; [|discriminate].
  intros H S. injection H as <-. unfold finish in F. apply read_result_spec in F as [_ [_ [R [V _]]]]. rewrite S in R. symmetry in R.
  apply andb_prop in R as [R1 R2]. rewrite V. split; [exact R1|]. apply (loop_success _ _ _ _ _ _ _ _ L) in R2 as [R2|R2]; [discriminate|exact R2].
Qed.
Print Assumptions C64_success.
Example C64_met :
  match cma_minimize false (mkCfg 1 false None) demo_f 1 [mkI false [3; 9] [] (fun _ => false) false []; mkI false [5; 2] [] (fun _ => false) true []; mkI false [8] [] (fun _ => false) false []] (new_cma None) with
  | Ok (inl c) => r_x (c_result c) = Some 9 /\ r_fx (c_result c) = demo_f 9 /\ r_success (c_result c) = true
  | _ => False
  end /\
  match cma_minimize false (mkCfg 1 false None) (fun _ => PInf) 1 [mkI false [3; 9] [] (fun _ => false) false []; mkI true [] [] (fun _ => false) false []] (new_cma None) with
  | Ok (inl c) => r_x (c_result c) = Some 3 /\ r_fx (c_result c) = PInf
  | _ => False
  end.
Proof. vm_compute. auto. Qed.

(** A run which converges by itself is not a success. *)
Theorem C64_converged_refuted : exists (ws : list (inp nat)) c', cma_minimize false (mkCfg 1 false None) demo_f 1 ws (new_cma None) = Ok (inl c') /\
  r_fx (c_result c') = demo_f 9 /\ r_success (c_result c') = false.
Proof.
  exists [mkI false [3; 9] [] (fun _ => false) false []; mkI true [] [] (fun _ => false) false []]. eexists. splits; vm_compute; reflexivity.
Qed.
Print Assumptions C64_converged_refuted.
(** A run in which the strategy stops before its first population raises instead of returning. *)
Theorem C64_nothing_refuted : exists ws : list (inp nat), cma_minimize false (mkCfg 1 false None) demo_f 1 ws (new_cma None) = Err TypeError.
Proof. exists [mkI true [] [] (fun _ => false) false []]. reflexivity. Qed.
Print Assumptions C64_nothing_refuted.
(** GFLS never fills in the result: whatever was evaluated, it returns no vector and infinity. *)
Theorem C64_gfls_empty {X} workers queue (f : X -> num) ws s r : gfls_loop workers queue f ws new_gfls = Ok (s, Some r) ->
  r_x r = None /\ r_fx r = PInf.
Proof.
  enough (G : forall s0, r_x (s_result s0) = None -> r_fx (s_result s0) = PInf -> gfls_loop workers queue f ws s0 = Ok (s, Some r) -> r_x r = None /\ r_fx r = PInf) by (apply G; reflexivity).
  induction ws as [|w ws IH]; intros s0 A B E; cbn in E.
  - destruct (s_stop s0); [injection E as <- <-; auto|discriminate].
  - destruct (s_stop s0); [injection E as <- <-; auto|]. unfold gfls_round in E. destruct (evaluate workers f w s0) as [s1|] eqn:V; [|discriminate].
    assert (R : s_result s1 = s_result s0).
    { assert (T : forall n xs t, s_result (@submit X n xs t) = s_result t) by (induction n; intros [|] t; cbn; auto; now rewrite IHn).
      unfold evaluate in V. destruct (nth_error _ (gi_pop w)); [|discriminate]. destruct (nth_error _ n); [|discriminate]. injection V as <-. cbn [s_result]. clear - T. destruct (Nat.ltb 1 workers); [apply T|]. now destruct (gi_ask w). }
    assert (H : forall l (t : gfls X), r_x (s_result t) = None -> r_fx (s_result t) = PInf -> r_x (s_result (fold_left gfls_handle l t)) = None /\ r_fx (s_result (fold_left gfls_handle l t)) = PInf).
    { clear. induction l as [|m l IHl]; intros t A B; [auto|]. cbn. apply IHl; destruct m; cbn; auto. }
    match type of E with gfls_loop _ _ _ _ ?t = _ => set (s2 := t) in E end.
    assert (K : r_x (s_result s2) = None /\ r_fx (s_result s2) = PInf).
    { unfold s2. destruct queue; [apply H|split]; destruct (gi_hook w); cbn; rewrite ?R; auto. }
    now apply (IH s2).
Qed.
Print Assumptions C64_gfls_empty.
Theorem C64_gfls_refuted : exists s r, gfls_loop 1 false demo_f [mkGI [1] 0 false []; mkGI [7] 0 true []] new_gfls = Ok (s, Some r) /\
  s_told s = [(0, demo_f 1); (1, demo_f 7)] /\ r_success r = false /\ r_x r = None.
Proof. do 2 eexists. splits; [|..]; vm_compute; reflexivity. Qed.
(** And scipy's success is never passed on. *)
Theorem C64_scipy_refuted : exists success, success = true /\ r_success (sp_result 0 (Fin 0) success) <> success.
Proof. exists true. split; [reflexivity|discriminate]. Qed.
Print Assumptions C64_scipy_refuted.

(** A stop, from the manager or the callback, ends the run with the iteration it comes in; that iteration is not told when the stop comes during
    it and an evaluation was cancelled. *)
Theorem C64_stop {X} g (f : X -> num) x0 pre w post c o : cma_minimize false g f x0 (pre ++ w :: post) c = Ok o -> stop_in g w -> post <> [] ->
  exists c', o = inl c' /\ e_iter (c_es c') <= S (length pre) /\
    (stop_during g w -> (exists j, j < length (i_ask w) /\ i_cancel w j = true) -> e_iter (c_es c') <= length pre).
Proof.
  unfold cma_minimize. cbn [fresh c_es e_iter]. destruct (loop _ _ _ _ _ _ _) as [o1|] eqn:L; [|discriminate]. intros E S NE.
  destruct (loop_stop g f x0 w post S NE pre 0 None (fresh x0 c) o1 eq_refl L) as (c' & xs & -> & A & B).
  destruct (finish c' xs) as [c2|] eqn:F; [|discriminate]. injection E as <-. unfold finish in F. apply read_result_spec in F as [_ [_ [_ [_ [_ [_ F]]]]]].
  exists c2. rewrite F. now splits.
Qed.
Print Assumptions C64_stop.
Example C64_stop_met : exists (w : inp nat) post, stop_during (mkCfg 2 true None) w /\ stop_in (mkCfg 2 true None) w /\ i_cancel w 1 = true /\
  match cma_minimize false (mkCfg 2 true None) demo_f 1 ([mkI false [3; 9] [] (fun _ => false) false []] ++ w :: post) (new_cma None) with
  | Ok (inl c) => e_iter (c_es c) = 1 /\ length post = 3 /\ length (e_told (c_es c)) = 2
  | _ => False
  end.
Proof.
  exists (mkI false [5; 2] [[MStop ManagerSignal]] (fun _ => true) false []), (repeat (mkI false [8; 8] [] (fun _ => false) false []) 3).
  assert (D : stop_during (mkCfg 2 true None) (mkI false [5; 2] [[MStop ManagerSignal]] (fun _ => true) false [])) by (split; [reflexivity|split; [cbn; lia|eexists; now left]]).
  splits; [exact D|right; now right|reflexivity|vm_compute; auto].
Qed.

(** ** C65: injections into CMA *)
(** Injections are more than injection_frequency iterations apart, there are none without one; every injected vector was sent by
    the manager or is the start (with the value of the first vector of a population), or was loaded, and its value is lower than
    all those of the iteration it follows. *)
Theorem C65_injections {X} (restart : bool) g (f : X -> num) x0 ws (c : cma X) o : let c0 := if restart then c else fresh x0 c in
  cma_minimize restart g f x0 ws c = Ok o ->
  exists l, c_injs (either o) = c_injs c0 ++ l /\
    match g_freq g with None => l = [] | Some k => spaced k (c_ctr c) (map fst l) end /\
    forall i x, In (i, x) l -> e_iter (c_es c0) < i /\ exists w v, nth_error ws (i - S (e_iter (c_es c0))) = Some w /\ beats f (i_ask w) v /\
      (c_inc c = (Some x, Some v) \/ (exists w a r, In w ws /\ i_ask w = a :: r /\ x = x0 /\ v = f a) \/ exists w, In w ws /\ sent w x v).
Proof.
  intro c0. unfold cma_minimize. fold c0. intro H.
  assert (I : c_inc c0 = c_inc c /\ c_ctr c0 = c_ctr c) by (unfold c0; destruct restart; auto). destruct I as [I1 I2].
  assert (K : exists o', loop g f x0 (e_iter (c_es c0)) None ws c0 = Ok o' /\ c_injs (either o) = c_injs (state_of o')).
  { destruct (loop _ _ _ _ _ _ _) as [[c1 xs|c1 xs]|] eqn:L; try discriminate.
    - destruct (finish c1 xs) as [c2|] eqn:F; [|discriminate]. injection H as <-. unfold finish in F. apply read_result_spec in F as [[_ [_ [_ [_ [F _]]]]] _].
      eexists. split; [reflexivity|exact F].
    - injection H as <-. eexists. split; reflexivity. }
  destruct K as [o' [L J]]. apply loop_injs in L as [l [L1 [L2 L3]]]. exists l. rewrite J, <- I2. splits; auto.
  intros i x Hi. rewrite Forall_forall in L2. destruct (L2 _ Hi) as [A [w [v [B [C D]]]]]. cbn [fst snd] in *. split; [exact A|]. exists w, v. rewrite <- I1. splits; auto.
Qed.
Print Assumptions C65_injections.
(** Better vectors arrive after each iteration; with a frequency of one, every second iteration takes one over. *)
Definition better (k : nat) : inp nat := mkI false [1; 2] [] (fun _ => false) false [MInject (k + 5) (Fin (- inject_Z (Z.of_nat k)))].
Example C65_met :
  match cma_minimize false (mkCfg 1 true (Some 1)) demo_f 0 (map better [1; 2; 3; 4; 5; 6]) (new_cma None) with
  | Ok (inr c) => c_injs c = [(2, 7); (4, 9); (6, 11)] /\ e_inj (c_es c) = [0; 7; 9; 11]
  | _ => False
  end.
Proof. vm_compute. auto. Qed.
(** An incumbent sent while the first population is evaluated is overwritten by the start and never injected. *)
Theorem C65_first_refuted : exists (ws : list (inp nat)) c', cma_minimize false (mkCfg 2 true (Some 1)) demo_f 0 ws (new_cma None) = Ok (inr c') /\
  length ws = 4 /\ (exists w, In w ws /\ sent w 99 (Fin (- 1000 # 1)) /\ ~ In 99 (flat_map i_ask ws)) /\ c_injs c' = [] /\ c_inc c' = (Some 0, Some (demo_f 1)).
Proof.
  exists (mkI false [1; 2] [[MInject 99 (Fin (- 1000 # 1))]] (fun _ => false) false [] :: repeat (mkI false [1; 2] [] (fun _ => false) false []) 3).
  eexists. splits; try (vm_compute; reflexivity). eexists. splits; [left; reflexivity|left; reflexivity|]. vm_compute. intuition discriminate.
Qed.
Print Assumptions C65_first_refuted.
(** When minimize is called again on another function the counter of the first run remains: the same messages lead to no
    injection until the old iteration is passed. *)
Theorem C65_second_call_refuted : exists (ws : list (inp nat)) c1 c2, cma_minimize false (mkCfg 1 true (Some 1)) demo_f 0 ws (new_cma None) = Ok (inr c1) /\
  c_injs c1 = [(2, 7); (4, 9); (6, 11)] /\ cma_minimize false (mkCfg 1 true (Some 1)) demo_f 0 ws c1 = Ok (inr c2) /\ c_injs c2 = [].
Proof. exists (map better [1; 2; 3; 4; 5; 6]). do 2 eexists. splits; vm_compute; reflexivity. Qed.
Print Assumptions C65_second_call_refuted.
(** And the population is no longer that of the number of workers. *)
Theorem C65_popsize_refuted : exists c1 c2 n1 n2, popsize None 8 16 (@new_cma nat None) = (c1, n1) /\ n1 = 16 /\ popsize None 8 16 c1 = (c2, n2) /\ c_pop c2 = Some 16 /\ n2 = 8.
Proof. do 4 eexists. splits; vm_compute; reflexivity. Qed.
Print Assumptions C65_popsize_refuted.

(** ** C66: stopping Nevergrad, and callbacks *)
(** Conditions under which a tell stops the optimizer. *)
Definition wants_stop (zero : num) (l : list nat) (w : ninp) : bool :=
  nle big (ni_fx w) || nle (ni_fx w) zero || existsb (ni_cb w) l || ni_stop w.
(** Within a manager: a fresh run with no or one callback stops at the first tell which asks for it, not before, and sends one
    message. *)
Lemma ng_tells_stopped zero ws : forall s, n_stop s = true -> ng_tells true zero ws s = Ok s.
Proof.
  induction ws as [|w ws IH]; intros s S; [reflexivity|]. cbn.
  assert (R : forall k, repeat_callback k true zero w s = Ok s) by (induction k as [|k IHk]; [reflexivity|]; cbn; unfold ng_callback; now rewrite S).
  unfold ng_tell. now rewrite R, IH.
Qed.
Theorem C66_stops u zero ws l : wrap u = HList l ->
  exists s, ng_tells true zero ws (ng_start u) = Ok s /\ n_stop s = existsb (wants_stop zero l) ws /\ n_end s = n_stop s /\
    n_sent s = (if n_stop s then 1 else 0).
Proof.
  intro U. unfold ng_start. rewrite U.
  enough (G : forall calls, exists s, ng_tells true zero ws (mkN (HList l) 1 false 0 calls false) = Ok s /\ n_stop s = existsb (wants_stop zero l) ws /\
    n_end s = n_stop s /\ n_sent s = (if n_stop s then 1 else 0)) by apply G.
  induction ws as [|w ws IH]; intro calls; [eexists; splits; reflexivity|].
  cbn [ng_tells existsb]. unfold ng_tell. cbn [n_reg repeat_callback]. unfold ng_callback. cbn [n_stop n_held user_callbacks n_reg n_sent n_calls n_end andb orb].
  unfold wants_stop at 1. destruct (nle big (ni_fx w) || nle (ni_fx w) zero) eqn:C; cbn [orb].
  - rewrite ng_tells_stopped by reflexivity. eexists. splits; reflexivity.
  - destruct (existsb (ni_cb w) l || ni_stop w) eqn:D; cbn [orb].
    + rewrite ng_tells_stopped by reflexivity. eexists. splits; reflexivity.
    + apply IH.
Qed.
Print Assumptions C66_stops.
Definition tell_of (z : Z) : ninp := mkNI (Fin (inject_Z z)) (fun _ => Z.eqb z 3) false.
Example C66_met : exists s, ng_tells true (Fin 1) (map tell_of [9; 5; 3; 1; 0]%Z) (ng_start (GOne 4)) = Ok s /\ n_stop s = true /\ n_sent s = 1 /\ n_calls s = [4; 4; 4].
Proof. eexists. splits; vm_compute; reflexivity. Qed.

(** Without a manager nothing ever stops the run: neither the target value, nor a diverging value, nor the user's callback. *)
Theorem C66_alone_never u zero ws s : ng_tells false zero ws (ng_start u) = Ok s -> n_stop s = false /\ n_end s = false.
Proof.
  enough (G : forall s0, n_stop s0 = false -> n_end s0 = false -> ng_tells false zero ws s0 = Ok s -> n_stop s = false /\ n_end s = false) by (apply G; reflexivity).
  induction ws as [|w ws IH]; intros s0 A B E; cbn in E; [injection E as <-; auto|].
  destruct (ng_tell false zero w s0) as [s1|] eqn:T; [|discriminate].
  assert (R : forall k t t', n_stop t = false -> n_end t = false -> repeat_callback k false zero w t = Ok t' -> n_stop t' = false /\ n_end t' = false).
  { clear. induction k as [|k IH]; intros t t' A B E; cbn in E; [injection E as <-; auto|]. destruct (ng_callback false zero w t) as [t1|] eqn:C; [|discriminate].
    unfold ng_callback in C. rewrite A in C. match type of C with match ?t with _ => _ end = _ => destruct t as [[called cond]|]; [|discriminate] end. injection C as <-. eapply IH; [| |exact E]; cbn; [reflexivity|now rewrite B]. }
  destruct (R _ _ _ A B T) as [C D]. eauto.
Qed.
Print Assumptions C66_alone_never.
Theorem C66_alone_refuted : exists s, ng_tells false (Fin 1) (map tell_of [9; 5; 3; 1; 0]%Z) (ng_start (GOne 4)) = Ok s /\ n_stop s = false /\ n_calls s = [4; 4; 4].
Proof. eexists. splits; vm_compute; reflexivity. Qed.

(** A sequence of callbacks, as the signature allows, crashes the optimizer at its first tell. *)
Theorem C66_sequence_refuted : exists ws, ng_tells true NInf ws (ng_start (GSeq [1; 2])) = Err AttributeError /\ length ws = 1.
Proof. exists [tell_of 5]. split; reflexivity. Qed.
Print Assumptions C66_sequence_refuted.
(** So does a restart from a checkpoint, with the callbacks None or one callable: those that do work in a fresh start. *)
Theorem C66_restart_raises s (u : given) zero w : match u with GSeq _ => False | _ => True end -> nle big (ni_fx w) = false -> nle (ni_fx w) zero = false ->
  ng_tell true zero w (ng_restart u (fst (ng_save s))) = Err TypeError.
Proof.
  intros U A B. unfold ng_tell, ng_restart, ng_save. cbn [n_reg repeat_callback fst]. unfold ng_callback. cbn [n_stop n_held]. rewrite A, B. cbn [orb].
  destruct u; [reflexivity|reflexivity|contradiction].
Qed.
Print Assumptions C66_restart_raises.
Theorem C66_restart_refuted : exists s, ng_tells true NInf (map tell_of [9; 5]%Z) (ng_start GNone) = Ok s /\ n_stop s = false /\
  ng_tell true NInf (tell_of 4) s <> Err TypeError /\ ng_tell true NInf (tell_of 4) (ng_restart GNone (fst (ng_save s))) = Err TypeError.
Proof. eexists. splits; try (vm_compute; reflexivity). vm_compute. discriminate. Qed.
(** With a sequence a restart works, but each callback is called as often as the optimizer was started. *)
Theorem C66_repeated_refuted : exists s s' w, n_calls s = [] /\ s = ng_restart (GSeq [4]) (fst (ng_save (ng_restart (GSeq [4]) (fst (ng_save (ng_start GNone)))))) /\
  ng_tell true NInf w s = Ok s' /\ n_calls s' = [4; 4; 4].
Proof. do 2 eexists. exists (tell_of 5). splits; [|reflexivity|..]; vm_compute; reflexivity. Qed.
Print Assumptions C66_repeated_refuted.
(** The scipy wrapper accepts a sequence only, although the parameter is documented as one callable. *)
Theorem C66_scipy_refuted : exists u ans, u = GOne 7 /\ sp_callback u ans = Err TypeError.
Proof. exists (GOne 7), (fun _ => None). split; reflexivity. Qed.
Print Assumptions C66_scipy_refuted.
