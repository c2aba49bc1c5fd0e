(** * C47 *)
From Verif Require Import Prelude Prelude_Proofs Helpers_Spec Scope_Model Scope_Spec Scope_Proofs.

Lemma init_parts x y lg mv fl el c s : init x y lg mv fl el = Ok (c, s) -> s = empty_scope /\ c_flush c = fl /\ c_elite c = el /\ c_log c = lg /\ c_movie c = mv.
Proof. unfold init. destruct (parse_x x); [|discriminate]. destruct (parse_y y); [|discriminate]. intro H. injection H as <- <-. auto. Qed.

(** ** The window *)
(** When the plot has just been redrawn every trajectory consists of the points inside the window, all of them, in order. *)
Theorem C47_window_when_redrawn : forall x y lg mv fl c s0 es s i l,
  init x y lg mv fl false = Ok (c, s0) -> NoDup (added es) -> run c (es ++ [Redraw]) s0 = Ok s -> nget i (s_opt s) = Some l ->
  l = map (fun p => (fst p, scaled c (snd p))) (inside (window c es) (points i es)).
Proof.
  intros x y lg mv fl c s0 es s i l H0 N R Hl. destruct (init_parts _ _ _ _ _ _ _ _ H0) as [-> [_ [El _]]].
  destruct (run_redraw c es s N R i l Hl) as [p [-> [_ _ D3 _]]]. specialize (D3 El). rewrite !app_nil_r in D3. subst p. unfold inside.
  generalize (points i es). clear. intro k. induction k as [|[a b] k IH]; [reflexivity|]. cbn. destruct (Nat.leb _ a); cbn; rewrite IH; reflexivity.
Qed.
Print Assumptions C47_window_when_redrawn.

(** At any time: no point is missing, and what has left the window was still inside at most events_per_flush changes ago.
    (Partial: it should be inside now.) *)
Theorem C47_window_partial : forall x y lg mv fl c s0 es s i l,
  init x y lg mv fl false = Ok (c, s0) -> NoDup (added es) -> run c es s0 = Ok s -> nget i (s_opt s) = Some l ->
  exists pre post, es = pre ++ post /\ changes post <= fl /\
    l = map (fun p => (fst p, scaled c (snd p))) (inside (window c pre) (points i pre) ++ points i post).
Proof.
  intros x y lg mv fl c s0 es s i l H0 N R Hl. destruct (init_parts _ _ _ _ _ _ _ _ H0) as [-> [Ef [El _]]].
  destruct (run_inv c es s N R) as [_ _ _ _ _ [pre [post [E [_ [C D]]]]]]. exists pre, post. specialize (C eq_refl). splits; [exact E | lia|].
  destruct (D i l Hl) as [p [q [-> [D1 D2 D3 _]]]]. specialize (D3 El). rewrite points_app, map_app in D3. rewrite map_app.
  assert (L : length p = length (map (fun p => (fst p, scaled c (snd p))) (points i pre))) by (rewrite map_length, <- (map_length fst p), D1, map_length; reflexivity).
  assert (Ep : p = map (fun p => (fst p, scaled c (snd p))) (points i pre)) by (apply (f_equal (firstn (length p))) in D3; rewrite L in D3 at 2; rewrite !firstn_app, !Nat.sub_diag, !firstn_all in D3; cbn in D3; rewrite !app_nil_r in D3; exact D3).
  subst p. apply app_inv_head in D3. subst q. f_equal. unfold inside.
  generalize (points i pre). clear. intro k. induction k as [|[a b] k IH]; [reflexivity|]. cbn. destruct (Nat.leb _ a); cbn; rewrite IH; reflexivity.
Qed.
Print Assumptions C47_window_partial.

(** The same for the positions of the points when the best values are shown. *)
Theorem C47_window_elitism_partial : forall x y lg mv fl el c s0 es s i l,
  init x y lg mv fl el = Ok (c, s0) -> NoDup (added es) -> run c es s0 = Ok s -> nget i (s_opt s) = Some l ->
  exists pre post, es = pre ++ post /\ changes post <= fl /\ map fst l = map fst (inside (window c pre) (points i pre) ++ points i post).
Proof.
  intros x y lg mv fl el c s0 es s i l H0 N R Hl. destruct (init_parts _ _ _ _ _ _ _ _ H0) as [-> [Ef _]].
  destruct (run_inv c es s N R) as [_ _ _ _ _ [pre [post [E [_ [C D]]]]]]. exists pre, post. specialize (C eq_refl). splits; [exact E | lia|].
  destruct (D i l Hl) as [p [q [-> [D1 D2 _ _]]]]. rewrite !map_app, D2. f_equal. revert D1. generalize (points i pre) (window c pre). clear.
  intros k w. unfold inside. revert p. induction k as [|[a b] k IH]; intros [|[a' b'] p] H; try discriminate; [reflexivity|]. cbn in H |- *. injection H as -> H. specialize (IH p H).
  destruct (Nat.leb w a); cbn; rewrite IH; reflexivity.
Qed.
Print Assumptions C47_window_elitism_partial.

Definition scope_of (r : res (config * scope)) : config * scope := match r with Ok p => p | Err _ => (mkCfg None None false 0 false, empty_scope) end.
Definition shown_by (c : config) (es : list event) (i : nat) : option line := match run c es empty_scope with Ok s => nget i (s_opt s) | Err _ => None end.

(** x_range = 3, a redraw every 2 changes, two optimizers. *)
Definition demo (elite : bool) : config := mkCfg (Some 3) None elite 2 false.
Definition demo_events : list event :=
  [Add 1; Add 2; Point 1 1 (Fin 9); Point 2 2 (Fin 4); Point 1 3 (Fin 5); Point 1 4 (Fin 7); Point 1 5 (Fin 6); Point 1 6 (Fin 8)].
Example C47_window_met :
  init (XInt 3) YNone None false 2 false = Ok (demo false, empty_scope) /\ NoDup (added demo_events) /\
  shown_by (demo false) demo_events 1 = Some [(3, Fin 5); (4, Fin 7); (5, Fin 6); (6, Fin 8)] /\
  shown_by (demo false) demo_events 2 = Some [(2, Fin 4)] /\
  shown_by (demo false) (demo_events ++ [Redraw]) 2 = Some [] /\
  window (demo false) demo_events = 3.
Proof. splits; try (vm_compute; reflexivity). repeat constructor; cbn; intuition congruence. Qed.
(** The point 2 of optimizer 2 has left the window (which begins at 3) and is still there. *)
Theorem C47_window_refuted : exists x y lg mv fl c s0 es s i l p,
  init x y lg mv fl false = Ok (c, s0) /\ orderly c [] false es /\ run c es s0 = Ok s /\ nget i (s_opt s) = Some l /\ In p l /\ fst p < window c es.
Proof.
  exists (XInt 3), YNone, None, false, 2, (demo false), empty_scope, demo_events.
  exists (match run (demo false) demo_events empty_scope with Ok s => s | Err _ => empty_scope end), 2, [(2, Fin 4)], (2, Fin 4).
  splits; try (vm_compute; reflexivity).
  - cbn. intuition congruence.
  - left. reflexivity.
Qed.
Print Assumptions C47_window_refuted.

(** ** The best value *)
(** With elitism the k-th value drawn is the smallest of the first k sent, as long as the optimizer does not disappear from
    the window, sends no NaN, and - on the logarithmic scale - log10 and 10 ** undo each other.
    [full] is what was drawn so far; of this the trajectory keeps the points inside the window as in C47_window_partial. *)
Theorem C47_elitism_partial : forall x y lg mv fl c s0 es s i l,
  init x y lg mv fl true = Ok (c, s0) -> NoDup (added es) -> run c es s0 = Ok s -> nget i (s_opt s) = Some l ->
  unbroken c i es -> faithful c (map snd (points i es)) -> ~ In NaN (map snd (points i es)) ->
  exists pre p q, (exists post, es = pre ++ post /\ changes post <= fl /\ map fst p = map fst (points i pre) /\ map fst q = map fst (points i post)) /\
    l = inside (window c pre) p ++ q /\
    forall k a v, nth_error (p ++ q) k = Some (a, v) -> exists w, v = scaled c w /\ smallest_of_first (S k) (map snd (points i es)) w.
Proof.
  intros x y lg mv fl c s0 es s i l H0 N R Hl U F Nn. destruct (init_parts _ _ _ _ _ _ _ _ H0) as [-> [Ef [El _]]].
  destruct (run_inv c es s N R) as [_ _ _ _ _ [pre [post [E [_ [C D]]]]]]. specialize (C eq_refl).
  destruct (D i l Hl) as [p [q [El' [D1 D2 _ D4]]]]. exists pre, p, q. splits; [exists post; splits; auto; lia | exact El' |].
  subst es. exact (D4 El U F Nn).
Qed.
Print Assumptions C47_elitism_partial.

(** Without a window nothing is forgotten: the last value drawn is the best of all. *)
Theorem C47_elitism_best : forall x y lg mv fl c s0 es s i l a v k,
  init x y lg mv fl true = Ok (c, s0) -> c_trunc c = None -> NoDup (added es) -> run c es s0 = Ok s -> nget i (s_opt s) = Some l ->
  faithful c (map snd (points i es)) -> ~ In NaN (map snd (points i es)) -> l = k ++ [(a, v)] ->
  exists w, v = scaled c w /\ In w (map snd (points i es)) /\ forall z, In z (map snd (points i es)) -> nle w z = true.
Proof.
  intros x y lg mv fl c s0 es s i l a v k H0 T N R Hl F Nn Ek. destruct (init_parts _ _ _ _ _ _ _ _ H0) as [-> [Ef [El _]]].
  destruct (run_inv c es s N R) as [_ _ _ _ _ [pre [post [E [_ [C D]]]]]].
  destruct (D i l Hl) as [p [q [El' [D1 D2 _ D4]]]].
  assert (U : unbroken c i (pre ++ post)) by (intros a' ? ? ? _; unfold window; rewrite T; destruct (rev (points i a')) as [|[? ?] ?]; [exact I | lia]).
  subst es. specialize (D4 El U F Nn).
  assert (Ep : inside (window c pre) p = p) by (unfold window; rewrite T; unfold inside; clear; induction p as [|b p IH]; [reflexivity|]; cbn [filter]; change (Nat.leb 0 (fst b)) with true; cbn iota; f_equal; exact IH).
  rewrite Ep in El'. destruct (D4 (length k) a v) as [w [Ew [S1 S2]]].
  { rewrite <- El', Ek, nth_error_app2, Nat.sub_diag; [reflexivity | lia]. }
  assert (L : S (length k) = length (map snd (points i (pre ++ post)))).
  { rewrite map_length, points_app, app_length, <- (map_length fst (points i pre)), <- (map_length fst (points i post)), <- D1, <- D2, !map_length, <- app_length, <- El', Ek, app_length. cbn. lia. }
  rewrite L, firstn_all in *. eauto.
Qed.
Print Assumptions C47_elitism_best.

Example C47_elitism_met :
  init (XInt 3) YNone None false 2 true = Ok (demo true, empty_scope) /\ NoDup (added demo_events) /\
  shown_by (demo true) demo_events 1 = Some [(3, Fin 5); (4, Fin 5); (5, Fin 5); (6, Fin 5)] /\ ~ In NaN (map snd (points 1 demo_events)) /\
  unbroken (demo true) 1 demo_events.
Proof.
  splits; try (vm_compute; reflexivity).
  - repeat constructor; cbn; intuition congruence.
  - cbn. intuition congruence.
  - intros a x y b H. unfold demo_events in H.
    repeat (destruct a as [|? a]; cbn in H; [try discriminate; injection H; intros; subst; cbn; try lia; exact I | injection H as <- H]).
    destruct a; discriminate.
Qed.
(** On the logarithmic scale, with values that are powers of ten. *)
Definition log_table (y : num) : num :=
  match y with Fin q => if Qeq_bool q 100 then Fin 2 else if Qeq_bool q 1000 then Fin 3 else if Qeq_bool q 10 then Fin 1 else NaN | _ => NaN end.
Definition exp_table (y : num) : num :=
  match y with Fin q => if Qeq_bool q 2 then Fin 100 else if Qeq_bool q 3 then Fin 1000 else if Qeq_bool q 1 then Fin 10 else NaN | _ => NaN end.
Definition log_demo : config := mkCfg None (Some (log_table, exp_table)) true 10 false.
Definition log_events : list event := [Add 1; Point 1 1 (Fin 100); Point 1 2 (Fin 1000); Point 1 3 (Fin 10); Point 1 4 (Fin 100)].
Example C47_elitism_best_met :
  init XNone YNone (Some (log_table, exp_table)) false 10 true = Ok (log_demo, empty_scope) /\ c_trunc log_demo = None /\
  faithful log_demo (map snd (points 1 log_events)) /\ ~ In NaN (map snd (points 1 log_events)) /\
  shown_by log_demo log_events 1 = Some ([(1, Fin 2); (2, Fin 2); (3, Fin 1)] ++ [(4, Fin 1)]).
Proof.
  splits; try (vm_compute; reflexivity); cbn; [|intuition congruence].
  intros y H. repeat destruct H as [<-|H]; try reflexivity. contradiction.
Qed.

(** The optimizer was out of the window for a while: its best value is forgotten. *)
Definition gap_events : list event :=
  [Add 1; Add 2; Point 1 1 (Fin 1); Point 2 2 (Fin 8); Point 2 8 (Fin 8); Point 2 9 (Fin 8); Point 1 10 (Fin 7)].
Theorem C47_elitism_gap_refuted : exists x y lg mv fl c s0 es s i k a v z,
  init x y lg mv fl true = Ok (c, s0) /\ orderly c [] false es /\ run c es s0 = Ok s /\ nget i (s_opt s) = Some (k ++ [(a, v)]) /\
  c_log c = None /\ ~ In NaN (map snd (points i es)) /\ In z (map snd (points i es)) /\ nlt z v = true.
Proof.
  exists (XInt 3), YNone, None, false, 2, (demo true), empty_scope, gap_events.
  exists (match run (demo true) gap_events empty_scope with Ok s => s | Err _ => empty_scope end), 1, [], 10, (Fin 7), (Fin 1).
  splits; try (vm_compute; reflexivity).
  - cbn. intuition congruence.
  - cbn. intuition congruence.
  - cbn. auto.
Qed.
Print Assumptions C47_elitism_gap_refuted.
(** A NaN ends the memory of the best value as well. *)
Theorem C47_elitism_nan_refuted : exists x y lg mv fl c s0 es s i k a v z,
  init x y lg mv fl true = Ok (c, s0) /\ orderly c [] false es /\ run c es s0 = Ok s /\ nget i (s_opt s) = Some (k ++ [(a, v)]) /\
  c_log c = None /\ c_trunc c = None /\ In z (map snd (points i es)) /\ nlt z v = true.
Proof.
  pose (es := [Add 1; Point 1 1 (Fin 5); Point 1 2 NaN; Point 1 3 (Fin 7)]). pose (c := mkCfg None None true 10 false).
  exists XNone, YNone, None, false, 10, c, empty_scope, es, (match run c es empty_scope with Ok s => s | Err _ => empty_scope end), 1, [(1, Fin 5); (2, NaN)], 3, (Fin 7), (Fin 5).
  splits; try (vm_compute; reflexivity); cbn; intuition congruence.
Qed.
Print Assumptions C47_elitism_nan_refuted.

(** ** Markers *)
(** A marker is the last point of the trajectory of its optimizer at the time of the event. *)
Theorem C47_marker_on_trajectory : forall x y lg mv fl el c s0 es s t g p,
  init x y lg mv fl el = Ok (c, s0) -> run c es s0 = Ok s -> tget t (s_gen s) = Some g -> In p g ->
  exists a b i s' l, es = a ++ Mark i t :: b /\ run c a s0 = Ok s' /\ nget i (s_opt s') = Some l /\ exists k, l = k ++ [p].
Proof.
  intros x y lg mv fl el c s0 es s t g p H0 R G Hp. destruct (init_parts _ _ _ _ _ _ _ _ H0) as [-> _].
  destruct (markers c t es s g p R G Hp) as [a [b [i [s' [l [E [R' [Hl L]]]]]]]]. exists a, b, i, s', l. splits; auto.
  unfold last_of in L. destruct (rev l) as [|z r] eqn:Er; [discriminate|]. injection L as ->. exists (rev r). apply rev_eq. exact Er.
Qed.
Print Assumptions C47_marker_on_trajectory.
(** Markers are not removed when they leave the window. *)
Definition marker_events : list event := [Add 1; Add 2; Point 1 1 (Fin 3); Mark 1 OptKill; Point 2 9 (Fin 2); Redraw].
Theorem C47_marker_window_refuted : exists x y lg mv fl c s0 es s t g p,
  init x y lg mv fl false = Ok (c, s0) /\ orderly c [] false es /\ run c (es ++ [Redraw]) s0 = Ok s /\ tget t (s_gen s) = Some g /\ In p g /\ fst p < window c es.
Proof.
  exists (XInt 3), YNone, None, false, 2, (demo false), empty_scope, marker_events.
  exists (match run (demo false) (marker_events ++ [Redraw]) empty_scope with Ok s => s | Err _ => empty_scope end), OptKill, [(1, Fin 3)], (1, Fin 3).
  splits; try (vm_compute; reflexivity).
  - cbn. intuition congruence.
  - left. reflexivity.
  - vm_compute. repeat constructor.
Qed.
Print Assumptions C47_marker_window_refuted.
Example C47_marker_met : exists s, run (demo false) marker_events empty_scope = Ok s /\ tget OptKill (s_gen s) = Some [(1, Fin 3)].
Proof. exists (match run (demo false) marker_events empty_scope with Ok s => s | Err _ => empty_scope end). split; vm_compute; reflexivity. Qed.
(** No marker is drawn for an optimizer which has left the window. *)
Theorem C47_marker_lost_refuted : exists x y lg mv fl c s0 es s i t,
  init x y lg mv fl false = Ok (c, s0) /\ orderly c [] false es /\ run c es s0 = Ok s /\ In (Mark i t) es /\ points i es <> [] /\ tget t (s_gen s) = Some [].
Proof.
  pose (es := [Add 1; Add 2; Point 1 1 (Fin 3); Point 2 9 (Fin 2); Redraw; Mark 1 OptCrash]).
  exists (XInt 3), YNone, None, false, 2, (demo false), empty_scope, es, (match run (demo false) es empty_scope with Ok s => s | Err _ => empty_scope end), 1, OptCrash.
  splits; try (vm_compute; reflexivity); cbn; intuition congruence.
Qed.
Print Assumptions C47_marker_lost_refuted.

(** ** The streams are those which were added, and they are counted *)
Lemma redraw_n c f s u s' : redraw c f s = (u, s') -> s_n s' = s_n s /\ map fst (s_opt s') = map fst (s_opt s).
Proof.
  unfold redraw. destruct (_ || _).
  - destruct (c_trunc c) as [t|].
    + cbn [set_events s_xmax s_dead s_opt]. pose proof (purge_keys (s_xmax s - t) (s_opt s) (s_dead s)) as K. destruct (purge _ _ _) as [l d].
      cbn in K. destruct (c_movie c); cbn; [destruct (s_setup s)|]; intros [= <- <-]; cbn; auto.
    + destruct (c_movie c); cbn; [destruct (s_setup s)|]; intros [= <- <-]; auto.
  - intros [= <- <-]. auto.
Qed.
Lemma update_point_n c i tr pt s u s' : update_point c i tr pt s = (u, s') -> s_n s' = s_n s /\ map fst (s_opt s') = map fst (s_opt s).
Proof.
  unfold update_point. destruct (match pt with Some p => Ok (Some p) | None => farthest i s end) as [o|e]; [|intros [= <- <-]; auto].
  destruct (wake_same s i) as [W1 W]. assert (N : s_n (if nmem i (s_dead s) then set_dead (filter (fun j => negb (Nat.eqb i j)) (s_dead s)) s else s) = s_n s) by (destruct (nmem _ _); reflexivity).
  set (t := if nmem i (s_dead s) then _ else _) in *. destruct o as [[x y]|]; [|intros [= <- <-]; rewrite W1; auto]. cbn [set_xmax s_opt s_gen].
  destruct tr as [tr|].
  - destruct (tget tr (s_gen t)); intros [= <- <-]; cbn; rewrite W1; auto.
  - destruct (nget i (s_opt t)) eqn:G; intros [= <- <-]; cbn; rewrite W1 in *; auto. split; [exact N|]. rewrite nset_keys. unfold nmemd. rewrite G. reflexivity.
Qed.
Lemma exec_n c e s u s' : exec c e s = (Ok u, s') -> s_n s' = s_n s + length (added [e]) /\ (forall i, In i (map fst (s_opt s')) <-> In i (map fst (s_opt s)) \/ In i (added [e])).
Proof.
  destruct e as [i| |i x y|i t|]; cbn [exec added flat_map app length].
  - unfold add_stream. intros [= <- <-]. cbn. split; [lia|]. intro j. rewrite nset_keys. destruct (nmemd i (s_opt s)) eqn:M; [|rewrite in_app_iff; reflexivity].
    unfold nmemd in M. destruct (nget i (s_opt s)) eqn:G; [|discriminate]. split; [tauto|]. intros [X|[<-|[]]]; auto.
    destruct (in_dec Nat.eq_dec i (map fst (s_opt s))) as [|N]; auto. apply nget_in in N. congruence.
  - unfold setup_moviemaker, modify. intros [= <- <-]. destruct (c_movie c); cbn; (split; [lia|]; intro j; split; [auto|intros [X|[]]; exact X]).
  - unfold update_optimizer. destruct (if c_elite c then _ else _) as [y'|]; [|discriminate]. unfold bind. destruct (update_point c i None (Some (x, y')) s) as [[?|?] s1] eqn:E1; [|discriminate].
    intro E2. apply update_point_n in E1 as [A1 B1]. apply redraw_n in E2 as [A2 B2]. rewrite A2, A1, B2, B1. split; [lia|]. intro j. split; [auto|intros [X|[]]; exact X].
  - unfold update_mark, bind. destruct (update_point c i (Some t) None s) as [[?|?] s1] eqn:E1; [|discriminate].
    intro E2. apply update_point_n in E1 as [A1 B1]. apply redraw_n in E2 as [A2 B2]. rewrite A2, A1, B2, B1. split; [lia|]. intro j. split; [auto|intros [X|[]]; exact X].
  - intro E2. apply redraw_n in E2 as [A2 B2]. rewrite A2, B2. split; [lia|]. intro j. split; [auto|intros [X|[]]; exact X].
Qed.
Theorem C47_streams : forall x y lg mv fl el c s0 es s, init x y lg mv fl el = Ok (c, s0) -> run c es s0 = Ok s ->
  s_n s = length (added es) /\ forall i, In i (map fst (s_opt s)) <-> In i (added es).
Proof.
  intros x y lg mv fl el c s0 es s H0 H. destruct (init_parts _ _ _ _ _ _ _ _ H0) as [-> _].
  assert (G : forall es s0, run c es s0 = Ok s -> s_n s = s_n s0 + length (added es) /\ forall i, In i (map fst (s_opt s)) <-> In i (map fst (s_opt s0)) \/ In i (added es)).
  { clear. induction es as [|e es IH]; cbn [run]; intros s0 H; [injection H as <-; cbn; split; [lia|tauto]|].
    destruct (exec c e s0) as [[u|er] s1] eqn:E; [|discriminate]. apply exec_n in E as [A B]. destruct (IH _ H) as [A' B']. change (e :: es) with ([e] ++ es). rewrite added_app, app_length. split; [lia|].
    intro i. rewrite B', B, in_app_iff. tauto. }
  destruct (G _ _ H) as [A B]. split; [rewrite A; reflexivity|]. intro i. rewrite B. cbn. tauto.
Qed.
Print Assumptions C47_streams.
Example C47_streams_met : exists s, run (demo true) [Add 4; Add 7; Point 4 1 (Fin 3); Mark 7 OptKill; Redraw] empty_scope = Ok s /\ s_n s = 2 /\ map fst (s_opt s) = [4; 7].
Proof. eexists. splits; vm_compute; reflexivity. Qed.

(** ** No failures *)
Theorem C47_no_failure : forall x y lg mv fl el c s0 es, init x y lg mv fl el = Ok (c, s0) -> orderly c [] false es -> exists s, run c es s0 = Ok s.
Proof.
  intros x y lg mv fl el c s0 es H0 O. destruct (init_parts _ _ _ _ _ _ _ _ H0) as [-> _]. eapply run_ok; [| | |exact O]; cbn; [tauto | discriminate | reflexivity].
Qed.
Print Assumptions C47_no_failure.
(** The ranges which are accepted. *)
Theorem C47_ranges : forall x y lg mv fl el, (exists c s, init x y lg mv fl el = Ok (c, s)) <->
  (match x with XNone => True | XTuple a b => nle b a = false | XInt n => (2 <= n)%Z | XOther => False end) /\
  (match y with YNone => True | YTuple a b => nle b a = false | YOther => False end).
Proof.
  intros x y lg mv fl el. unfold init, parse_x, parse_y. destruct x as [|a b|n|]; try destruct (nle b a) eqn:E; try (destruct (Z.ltb_spec n 2));
    destruct y as [|a' b'|]; try destruct (nle b' a') eqn:E'; (split; [intros [? [? Hx]]; try discriminate; split; auto; try lia | intros [? ?]; try discriminate; try lia; try contradiction; eauto]).
Qed.
Print Assumptions C47_ranges.
(** A movie which was not set up: the first redraw raises. *)
Example C47_no_failure_met : orderly (demo true) [] false gap_events /\
  run (mkCfg (Some 3) None false 0 true) [Add 1; Setup; Point 1 1 (Fin 3)] empty_scope <> Err RuntimeError /\
  run (mkCfg (Some 3) None false 0 true) [Add 1; Point 1 1 (Fin 3)] empty_scope = Err RuntimeError /\
  run (mkCfg (Some 3) None false 0 false) [Point 1 1 (Fin 3)] empty_scope = Err KeyError.
Proof. splits; try (vm_compute; reflexivity); [cbn; intuition congruence | vm_compute; discriminate]. Qed.
