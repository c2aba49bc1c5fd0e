(** * The checkpoint conversation: exceptions, restart files, accounting *)
From Verif Require Import Prelude_Proofs.
From Verif Require Export Sync_Proofs.
Local Arguments nmem : simpl never.

(** ** Steps of the manager, as changes of the optimizers *)
Inductive touch : (opt -> opt) -> Prop :=
  | t_send m : touch (send m)
  | t_read : touch (fun o => set_out (tl (o_out o)) o)
  | t_dead : touch (at_ Dead)
  | t_run : touch (set_run true)
  | t_id : touch (fun o => o)
  | t_comp f g : touch f -> touch g -> touch (fun o => f (g o)).
Lemma handle_opts h it s j : exists f, touch f /\ nth_error (s_opts (handle h it s)) j = option_map f (nth_error (s_opts s) j).
Proof.
  destruct it; cbn.
  - rewrite !upd_all_nth. exists (fun o => (if h_tell h j then send Share else fun o => o) ((if h_kill h j then send Stop else fun o => o) o)). split.
    + apply (t_comp (if h_tell h j then send Share else fun o => o) (if h_kill h j then send Stop else fun o => o)); [destruct (h_tell h j) | destruct (h_kill h j)]; constructor.
    + destruct (nth_error (s_opts s) j); cbn; auto. destruct (h_tell h j), (h_kill h j); auto.
  - exists (fun o => o). split; [constructor|]. destruct (nth_error (s_opts s) j); auto.
Qed.
Lemma change_opts i f s j : touch f -> exists g, touch g /\ nth_error (s_opts (change i f s)) j = option_map g (nth_error (s_opts s) j).
Proof.
  intro T. cbn. rewrite upd_nth. destruct (Nat.eqb i j); [exists f; auto|]. exists (fun o => o). split; [constructor|]. destruct (nth_error (s_opts s) j); auto.
Qed.
Lemma same_opts s s' j : s_opts s' = s_opts s -> exists g, touch g /\ nth_error (s_opts s') j = option_map g (nth_error (s_opts s) j).
Proof. intros ->. exists (fun o => o). split; [constructor|]. destruct (nth_error (s_opts s) j); auto. Qed.
Lemma mstep_opts c h s j o : nth_error (s_opts (mstep c h s)) j = Some o ->
  (exists g o', touch g /\ nth_error (s_opts s) j = Some o' /\ o = g o') \/ (exists n, j = length (s_opts s) /\ o = fresh n /\ s_m s = Idle).
Proof.
  intro E.
  assert (K : (exists g, touch g /\ nth_error (s_opts (mstep c h s)) j = option_map g (nth_error (s_opts s) j)) \/ (exists n, j = length (s_opts s) /\ o = fresh n /\ s_m s = Idle)).
  { unfold mstep in *. destruct (s_m s) eqn:M.
    - destruct (h_idle h); try (left; apply same_opts; reflexivity); try (left; apply change_opts; constructor).
      + destruct (s_queue s); left; apply same_opts; reflexivity.
      + cbn in *. destruct (Nat.ltb_spec j (length (s_opts s))) as [L|L].
        * left. exists (fun o => o). split; [constructor|]. rewrite nth_error_app1 by lia. destruct (nth_error (s_opts s) j); reflexivity.
        * right. rewrite nth_error_app2 in E by lia. exists n. destruct (j - length (s_opts s)) as [|k] eqn:D; cbn in E; [|destruct k; discriminate]. injection E as <-. splits; auto. lia.
    - left. destruct todo as [|i todo]; [apply same_opts; reflexivity|]. destruct (is_alive i s); [apply (change_opts i (send Prep) s j); constructor | apply same_opts; reflexivity].
    - left. destruct (v_wait v); [|destruct (full c s)]; apply same_opts; reflexivity.
    - left. destruct cur as [|it cur]; [|apply (handle_opts h it s j)]. destruct k; [apply same_opts; reflexivity|]. unfold pop. destruct (s_queue s); apply same_opts; reflexivity.
    - left. destruct todo as [|i todo]; [apply same_opts; reflexivity|]. destruct (nth_error (s_opts s) i) as [a|] eqn:B; [|apply same_opts; reflexivity]. destruct (alive a); [|apply same_opts; reflexivity].
      destruct (o_out a) as [|r l] eqn:O; [apply same_opts; reflexivity|].
      assert (X : exists g, touch g /\ nth_error (upd i (set_out l) (s_opts s)) j = option_map g (nth_error (s_opts s) j)).
      { rewrite (upd_ext i (set_out l) (fun o => set_out (tl (o_out o)) o) _ a B) by (rewrite O; reflexivity). apply (change_opts i _ s j). constructor. }
      destruct r; exact X.
    - left. destruct cur as [|it cur]; [|apply (handle_opts h it s j)]. unfold pop. destruct (s_queue s); apply same_opts; reflexivity.
    - left. destruct (s_queue s); apply same_opts; reflexivity.
    - left. destruct todo as [|i todo]; [apply same_opts; reflexivity|]. destruct (is_alive i s); [apply (change_opts i _ s j); constructor | apply same_opts; reflexivity].
    - left. destruct todo as [|i todo]; [destruct rem; apply same_opts; reflexivity|]. destruct (nth_error (s_opts s) i); apply same_opts; reflexivity.
    - left. destruct (forallb _ _); apply same_opts; reflexivity.
    - left. destruct todo as [|i todo]; [apply same_opts; reflexivity|]. destruct (is_alive i s); [apply (change_opts i _ s j); constructor | apply same_opts; reflexivity].
    - left. destruct todo as [|i todo]; [apply same_opts; reflexivity|]. destruct (is_alive i s); [apply (change_opts i _ s j); constructor | apply same_opts; reflexivity].
    - left. apply same_opts; reflexivity.
    - left. apply same_opts; reflexivity.
    - left. apply same_opts; reflexivity. }
  destruct K as [[g [T G]]|K]; [|right; exact K]. left. rewrite E in G. destruct (nth_error (s_opts s) j) as [o'|]; cbn in G; [|discriminate]. injection G as ->. eauto 6.
Qed.
Lemma mstep_length c h s : length (s_opts s) <= length (s_opts (mstep c h s)).
Proof.
  unfold mstep, pop.
  repeat match goal with |- context [match ?x with _ => _ end] => destruct x end; cbn [set_m change set_opts s_opts]; rewrite ?handle_length, ?upd_length, ?app_length; cbn [s_opts]; rewrite ?handle_length, ?upd_length; try lia.
Qed.

(** What the manager never touches. *)
Lemma touch_keeps f o : touch f -> o_made (f o) = o_made o /\ o_saved (f o) = o_saved o /\ o_failed (f o) = o_failed o /\ incl (o_out (f o)) (o_out o) /\
  (o_at (f o) = o_at o \/ o_at (f o) = Dead).
Proof.
  intro T. revert o. induction T; intro o; cbn; splits; auto; try apply incl_refl.
  - destruct (o_out o); [apply incl_refl | apply incl_tl, incl_refl].
  - destruct (IHT1 (g o)) as [-> _]. apply IHT2.
  - destruct (IHT1 (g o)) as [_ [-> _]]. apply IHT2.
  - destruct (IHT1 (g o)) as [_ [_ [-> _]]]. apply IHT2.
  - eapply incl_tran; [apply IHT1 | apply IHT2].
  - destruct (IHT1 (g o)) as [_ [_ [_ [_ [->|X]]]]]; [apply IHT2 | right; exact X].
Qed.

(** ** Exceptions *)
Definition sound_o (o : opt) : Prop := (In Crashed (o_out o) -> o_failed o = true) /\ (o_failed o = true -> o_at o = Bye \/ o_at o = Dead).
Definition Exc (s : sys) : Prop :=
  (forall i o, nth_error (s_opts s) i = Some o -> sound_o o) /\
  (s_m s = MUnhandled -> exists i o, nth_error (s_opts s) i = Some o /\ o_failed o = true).
Lemma onext_sound h a b o : sound_o o -> sound_o (onext h a b o).
Proof.
  intros [S1 S2]. unfold sound_o, onext. destruct (o_at o) eqn:A.
  - assert (F : o_failed o = false) by (destruct (o_failed o); auto; destruct S2; auto; discriminate).
    destruct (_ || _); cbn; rewrite ?F; [split; [intro X; apply S1 in X; congruence | discriminate]|].
    destruct (h_raise h); cbn; [split; auto|]. rewrite F. split; [intro X; apply S1 in X; congruence | discriminate].
  - assert (F : o_failed o = false) by (destruct (o_failed o); auto; destruct S2; auto; discriminate).
    destruct a; cbn; rewrite ?A, ?F; (split; [intro X; apply S1 in X; congruence | discriminate]).
  - assert (F : o_failed o = false) by (destruct (o_failed o); auto; destruct S2; auto; discriminate).
    destruct (o_in o) as [|[]]; try destruct (h_raise h); cbn; rewrite ?F; auto; split; try discriminate; intro X; try (apply S1 in X; congruence).
    all: apply in_app_or in X as [X|[X|[]]]; [apply S1 in X; congruence | discriminate].
  - assert (F : o_failed o = false) by (destruct (o_failed o); auto; destruct S2; auto; discriminate).
    destruct (o_run o); cbn; rewrite ?F; (split; [intro X; apply S1 in X; congruence | discriminate]).
  - assert (F : o_failed o = false) by (destruct (o_failed o); auto; destruct S2; auto; discriminate).
    destruct (o_in o) as [|[]]; [destruct got|..]; try destruct (h_raise h); cbn; rewrite ?F; auto; split; try discriminate; intro X; try (apply S1 in X; congruence).
  - assert (F : o_failed o = false) by (destruct (o_failed o); auto; destruct S2; auto; discriminate).
    cbn. rewrite ?F; (split; [intro X; apply S1 in X; congruence | discriminate]).
  - assert (F : o_failed o = false) by (destruct (o_failed o); auto; destruct S2; auto; discriminate).
    destruct (o_run o); cbn; rewrite ?F; (split; [intro X; apply S1 in X; congruence | discriminate]).
  - assert (F : o_failed o = false) by (destruct (o_failed o); auto; destruct S2; auto; discriminate).
    cbn; rewrite ?F. split; [|discriminate]. intro X. apply in_app_or in X as [X|[X|[]]]; [apply S1 in X; congruence | discriminate].
  - destruct b; cbn; rewrite ?A; auto.
  - rewrite A. auto.
  - rewrite A. auto.
Qed.
Lemma onext_failed h a b o : o_failed o = true -> o_failed (onext h a b o) = true.
Proof.
  intro F. unfold onext. destruct (o_at o); auto; repeat match goal with |- context [match ?x with _ => _ end] => destruct x; cbn end; auto.
Qed.
Lemma ostep_nth c h i s j o : nth_error (s_opts (ostep c h i s)) j = Some o ->
  exists o', nth_error (s_opts s) j = Some o' /\ (o = o' \/ (i = j /\ o = onext h (is_some (put_nowait c (Res i) s)) (is_some (put c (End i) s)) o')).
Proof.
  intro E. destruct (nth_error (s_opts s) i) as [a|] eqn:B; [|unfold ostep in E; rewrite B in E; eauto].
  rewrite (ostep_opts c h i s a B), upd_nth in E. destruct (Nat.eqb_spec i j) as [->|N]; [|eauto].
  rewrite B in E. injection E as <-. eauto.
Qed.
Lemma ostep_nth' c h i s j o : nth_error (s_opts s) j = Some o ->
  exists o', nth_error (s_opts (ostep c h i s)) j = Some o' /\ (o' = o \/ (i = j /\ o' = onext h (is_some (put_nowait c (Res i) s)) (is_some (put c (End i) s)) o)).
Proof.
  intro E. destruct (nth_error (s_opts s) i) as [a|] eqn:B; [|unfold ostep; rewrite B; eauto].
  rewrite (ostep_opts c h i s a B), upd_nth. destruct (Nat.eqb_spec i j) as [->|N]; [|eauto].
  rewrite E. rewrite E in B. injection B as ->. cbn. eauto.
Qed.
Lemma mstep_nth' c h s j o : nth_error (s_opts s) j = Some o -> exists g, touch g /\ nth_error (s_opts (mstep c h s)) j = Some (g o).
Proof.
  intro E. pose proof (mstep_length c h s) as L. pose proof (nth_lt _ _ _ E) as L2.
  destruct (nth_error (s_opts (mstep c h s)) j) as [o'|] eqn:E'; [|apply nth_error_None in E'; lia].
  destruct (mstep_opts _ _ _ _ _ E') as [[g [a [T [X ->]]]]|[n [X _]]]; [|lia]. rewrite E in X. injection X as <-. eauto.
Qed.
Lemma step_exc c l s : Exc s -> Exc (step c l s).
Proof.
  intros [H1 H2]. unfold step. destruct (fst l) as [i|].
  - destruct (ostep_keeps c (snd l) i s) as [_ [_ K]]. split.
    + intros j o E. destruct (ostep_nth _ _ _ _ _ _ E) as [o' [E' [->|[_ ->]]]]; [eauto|]. apply onext_sound. eauto.
    + rewrite K. intro M. destruct (H2 M) as [j [o [E F]]]. destruct (ostep_nth' c (snd l) i s j o E) as [o' [E' [->|[_ ->]]]]; [eauto|].
      eexists _, _. split; [exact E'|]. apply onext_failed. exact F.
  - split.
    + intros j o E. destruct (mstep_opts _ _ _ _ _ E) as [[g [a [T [X ->]]]]|[n [_ [-> _]]]]; [|split; [intros []|discriminate]].
      destruct (touch_keeps g a T) as [_ [_ [F [O A]]]]. destruct (H1 _ _ X) as [S1 S2]. split; [intro Y; rewrite F; auto|]. rewrite F. intro Y. destruct A as [->|A]; auto.
    + intro M. assert (K : s_m s = MUnhandled \/ exists j o, nth_error (s_opts s) j = Some o /\ In Crashed (o_out o)).
      { revert M. unfold mstep. destruct (s_m s) eqn:M; cbn; auto; intro Y; try congruence.
        - destruct (h_idle (snd l)); try destruct (s_queue s); cbn in Y; congruence.
        - destruct todo as [|i]; [|destruct (is_alive i s)]; cbn in Y; discriminate.
        - destruct (v_wait v); [|destruct (full c s)]; cbn in Y; discriminate.
        - destruct cur; [destruct k; [|unfold pop in Y; destruct (s_queue s)]|]; cbn in Y; discriminate.
        - destruct todo as [|i todo]; [discriminate|]. destruct (nth_error (s_opts s) i) as [a|] eqn:B; [|congruence]. destruct (alive a); [|discriminate].
          destruct (o_out a) as [|[] ll] eqn:O; try discriminate. right. exists i, a. split; auto. rewrite O. left; auto.
        - destruct cur; [unfold pop in Y; destruct (s_queue s)|]; cbn in Y; discriminate.
        - destruct (s_queue s); cbn in Y; discriminate.
        - destruct todo as [|i todo]; [|destruct (is_alive i s)]; cbn in Y; discriminate.
        - destruct todo as [|i todo]; [destruct rem|]; cbn in Y; try discriminate. destruct (nth_error (s_opts s) i); cbn in Y; congruence.
        - destruct (forallb _ _); cbn in Y; [destruct (h_conv (snd l))|]; discriminate.
        - destruct todo as [|i todo]; [|destruct (is_alive i s)]; cbn in Y; discriminate.
        - destruct todo as [|i todo]; [|destruct (is_alive i s)]; cbn in Y; discriminate. }
      assert (K' : exists j o, nth_error (s_opts s) j = Some o /\ o_failed o = true).
      { destruct K as [K|[j [o [E X]]]]; [auto|]. exists j, o. split; auto. apply (H1 _ _ E). exact X. }
      destruct K' as [j [o [E F]]]. destruct (mstep_nth' c (snd l) s j o E) as [g [T G]]. exists j, (g o). split; auto. destruct (touch_keeps g o T) as [_ [_ [-> _]]]. exact F.
Qed.
Lemma start_exc : Exc start.
Proof. split; cbn; [intros [|]; discriminate | discriminate]. Qed.
Lemma reachable_exc c s : reachable c s -> Exc s.
Proof. intros [ls <-]. generalize start_exc. generalize start. induction ls as [|l ls IH]; intros s H; [exact H|]. apply IH, step_exc, H. Qed.

(** Without exceptions none has failed. *)
Lemma onext_calm h a b o : h_raise h = false -> o_failed (onext h a b o) = o_failed o.
Proof.
  intro F. unfold onext. destruct (o_at o); auto; repeat match goal with |- context [match ?x with _ => _ end] => destruct x; cbn end; auto; discriminate.
Qed.
Definition unfailed (s : sys) : Prop := forall i o, nth_error (s_opts s) i = Some o -> o_failed o = false.
Lemma step_unfailed c l s : calm l -> unfailed s -> unfailed (step c l s).
Proof.
  intros C H i o. unfold step. destruct (fst l) as [j|]; intro E.
  - destruct (ostep_nth _ _ _ _ _ _ E) as [o' [E' [->|[_ ->]]]]; [eauto|]. rewrite onext_calm by exact C. eauto.
  - destruct (mstep_opts _ _ _ _ _ E) as [[g [a [T [X ->]]]]|[n [_ [-> _]]]]; [|reflexivity]. destruct (touch_keeps g a T) as [_ [_ [-> _]]]. eauto.
Qed.
Lemma calmly_unfailed c s : calmly_reachable c s -> unfailed s.
Proof.
  intros [ls [C <-]]. assert (H : unfailed start) by (intros [|] o; discriminate). revert H. generalize start. induction C as [|l ls C1 C2 IH]; intros s H; [exact H|]. apply IH, step_unfailed; auto.
Qed.
Lemma calmly_reaches c s : calmly_reachable c s -> reachable c s.
Proof. intros [ls [_ E]]. exists ls. exact E. Qed.

(** A failed optimizer whose end the manager awaits is awaited forever. *)
Lemma stuck_step c l s i : Inv s -> Exc s ->
  (exists todo rem v o, s_m s = MClear todo rem v /\ In i rem /\ nth_error (s_opts s) i = Some o /\ o_failed o = true) ->
  exists todo rem v o, s_m (step c l s) = MClear todo rem v /\ In i rem /\ nth_error (s_opts (step c l s)) i = Some o /\ o_failed o = true.
Proof.
  intros I [X1 _] [todo [rem [v [o [M [R [E F]]]]]]]. unfold step. destruct (fst l) as [j|].
  - destruct (ostep_keeps c (snd l) j s) as [_ [_ K]]. destruct (ostep_nth' c (snd l) j s i o E) as [o' [E' O']]. exists todo, rem, v, o'. rewrite K. splits; auto.
    destruct O' as [->|[_ ->]]; auto. apply onext_failed. exact F.
  - destruct (mstep_nth' c (snd l) s i o E) as [g [T G]].
    assert (K : exists todo' rem', s_m (mstep c (snd l) s) = MClear todo' rem' v /\ In i rem').
    { unfold mstep. rewrite M. destruct todo as [|k todo].
      - destruct rem as [|r rem]; [destruct R|]. eexists _, _. split; [reflexivity | exact R].
      - destruct (nth_error (s_opts s) k) as [a|] eqn:B; [|rewrite M; eauto]. cbn. eexists _, _. split; [reflexivity|]. destruct (o_run a) eqn:U; [exact R|].
        apply drop_in. split; [exact R|]. intros ->. rewrite E in B. injection B as <-. destruct I as [I1 I2 _]. specialize (I1 i o E). rewrite M in I1. cbn in I1.
        rewrite (nmem_true _ _ R) in I1. destruct (X1 _ _ E) as [_ S]. specialize (S F). cbn in I1.
        destruct I1 as [[_ [? _]]|[_ [[? _]|[_ [_ [[? _]|[_ [f Y]]]]]]]]; try congruence. destruct S; congruence. }
    destruct K as [todo' [rem' [K1 K2]]]. exists todo', rem', v, (g o). splits; auto. destruct (touch_keeps g o T) as [_ [_ [-> _]]]. exact F.
Qed.

(** ** The numbers of the restart files *)
Definition below (k : nat) (o : opt) : Prop := Forall (fun p => fst p < k) (o_saved o).
Definition bound (m : mplace) (no i : nat) : nat :=
  match m with
  | MSave todo v => if nmem i (v_living v) && negb (nmem i todo) && negb (nmem i (v_not v)) then S no else no
  | MClear _ _ v | MFiles v => if nmem i (v_living v) && negb (nmem i (v_not v)) then S no else no
  | MStop _ | MRelease _ => S no
  | _ => no
  end.
Definition Num (s : sys) : Prop := s_m s <> MUnhandled -> forall i o, nth_error (s_opts s) i = Some o -> below (bound (s_m s) (s_no s) i) o.
Lemma below_le a b o : a <= b -> below a o -> below b o.
Proof. intros L H. unfold below in *. eapply Forall_impl; [|exact H]. cbn. intros; lia. Qed.
Lemma below_same k o o' : o_saved o' = o_saved o -> below k o -> below k o'.
Proof. intros E H. unfold below. rewrite E. exact H. Qed.

(** A restart file is written in one stage only. *)
Lemma onext_below h a b st o k : ok st o -> (forall n, st = Ordered (Some n) -> n < k) -> st <> Any -> below k o -> below k (onext h a b o).
Proof.
  intros O NS NA B. unfold below in *.
  assert (K : o_saved (onext h a b o) = o_saved o \/ exists n l, o_in o = Save n :: l /\ o_at o <> Dead /\ o_at o <> Bye /\ (forall f, o_at o <> Held f) /\ o_saved (onext h a b o) = (n, o_made o) :: o_saved o).
  { unfold onext. destruct (o_at o) eqn:A; auto; try (left; repeat match goal with |- context [match ?x with _ => _ end] => destruct x; cbn end; reflexivity).
    - destruct (o_in o) as [|[] l]; auto. destruct (h_raise h); [left; reflexivity|right]. exists no, l. splits; auto; discriminate.
    - destruct (o_in o) as [|[] l]; auto; [destruct got; auto|]. destruct (h_raise h); [left; reflexivity|right]. exists no, l. splits; auto; discriminate. }
  destruct K as [->|[n [l [I [ND [NB [NH ->]]]]]]]; [exact B|]. constructor; [|exact B]. cbn.
  assert (Q : ~ quiet (o_in o)) by (rewrite I; intro Q; apply quiet_cons in Q as [[Q|Q] _]; discriminate).
  assert (P : forall x, around x (o_in o) -> x = Save n).
  { intros x R. rewrite I in R. apply around_cons in R as [[R _]|[[R|R] _]]; [auto|discriminate|discriminate]. }
  destruct st; cbn in O.
  - destruct O as [D|[O _]]; contradiction.
  - destruct O as [D|[_ [[O _]|[O _]]]]; [contradiction| |contradiction]. specialize (P _ O). discriminate.
  - destruct O; contradiction.
  - destruct O as [[_ [_ [D|D]]]|[_ [[_ [O _]]|[O _]]]]; try contradiction. specialize (P _ O). destruct k0; cbn in P; [injection P as ->; auto | discriminate].
  - destruct O; contradiction.
  - contradiction.
  - destruct O as [D|[O _]]; contradiction.
  - contradiction.
Qed.
Lemma bound_ge m no i : no <= bound m no i.
Proof. destruct m; cbn; auto; destruct (_ && _); auto. Qed.
Lemma bound_mono c h s j : Inv s -> s_m (mstep c h s) <> MUnhandled -> bound (s_m s) (s_no s) j <= bound (s_m (mstep c h s)) (s_no (mstep c h s)) j.
Proof.
  intros I NU. assert (N : s_no s <= s_no (mstep c h s)).
  { unfold mstep, pop. repeat match goal with |- context [match ?x with _ => _ end] => destruct x end; cbn [set_m change set_opts s_no]; rewrite ?(proj1 (proj2 (handle_queue _ _ _))); auto. }
  destruct (s_m s) eqn:M; cbn [bound]; try (eapply Nat.le_trans; [exact N | apply bound_ge]).
  - unfold mstep in *. rewrite M in *. destruct todo as [|i todo]; cbn in *; [rewrite andb_true_r; auto|].
    rewrite nmem_cons. destruct (is_alive i s); cbn; destruct (nmem j (v_living v)), (nmem j (v_not v)), (nmem j todo), (Nat.eqb j i); cbn; lia.
  - unfold mstep in *. rewrite M in *. destruct todo as [|i todo]; cbn in *; [destruct rem; auto|].
    destruct (nth_error (s_opts s) i); [auto|]. rewrite M. auto.
  - unfold mstep in *. rewrite M in *. destruct (forallb _ _) eqn:FA; cbn.
    + destruct (h_conv h); cbn; destruct (_ && _); lia.
    + cbn. pose proof (mstep_inv c h s I) as [_ _ [_ [_ X]]]. unfold mstep in X. rewrite M, FA in X. cbn in X. congruence.
  - unfold mstep in *. rewrite M in *. destruct todo as [|i todo]; cbn in *; auto. destruct (is_alive i s); cbn; auto.
  - unfold mstep in *. rewrite M in *. destruct todo as [|i todo]; cbn in *; auto. destruct (is_alive i s); cbn; auto.
Qed.
Lemma step_num c l s : Inv s -> Num s -> Num (step c l s).
Proof.
  intros I H. unfold step, Num. destruct (fst l) as [i|].
  - destruct (ostep_keeps c (snd l) i s) as [_ [K1 K2]]. rewrite K1, K2. intros NU j o E. specialize (H NU).
    destruct (ostep_nth _ _ _ _ _ _ E) as [o' [E' [->|[Eij ->]]]]; [auto|]; subst i. specialize (H _ _ E').
    pose proof I as [I1 I2 [_ [I3 I4]]]. specialize (I1 j o' E'). eapply onext_below; [exact I1| | |exact H].
    + intros n Y. destruct (s_m s) eqn:M; cbn [stage_of bound] in Y |- *; try discriminate;
        try (destruct (nmem j (v_wait v)); [discriminate|destruct (nmem j (v_living v)); discriminate]); try (destruct (nmem j (v_living v)); discriminate).
      * destruct (nmem j asked); [|destruct (nmem j todo)]; discriminate.
      * destruct (nmem j (v_living v)); [|discriminate]. destruct (nmem j todo); [discriminate|]. injection Y as Y. unfold target in Y. destruct (nmem j (v_not v)); [discriminate|]. injection Y as <-. cbn. lia.
      * cbn in I2. destruct (nmem j rem) eqn:R; [|destruct (nmem j (v_living v)); discriminate]. apply nmem_in in R. rewrite (nmem_true j (v_living v)) by (apply I2; exact R).
        injection Y as Y. unfold target in Y. destruct (nmem j (v_not v)); [discriminate|]. injection Y as <-. cbn. lia.
      * destruct (nmem j todo); discriminate.
    + destruct (s_m s) eqn:M; cbn [stage_of]; try congruence; repeat match goal with |- context [if ?x then _ else _] => destruct x end; discriminate.
  - intros NU j o E. assert (NU' : s_m s <> MUnhandled) by (intro X; apply NU; unfold mstep; rewrite X; exact X).
    destruct (mstep_opts _ _ _ _ _ E) as [[g [a [T [X ->]]]]|[n [_ [-> _]]]]; [|constructor].
    destruct (touch_keeps g a T) as [_ [S _]]. eapply below_same; [exact S|]. eapply below_le; [apply bound_mono; auto|]. apply (H NU' _ _ X).
Qed.
Lemma reachable_num c s : reachable c s -> Num s.
Proof.
  intros [ls <-]. assert (H : Inv start /\ Num start) by (split; [apply start_inv|]; intros _ [|] o; discriminate). revert H. generalize start.
  induction ls as [|l ls IH]; intros s [H1 H2]; [exact H2|]. apply IH. split; [apply step_inv | apply step_num]; auto.
Qed.

(** ** Accounting *)
Definition in_hand (m : mplace) : list item := match m with MDrain _ cur _ | MFlush cur _ => cur | _ => [] end.
Definition posted (s : sys) : list item := s_seen s ++ in_hand (s_m s) ++ concat (s_queue s) ++ s_cache s.
Definition pending (o : opt) : nat := match o_at o with Put => 1 | _ => 0 end.
Definition Acc (s : sys) : Prop :=
  (forall i, length (s_opts s) <= i -> results i (posted s) = 0) /\
  (forall i o, nth_error (s_opts s) i = Some o -> alive o = true -> o_made o = results i (posted s) + pending o).
Lemma results_app i a b : results i (a ++ b) = results i a + results i b.
Proof. unfold results. rewrite filter_app, app_length. reflexivity. Qed.
Lemma results_cons i it l : results i (it :: l) = results i [it] + results i l.
Proof. change (it :: l) with ([it] ++ l). apply results_app. Qed.
Lemma put_now_posted c i s s' j : put_nowait c (Res i) s = Some s' -> results j (posted s') = results j (posted s) + results j [Res i].
Proof.
  unfold put_nowait, posted. destruct (s_fast s); [destruct (Nat.leb _ _)|]; destruct (full c s); intro H; inversion H; subst; cbn [s_seen s_m s_queue s_cache];
    rewrite ?concat_app; cbn [concat]; rewrite ?app_nil_r, ?results_app; lia.
Qed.
Lemma put_posted c i s s' j : put c (End i) s = Some s' -> results j (posted s') = results j (posted s).
Proof.
  unfold put, posted. destruct (full c s); [discriminate|]. destruct (s_fast s); intro H; inversion H; subst; cbn [s_seen s_m s_queue s_cache];
    rewrite ?concat_app; cbn [concat]; rewrite ?app_nil_r, ?results_app; change (results j [End i]) with 0; lia.
Qed.
Lemma posted_same s s' : s_seen s' = s_seen s -> in_hand (s_m s') = in_hand (s_m s) -> s_queue s' = s_queue s -> s_cache s' = s_cache s -> posted s' = posted s.
Proof. intros A B C D. unfold posted. rewrite A, B, C, D. reflexivity. Qed.
Lemma posted_change i f s : posted (change i f s) = posted s. Proof. reflexivity. Qed.

Lemma ostep_posted c h i s o : nth_error (s_opts s) i = Some o ->
  (o_at o = Put /\ is_some (put_nowait c (Res i) s) = true /\ forall j, results j (posted (ostep c h i s)) = results j (posted s) + results j [Res i]) \/
  ((o_at o = Put -> is_some (put_nowait c (Res i) s) = false) /\ forall j, results j (posted (ostep c h i s)) = results j (posted s)).
Proof.
  intro E. unfold ostep. rewrite E. destruct (o_at o) eqn:A; try (right; split; [discriminate|]; intro j); auto.
  - destruct (_ || _); [|destruct (h_raise h)]; auto.
  - destruct (put_nowait c (Res i) s) as [s'|] eqn:P.
    + left. splits; auto. intro j. rewrite posted_change. apply (put_now_posted _ _ _ _ _ P).
    + right. split; auto.
  - destruct (o_in o) as [|[]]; auto. destruct (h_raise h); auto.
  - destruct (o_run o); auto.
  - destruct (o_in o) as [|[]]; auto; [destruct got; auto|]. destruct (h_raise h); auto.
  - destruct (o_run o); auto.
  - destruct (put c (End i) s) as [s'|] eqn:P; auto. rewrite posted_change. apply (put_posted _ _ _ _ _ P).
Qed.
Lemma handle_posted h it s : s_seen (handle h it s) = s_seen s ++ [it].
Proof. destruct it; reflexivity. Qed.
Lemma mstep_posted c h s : posted (mstep c h s) = posted s.
Proof.
  unfold mstep. destruct (s_m s) eqn:M.
  - destruct (h_idle h); try reflexivity; try (apply posted_same; cbn; rewrite ?M; reflexivity).
    destruct (s_queue s) as [|ch q] eqn:Q; [reflexivity|]. unfold posted. cbn. rewrite M, Q. cbn. rewrite <- !app_assoc. reflexivity.
  - destruct todo as [|i todo]; [apply posted_same; cbn; rewrite ?M; reflexivity|]. destruct (is_alive i s); apply posted_same; cbn; rewrite ?M; reflexivity.
  - destruct (v_wait v); [|destruct (full c s)]; apply posted_same; cbn; rewrite ?M; reflexivity.
  - destruct cur as [|it cur].
    + destruct k; [apply posted_same; cbn; rewrite ?M; reflexivity|]. unfold pop. destruct (s_queue s) as [|ch q] eqn:Q; [apply posted_same; cbn; rewrite ?M; reflexivity|].
      unfold posted. cbn. rewrite M, Q. cbn. rewrite <- !app_assoc. reflexivity.
    + destruct (handle_queue h it s) as [Q1 [_ [_ Q2]]]. unfold posted. cbn [set_m s_seen s_m in_hand s_queue s_cache]. rewrite Q1, Q2, handle_posted, M. cbn [in_hand]. rewrite <- !app_assoc. reflexivity.
  - destruct todo as [|i todo]; [apply posted_same; cbn; rewrite ?M; reflexivity|]. destruct (nth_error (s_opts s) i) as [a|]; [|reflexivity]. destruct (alive a); [|apply posted_same; cbn; rewrite ?M; reflexivity].
    destruct (o_out a) as [|[] l]; apply posted_same; cbn; rewrite ?M; reflexivity.
  - destruct cur as [|it cur].
    + unfold pop. destruct (s_queue s) as [|ch q] eqn:Q; [apply posted_same; cbn; rewrite ?M; reflexivity|].
      unfold posted. cbn. rewrite M, Q. cbn. rewrite <- !app_assoc. reflexivity.
    + destruct (handle_queue h it s) as [Q1 [_ [_ Q2]]]. unfold posted. cbn [set_m s_seen s_m in_hand s_queue s_cache]. rewrite Q1, Q2, handle_posted, M. cbn [in_hand]. rewrite <- !app_assoc. reflexivity.
  - destruct (s_queue s) eqn:Q; apply posted_same; cbn; rewrite ?M, ?Q; reflexivity.
  - destruct todo as [|i todo]; [apply posted_same; cbn; rewrite ?M; reflexivity|]. destruct (is_alive i s); apply posted_same; cbn; rewrite ?M; reflexivity.
  - destruct todo as [|i todo]; [destruct rem; apply posted_same; cbn; rewrite ?M; reflexivity|]. destruct (nth_error (s_opts s) i) as [a|]; [|reflexivity]. apply posted_same; cbn; rewrite ?M; reflexivity.
  - destruct (forallb _ _); [destruct (h_conv h)|]; apply posted_same; cbn; rewrite ?M; reflexivity.
  - destruct todo as [|i todo]; [apply posted_same; cbn; rewrite ?M; reflexivity|]. destruct (is_alive i s); apply posted_same; cbn; rewrite ?M; reflexivity.
  - destruct todo as [|i todo]; [apply posted_same; cbn; rewrite ?M; reflexivity|]. destruct (is_alive i s); apply posted_same; cbn; rewrite ?M; reflexivity.
  - reflexivity.
  - reflexivity.
  - reflexivity.
Qed.
Lemma onext_count h a b o : alive (onext h a b o) = true ->
  alive o = true /\ o_made (onext h a b o) + pending o = o_made o + pending (onext h a b o) + match o_at o with Put => if a then 1 else 0 | _ => 0 end.
Proof.
  unfold onext, alive, pending. destruct (o_at o) eqn:A; rewrite ?A; try discriminate; intro L; (split; [reflexivity|]).
  - destruct (_ || _); [cbn; lia|]. destruct (h_raise h); cbn; lia.
  - destruct a; cbn; rewrite ?A; lia.
  - destruct (o_in o) as [|[]]; [destruct f|..]; try destruct (h_raise h); cbn; rewrite ?A; lia.
  - destruct (o_run o); cbn; rewrite ?A; lia.
  - destruct (o_in o) as [|[]]; [destruct got|..]; try destruct (h_raise h); cbn; rewrite ?A; lia.
  - cbn; lia.
  - destruct (o_run o); cbn; rewrite ?A; lia.
  - cbn; lia.
  - destruct b; cbn; rewrite ?A; cbn in *; try lia; discriminate.
  - cbn; lia.
Qed.
Lemma onext_room h a b b' o : o_at o <> Bye -> onext h a b o = onext h a b' o.
Proof. intro N. unfold onext. destruct (o_at o); auto. congruence. Qed.
Lemma results_one i j : results j [Res i] = if Nat.eqb j i then 1 else 0.
Proof. unfold results. cbn. destruct (Nat.eqb j i); reflexivity. Qed.
Lemma step_acc c l s : Acc s -> Acc (step c l s).
Proof.
  intros [H1 H2]. unfold step. destruct (fst l) as [i|].
  - destruct (nth_error (s_opts s) i) as [o|] eqn:E; [|unfold ostep; rewrite E; split; auto].
    pose proof (nth_lt _ _ _ E) as LT. split.
    + intros j Lj. rewrite (ostep_opts c (snd l) i s o E), upd_length in Lj.
      destruct (ostep_posted c (snd l) i s o E) as [[_ [_ P]]|[_ P]]; rewrite P, H1 by auto; auto. rewrite results_one. destruct (Nat.eqb_spec j i); lia.
    + intros j o' E' Al. rewrite (ostep_opts c (snd l) i s o E), upd_nth in E'. destruct (Nat.eqb_spec i j) as [<-|N].
      * rewrite E in E'. cbn in E'. injection E' as <-. destruct (onext_count _ _ _ _ Al) as [Al' C]. specialize (H2 i o E Al').
        destruct (ostep_posted c (snd l) i s o E) as [[A [R P]]|[A P]]; rewrite P.
        -- rewrite A, R in C. rewrite results_one, Nat.eqb_refl. unfold pending in C at 1, H2. rewrite A in C, H2. cbn [is_some] in *. rewrite R in *. lia.
        -- destruct (o_at o) eqn:B; unfold pending in C at 1; unfold pending in H2; rewrite B in C, H2; try lia. rewrite (A eq_refl) in *. lia.
      * destruct (ostep_posted c (snd l) i s o E) as [[_ [_ P]]|[_ P]]; rewrite P; auto. rewrite results_one. destruct (Nat.eqb_spec j i); [congruence|]. rewrite Nat.add_0_r. auto.
  - split.
    + intros j Lj. rewrite mstep_posted. apply H1. pose proof (mstep_length c (snd l) s). lia.
    + intros j o E Al. rewrite mstep_posted. destruct (mstep_opts _ _ _ _ _ E) as [[g [a [T [X ->]]]]|[n [-> [-> _]]]].
      * destruct (touch_keeps g a T) as [-> [_ [_ [_ [A|A]]]]]; unfold alive, pending in *; rewrite A in *; [|discriminate]. apply (H2 j a X). exact Al.
      * rewrite H1 by auto. reflexivity.
Qed.
Lemma reachable_acc c s : reachable c s -> Acc s.
Proof.
  intros [ls <-]. assert (H : Acc start) by (split; [reflexivity | intros [|] o; discriminate]). revert H. generalize start.
  induction ls as [|l ls IH]; intros s H; [exact H|]. apply IH, step_acc, H.
Qed.

(** ** Nobody nests preparations *)
Definition tame (o : opt) : Prop := ok Free o \/ ok Asked o \/ ok Replied o.
Definition Tame (s : sys) : Prop := s_m s = MUnhandled -> forall i o, nth_error (s_opts s) i = Some o -> tame o.
Lemma to_unhandled c h s : s_m (mstep c h s) = MUnhandled -> s_m s = MUnhandled \/
  exists i todo v o l, s_m s = MPoll (i :: todo) v /\ nth_error (s_opts s) i = Some o /\ alive o = true /\ o_out o = Crashed :: l /\ s_opts (mstep c h s) = upd i (set_out l) (s_opts s).
Proof.
  unfold mstep. destruct (s_m s) eqn:M; cbn; auto; intro Y; try congruence.
  - destruct (h_idle h); try destruct (s_queue s); cbn in Y; congruence.
  - destruct todo as [|i]; [|destruct (is_alive i s)]; cbn in Y; discriminate.
  - destruct (v_wait v); [|destruct (full c s)]; cbn in Y; discriminate.
  - destruct cur; [destruct k; [|unfold pop in Y; destruct (s_queue s)]|]; cbn in Y; discriminate.
  - destruct todo as [|i todo]; [discriminate|]. destruct (nth_error (s_opts s) i) as [a|] eqn:B; [|congruence]. destruct (alive a) eqn:Al; [|discriminate].
    destruct (o_out a) as [|[] ll] eqn:O; try discriminate. right. exists i, todo, v, a, ll. splits; auto.
  - destruct cur; [unfold pop in Y; destruct (s_queue s)|]; cbn in Y; discriminate.
  - destruct (s_queue s); cbn in Y; discriminate.
  - destruct todo as [|i todo]; [|destruct (is_alive i s)]; cbn in Y; discriminate.
  - destruct todo as [|i todo]; [destruct rem|]; cbn in Y; try discriminate. destruct (nth_error (s_opts s) i); cbn in Y; congruence.
  - destruct (forallb _ _); cbn in Y; [destruct (h_conv h)|]; discriminate.
  - destruct todo as [|i todo]; [|destruct (is_alive i s)]; cbn in Y; discriminate.
  - destruct todo as [|i todo]; [|destruct (is_alive i s)]; cbn in Y; discriminate.
Qed.
Lemma step_tame c l s : Inv s -> Tame s -> Tame (step c l s).
Proof.
  intros I H. unfold step, Tame. destruct (fst l) as [i|].
  - destruct (ostep_keeps c (snd l) i s) as [_ [_ K]]. rewrite K. intros M j o E. destruct (ostep_nth _ _ _ _ _ _ E) as [o' [E' [->|[_ ->]]]]; [exact (H M _ _ E')|].
    destruct (H M _ _ E') as [O|[O|O]]; unfold tame; eapply onext_ok in O; eauto.
  - intros M j o E. destruct (to_unhandled _ _ _ M) as [M'|[i [todo [v [a [ll [M' [Ea [Al [O X]]]]]]]]]].
    + apply (H M' j o). unfold mstep in E. rewrite M' in E. exact E.
    + rewrite X, upd_nth in E. destruct I as [I1 I2 _]. rewrite M' in I1, I2. cbn in I1, I2. destruct (Nat.eqb_spec i j) as [<-|N].
      * rewrite Ea in E. injection E as <-. specialize (I1 i a Ea). rewrite (nmem_true i (v_wait v)) in I1 by (apply I2; left; auto). right; left.
        destruct I1 as [D|[R [[P [NP L]]|[Q [Wt [b [Eb Nb]]]]]]]; [left; exact D| |]; right; cbn; (split; [exact R|]).
        -- left. splits; auto. intro Y. apply NP. rewrite O. right; exact Y.
        -- right. splits; auto. rewrite O in Eb. destruct b as [|x b]; cbn in Eb; injection Eb as Ex El; [discriminate|]. exists b. split; auto. intro Y. apply Nb. right; exact Y.
      * specialize (I1 j o E). unfold tame. destruct (nmem j (v_wait v)); [auto|]. destruct (nmem j (v_living v)); [auto|]. left; left; exact I1.
Qed.
Lemma reachable_tame c s : reachable c s -> Tame s.
Proof.
  intros [ls <-]. assert (H : Inv start /\ Tame start) by (split; [apply start_inv | discriminate]). revert H. generalize start.
  induction ls as [|l ls IH]; intros s [H1 H2]; [exact H2|]. apply IH. split; [apply step_inv | apply step_tame]; auto.
Qed.
Lemma ok_not_lost st o : st <> Any -> ok st o -> o_at o <> Lost.
Proof.
  intros N O L. destruct st; try congruence; cbn in O; unfold waiting in O; rewrite L in O; cbn in O.
  all: decompose [and or ex] O; try contradiction; congruence.
Qed.
Lemma not_lost c s i o : reachable c s -> nth_error (s_opts s) i = Some o -> o_at o <> Lost.
Proof.
  intros R E. pose proof (reachable_inv c s R) as [I1 _ [_ [I3 I4]]]. specialize (I1 i o E).
  assert (K : stage_of (s_m s) (s_no s) i <> Any \/ s_m s = MUnhandled).
  { destruct (s_m s); auto; try congruence; left; cbn; repeat match goal with |- context [if ?x then _ else _] => destruct x end; discriminate. }
  destruct K as [K|K]; [eapply ok_not_lost; eauto|]. destruct (reachable_tame c s R K i o E) as [O|[O|O]]; (eapply ok_not_lost; [|exact O]); discriminate.
Qed.

(** ** The queue stays empty while the optimizers save *)
Definition saving (m : mplace) : bool := match m with MSave _ _ | MClear _ _ _ | MFiles _ | MStop _ => true | _ => false end.
Definition Still (s : sys) : Prop := saving (s_m s) = true -> s_queue s = [].
Lemma still_ostep c h i s : Inv s -> unfailed s -> Still s -> Still (ostep c h i s).
Proof.
  intros [I1 _ _] U H. destruct (ostep_keeps c h i s) as [_ [_ K]]. unfold Still. rewrite K. intro Sv. specialize (H Sv).
  unfold ostep. destruct (nth_error (s_opts s) i) as [o|] eqn:E; [|exact H]. specialize (I1 i o E). specialize (U i o E).
  assert (P : o_at o <> Put /\ o_at o <> Bye).
  { unfold waiting in *. destruct (s_m s); try discriminate; cbn in I1; repeat match type of I1 with context [if ?x then _ else _] => destruct x end; cbn in I1;
      unfold waiting in I1; decompose [and or ex] I1; split; congruence. }
  destruct P as [P1 P2]. destruct (o_at o) eqn:A; try congruence.
  - destruct (_ || _); [|destruct (h_raise h)]; exact H.
  - destruct (o_in o) as [|[]]; try destruct (h_raise h); exact H.
  - destruct (o_run o); exact H.
  - destruct (o_in o) as [|[]]; [destruct got|..]; try destruct (h_raise h); exact H.
  - exact H.
  - destruct (o_run o); exact H.
  - exact H.
Qed.
Lemma still_mstep c h s : Inv s -> Still s -> Still (mstep c h s).
Proof.
  intros [_ _ [I1 _]] H. unfold Still, mstep. destruct (s_m s) eqn:M; unfold Still in H; rewrite M in H.
  - destruct (h_idle h); try destruct (s_queue s); cbn; rewrite ?M; discriminate.
  - destruct todo as [|i]; [|destruct (is_alive i s)]; discriminate.
  - destruct (v_wait v); [|destruct (full c s)]; discriminate.
  - destruct cur; [destruct k; [|unfold pop; destruct (s_queue s)]|]; discriminate.
  - destruct todo as [|i todo]; [discriminate|]. destruct (nth_error (s_opts s) i) as [a|]; [|rewrite M; discriminate]. destruct (alive a); [|discriminate].
    destruct (o_out a) as [|[] ll]; discriminate.
  - destruct cur; [unfold pop; destruct (s_queue s)|]; discriminate.
  - rewrite (I1 v eq_refl). intros _. cbn. apply (I1 v eq_refl).
  - specialize (H eq_refl). destruct todo as [|i todo]; [|destruct (is_alive i s)]; intros _; exact H.
  - specialize (H eq_refl). destruct todo as [|i todo]; [destruct rem; intros _; exact H|]. destruct (nth_error (s_opts s) i); intros _; exact H.
  - specialize (H eq_refl). destruct (forallb _ _); [destruct (h_conv h)|]; intros _; exact H.
  - specialize (H eq_refl). destruct todo as [|i todo]; [|destruct (is_alive i s)]; intros _; exact H.
  - destruct todo as [|i todo]; [|destruct (is_alive i s)]; discriminate.
  - rewrite M. discriminate.
  - rewrite M. discriminate.
  - rewrite M. discriminate.
Qed.
Lemma calmly_still c s : calmly_reachable c s -> Still s.
Proof.
  intros [ls [C <-]]. assert (H : Inv start /\ unfailed start /\ Still start) by (splits; [apply start_inv | intros [|] o; discriminate | discriminate]).
  revert H. generalize start. induction C as [|l ls C1 C2 IH]; intros s [H1 [H2 H3]]; [exact H3|]. apply IH. splits; [apply step_inv; auto | apply step_unfailed; auto|].
  unfold step. destruct (fst l); [apply still_ostep | apply still_mstep]; auto.
Qed.
