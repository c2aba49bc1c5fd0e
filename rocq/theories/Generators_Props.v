(** * C44: starting points *)
From Coq Require Import Lqa.
From Verif Require Import Prelude Prelude_Proofs Helpers_Spec Generators_Model Generators_Spec Generators_Proofs.

(** ** RandomGenerator *)
(** The bounds with which a generator can be made are finite and in order. *)
Theorem C44_bounds_of_generators : forall l bs, checked l = Ok bs -> l = map (fun b => (Fin (fst b), Fin (snd b))) bs /\ ordered_bounds bs.
Proof. exact checked_spec. Qed.
Print Assumptions C44_bounds_of_generators.
Theorem C44_random : forall l bs u, checked l = Ok bs -> unit_draws u -> within bs (random_generate bs u).
Proof. intros l bs u H Hu. apply checked_spec in H as [_ H]. apply uniform_within; assumption. Qed.
Print Assumptions C44_random.
Definition ex_bounds : list (num * num) := [(Fin 0, Fin 2); (Fin (-(4)), Fin (-(1)))].
Definition half (_ : nat) : Q := 1 # 2.
Example C44_random_met : exists bs, checked ex_bounds = Ok bs /\ unit_draws half /\ map Qred (random_generate bs half) = [1; -(5) # 2]%Q.
Proof. eexists. splits; [reflexivity| intro j; unfold half; lra| vm_compute; reflexivity]. Qed.

(** ** SinglePointGenerator *)
Theorem C44_single : forall l x u v bs, checked l = Ok bs -> single_init l x u = Ok v -> unit_draws u ->
  (forall p, x = Some p -> single_generate v = p) /\ (x = None -> within bs (single_generate v)).
Proof.
  intros l x u v bs H Hi Hu. unfold single_init in Hi. rewrite H in Hi. injection Hi as <-. apply checked_spec in H as [_ H]. split; intros; subst; [reflexivity|]. apply uniform_within; assumption.
Qed.
Print Assumptions C44_single.
Example C44_single_met : exists bs v, checked ex_bounds = Ok bs /\ single_init ex_bounds None half = Ok v.
Proof. eexists. eexists. split; reflexivity. Qed.
(** Finding: a given point is not compared with the bounds. *)
Theorem C44_single_refuted : exists l x v bs, checked l = Ok bs /\ single_init l (Some x) half = Ok v /\ ~ within bs (single_generate v).
Proof.
  exists ex_bounds, [5; 0]%Q. eexists. eexists. splits; [reflexivity| reflexivity|]. intro H. inversion H as [|? ? ? ? [_ H1] _]; subst. cbn in H1. lra.
Qed.
Print Assumptions C44_single_refuted.

(** ** IncumbentGenerator *)
Theorem C44_incumbent : forall l bs v u, checked l = Ok bs -> unit_draws u ->
  (forall x, v_result v = Some x -> incumbent_generate bs v u = x) /\ (v_result v = None -> within bs (incumbent_generate bs v u)).
Proof.
  intros l bs v u H Hu. apply checked_spec in H as [_ H]. unfold incumbent_generate. split; [intros x ->; reflexivity|]. intros ->. apply uniform_within; assumption.
Qed.
Print Assumptions C44_incumbent.
Definition no_best : best := mkBest 0 None PInf.
Definition ex_view (result : option vec) (bests : list best) : view := mkView result 50 3 bests (hd no_best (rev bests)) [(0, 2); (-(4), -(1))]%Q.
Example C44_incumbent_met : exists bs, checked ex_bounds = Ok bs /\ incumbent_generate bs (ex_view (Some [1; -(2)]%Q) []) half = [1; -(2)]%Q.
Proof. eexists. split; reflexivity. Qed.
(** Finding: when no evaluation so far was smaller than infinity the manager's result is the empty list instead of None
    (manager.py 1637), which is handed to the optimizer as its starting point. *)
Theorem C44_incumbent_refuted : exists l bs v, checked l = Ok bs /\ v_result v = Some [] /\ ~ within bs (incumbent_generate bs v half).
Proof. exists ex_bounds. eexists. exists (ex_view (Some []) []). splits; [reflexivity| reflexivity|]. intro H. inversion H. Qed.
Print Assumptions C44_incumbent_refuted.

(** ** PerturbationGenerator *)
Theorem C44_perturbation : forall x0 l bs scale draw x, perturb_init x0 l = Ok bs -> interval_draws draw ->
  perturb_generate bs x0 scale draw = Ok x -> within bs x.
Proof.
  intros x0 l bs scale draw x H Hd. unfold perturb_init in H. destruct (Nat.eqb (length l) (length x0)) eqn:E; [|discriminate]. apply Nat.eqb_eq in E. apply checked_spec in H as [-> Ho].
  rewrite map_length in E. apply perturb_within; auto.
Qed.
Print Assumptions C44_perturbation.
Example C44_perturbation_met : exists bs x, perturb_init [7; -(2)]%Q ex_bounds = Ok bs /\ interval_draws (fun _ a b => (a + b) / 2)%Q /\
  perturb_generate bs [7; -(2)]%Q [1; 3]%Q (fun _ a b => (a + b) / 2)%Q = Ok x /\ map Qred x = [1; -(5) # 2]%Q.
Proof.
  eexists. eexists. splits; [reflexivity| | vm_compute; reflexivity| vm_compute; reflexivity].
  intros i a b H. split; [apply Qle_shift_div_l| apply Qle_shift_div_r]; lra.
Qed.

(** ** ExploitExploreGenerator *)
(** When every optimizer has a finite value at a point inside the bounds: the new point is inside the bounds, and it is
    the blend of a random point and the best point of an optimizer which is not the worst. *)
Theorem C44_exploit_partial : forall l max focus bs n pow v u r nan_pick,
  exploit_init l (Some (Z.of_nat max)) focus = Ok bs -> unit_draws u -> (0 <= r < 1)%Q -> (forall q, 0 <= q <= 1 -> 0 <= pow q <= 1)%Q ->
  numbered (v_bests v) -> length (v_bests v) = S n ->
  (forall i b, nth_error (v_bests v) (S i) = Some b -> exists f x, b_fx b = Fin f /\ b_x b = Some x /\ within bs x) ->
  exists x, exploit_generate bs max pow v u r nan_pick = Ok x /\ within bs x /\
  (x = uniform bs u \/ exists b b' y, In b (v_bests v) /\ In b' (v_bests v) /\ nlt (b_fx b) (b_fx b') = true /\ b_x b = Some y /\
     x = mix (pow (f_calls (v_f v) max)) y (uniform bs u)).
Proof.
  intros l max focus bs n pow v u r np Hi Hu Hr Hpow Hnum Hlen Hb. unfold exploit_init in Hi. destruct (Z.ltb (Z.of_nat max) 2) eqn:Em; [discriminate|]. apply Z.ltb_ge in Em.
  destruct (Qle_bool focus 0); [discriminate|]. apply checked_spec in Hi as [_ Ho]. unfold exploit_generate.
  destruct (v_bests v) as [|b0 bests] eqn:Ev; [discriminate|]. cbn [map tl].
  assert (F : exists fs, map b_fx bests = map Fin fs).
  { assert (G : forall k, exists f, forall b, nth_error bests k = Some b -> b_fx b = Fin f).
    { intro k. destruct (nth_error bests k) eqn:E; [|exists 0%Q; discriminate]. destruct (Hb k b E) as [f [x [E1 _]]]. exists f. intros c Hc. congruence. }
    clear - Hb. assert (Hb' : forall b, In b bests -> exists f, b_fx b = Fin f) by (intros b H; apply In_nth_error in H as [k Hk]; destruct (Hb k b Hk) as [f [x [E _]]]; eauto).
    clear Hb. induction bests as [|b bests IH]; [exists []; reflexivity|]. destruct IH as [fs E]; [intros; apply Hb'; right; assumption|]. destruct (Hb' b (or_introl eq_refl)) as [f Ef]. exists (f :: fs). cbn. rewrite Ef, E. reflexivity. }
  destruct F as [fs EF]. rewrite EF. pose proof (uniform_within bs Ho u Hu) as HR.
  destruct fs as [|f0 fs']; [exists (uniform bs u); cbn; auto|]. remember (f0 :: fs') as fs eqn:Efs. assert (Hne : fs <> []) by (subst; discriminate).
  assert (Emat : forall (A : Type) (a b : A), match map Fin fs with [] => a | _ :: _ => b end = b) by (subst; reflexivity). rewrite Emat.
  destruct (roulette fs r np Hne Hr) as [[E _]|[E [i [f [g [C1 [C2 [C3 C4]]]]]]]]; rewrite E; [exists (uniform bs u); auto|]. rewrite C1.
  assert (Hb1 : exists b, nth_error bests i = Some b /\ b_fx b = Fin f).
  { assert (X : nth_error (map b_fx bests) i = Some (Fin f)) by (rewrite EF, nth_error_map, C2; reflexivity). rewrite nth_error_map in X. destruct (nth_error bests i) as [b|]; [|discriminate]. exists b. split; [reflexivity| injection X; auto]. }
  destruct Hb1 as [b [Eb Efb]]. assert (Hfind : find_best (i + 1) (b0 :: bests) = Some b) by (apply find_best_nth; [exact Hnum| rewrite Nat.add_1_r; exact Eb]). rewrite Hfind.
  destruct (Hb i b Eb) as [f' [y [_ [Ey Hy]]]]. rewrite Ey.
  destruct (blend_within bs y (uniform bs u) (pow (f_calls (v_f v) max))) as [z [Z1 [Z2 Z3]]]; [apply Hpow, f_calls_unit; lia| exact Hy| exact HR|].
  exists z. splits; auto. right. assert (Hg : In (Fin g) (map b_fx bests)) by (rewrite EF; apply in_map; exact C3). apply in_map_iff in Hg as [b' [Eb' Hb'']].
  exists b, b', y. splits; auto; [right; eapply nth_error_In; eauto| right; exact Hb''|]. rewrite Efb, Eb'. cbn. apply negb_true_iff. apply Qle_bool_false_lt. exact C4.
Qed.
Print Assumptions C44_exploit_partial.
Definition ex_bests : list best := [no_best; mkBest 1 (Some [1; -(2)]%Q) (Fin 4); mkBest 2 (Some [2; -(1)]%Q) (Fin 7); mkBest 3 (Some [0; -(4)]%Q) (Fin 5)].
Example C44_exploit_met : exists bs x, exploit_init ex_bounds (Some 100%Z) 1 = Ok bs /\ numbered ex_bests /\
  exploit_generate bs 100 (fun q => q) (ex_view None ex_bests) half (4 # 5) None = Ok x /\ map Qred x = [1 # 2; -(13) # 4]%Q.
Proof.
  eexists. eexists. splits; [vm_compute; reflexivity| | vm_compute; reflexivity| vm_compute; reflexivity].
  intros i b H. do 4 (destruct i as [|i]; [cbn in H; injection H as <-; reflexivity|]). destruct i; discriminate.
Qed.
(** From the given number of evaluations on it is the point of that optimizer itself. *)
Theorem C44_exploit_at_the_end : forall f max x y, 0 < max -> max <= f -> length x = length y ->
  Forall2 Qeq (mix ((fun q => q) (f_calls f max)) x y) x.
Proof.
  intros f max x y H1 H2. cbv beta. rewrite (f_calls_full f max H1 H2). revert y. induction x as [|p x IH]; intros [|q y] Hl; try discriminate; cbn; constructor; [ring| apply IH; injection Hl; auto].
Qed.
Print Assumptions C44_exploit_at_the_end.
Example C44_exploit_at_the_end_met : f_calls 120 100 = 1%Q /\ map Qred (mix (f_calls 120 100) [3; 4] [9; 9])%Q = [3; 4]%Q.
Proof. vm_compute. auto. Qed.
(** Finding: the manager enters a new optimizer into the log (manager.py 1349) before it asks for its starting point
    (1271).  Its value is infinite, every probability becomes NaN, and the selection fails. *)
Theorem C44_exploit_fails_in_manager : forall bs max pow v u r, In PInf (tl (map b_fx (v_bests v))) ->
  exploit_generate bs max pow v u r None = Err ValueError.
Proof.
  intros bs max pow v u r H. unfold exploit_generate. destruct (infinite_track _ H) as [E1 E2]. destruct (tl (map b_fx (v_bests v))) as [|f fs] eqn:E; [destruct H|].
  rewrite E1. unfold choice. rewrite E2. reflexivity.
Qed.
Print Assumptions C44_exploit_fails_in_manager.
(** Also with older versions of numpy, for the first optimizer and more than one parameter. *)
Theorem C44_exploit_refuted : exists l bs v, exploit_init l (Some 100%Z) 1 = Ok bs /\ numbered (v_bests v) /\
  v_bests v = [no_best; mkBest 1 None PInf] /\ exploit_generate bs 100 (fun q => q) v half (1 # 2) None = Err ValueError /\
  exploit_generate bs 100 (fun q => q) v half (1 # 2) (Some 0) = Err ValueError.
Proof.
  exists ex_bounds. eexists. exists (ex_view None [no_best; mkBest 1 None PInf]). splits; [vm_compute; reflexivity| | reflexivity| reflexivity| reflexivity].
  intros i b H. do 2 (destruct i as [|i]; [cbn in H; injection H as <-; reflexivity|]). destruct i; discriminate.
Qed.
Print Assumptions C44_exploit_refuted.

(** ** BasinHoppingGenerator *)
(** A random point while nothing is known; afterwards a point at most the step away from the best of some optimizer. *)
Theorem C44_basin : forall target factor interval s v other metropolis u x s',
  unit_draws u -> ordered_bounds (v_bounds v) -> In (v_best v) (v_bests v) -> (0 < factor)%Q -> (0 <= h_step s)%Q ->
  bh_generate target factor interval s v other metropolis u = (Ok x, s') ->
  (0 <= h_step s')%Q /\
  ((b_fx (v_best v) = PInf /\ within (v_bounds v) x) \/ exists b y, In b (v_bests v) /\ b_x b = Some y /\ near (h_step s') x y).
Proof.
  intros target factor interval s v other metro u x s' Hu Ho Hin Hf Hs H. unfold bh_generate in H.
  destruct (neq (b_fx (v_best v)) PInf) eqn:E.
  - injection H as <- <-. split; [exact Hs|]. left. split; [|apply uniform_within; auto]. destruct (b_fx (v_best v)); try discriminate E. reflexivity.
  - match type of H with context[match ?p with Ok _ => _ | Err _ => _ end] => remember p as pick eqn:Ep end.
    assert (HP : forall b t, pick = Ok (b, t) -> In b (v_bests v) /\ h_step t = h_step s).
    { intros b t Eb. rewrite Eb in Ep. assert (S0 : forall c : bool, h_step (if c then mkBH (h_accept s + 1) (h_step s) (b_id (v_best v)) (b_fx (v_best v)) else s) = h_step s) by (intros []; reflexivity).
      destruct (filter _ _) as [|k ks]; [injection Ep as -> ->; auto|].
      destruct (find_best _ _) as [o|] eqn:Eo; [|discriminate]. destruct (metro _ _); injection Ep as -> ->; [|auto]. split; [eapply find_best_in; eauto| cbn; auto]. }
    destruct pick as [[b t]|]; [|discriminate]. destruct (HP b t eq_refl) as [Hb Ht]. clear HP Ep.
    destruct (Nat.eqb interval 0); [discriminate|].
    match type of H with context[match ?p with Some _ => _ | None => _ end] => remember p as st eqn:Est end.
    destruct st as [st|]; [|discriminate]. assert (Hst : (0 <= st)%Q).
    { assert (D : (0 <= h_step t / factor)%Q) by (apply Qle_shift_div_l; [exact Hf| rewrite Ht; lra]). assert (D2 : (0 <= h_step t * factor)%Q) by (apply Qmult_le_0_compat; [rewrite Ht|]; lra).
      destruct (Nat.eqb (v_o v mod interval) 0); [|injection Est as ->; rewrite Ht; exact Hs]. destruct (Nat.eqb (v_o v) 0); [discriminate|].
      cbv zeta in Est. destruct (negb _); [injection Est as ->; exact D|]. destruct (negb _); injection Est as ->; [exact D2| rewrite Ht; exact Hs]. }
    destruct (b_x b) as [y|] eqn:Ey; [|discriminate]. injection H as <- <-. cbn. split; [exact Hst|]. right. exists b, y. splits; auto. apply jump_near; assumption.
Qed.
Print Assumptions C44_basin.
(** What it remembers: a new best optimizer is counted and remembered, even when it only equals the old one; accepting
    another optimizer is counted too; the step changes only at the interval, by the factor, in the direction of the
    acceptance rate. *)
Theorem C44_basin_memory : forall target factor interval s v other metropolis u x s',
  b_fx (v_best v) <> PInf ->
  bh_generate target factor interval s v other metropolis u = (Ok x, s') ->
  let new := nle (b_fx (v_best v)) (h_fx s) = true /\ b_id (v_best v) <> h_id s in
  (exists more, (more = 0 \/ more = 1)%Z /\
    ((new /\ h_id s' = b_id (v_best v) /\ h_fx s' = b_fx (v_best v) /\ h_accept s' = (h_accept s + 1 + more)%Z) \/
     (~ new /\ h_id s' = h_id s /\ h_fx s' = h_fx s /\ h_accept s' = (h_accept s + more)%Z))) /\
  (v_o v mod interval <> 0 -> h_step s' = h_step s) /\
  (v_o v mod interval = 0 -> v_o v <> 0 /\
    let rate := (inject_Z (h_accept s') / inject_Z (Z.of_nat (v_o v)))%Q in
    ((target < rate)%Q -> h_step s' = (h_step s / factor)%Q) /\ ((rate < target)%Q -> h_step s' = (h_step s * factor)%Q) /\
    ((rate == target)%Q -> h_step s' = h_step s)).
Proof.
  intros target factor interval s v other metro u x s' Hf H new. unfold bh_generate in H.
  destruct (neq (b_fx (v_best v)) PInf) eqn:E; [destruct (b_fx (v_best v)); try discriminate E; congruence|].
  match type of H with context[match ?p with Ok _ => _ | Err _ => _ end] => remember p as pick eqn:Ep end.
  assert (HP : forall b t, pick = Ok (b, t) -> h_step t = h_step s /\ exists more, (more = 0 \/ more = 1)%Z /\
    ((new /\ h_id t = b_id (v_best v) /\ h_fx t = b_fx (v_best v) /\ h_accept t = (h_accept s + 1 + more)%Z) \/
     (~ new /\ h_id t = h_id s /\ h_fx t = h_fx s /\ h_accept t = (h_accept s + more)%Z))).
  { intros b t Eb. rewrite Eb in Ep. unfold new in *. clear new Eb H.
    destruct (nle (b_fx (v_best v)) (h_fx s)) eqn:EN, (Nat.eqb_spec (b_id (v_best v)) (h_id s)) as [EI|EI]; cbn [andb negb] in Ep.
    all: destruct (filter _ _) as [|k ks]; [injection Ep as -> ->|destruct (find_best _ _) as [o|]; [|discriminate]; destruct (metro _ _); injection Ep as -> ->].
    all: cbn; (split; [reflexivity|]); first [exists 0%Z; split; [left; reflexivity|]; solve [left; splits; auto; lia | right; splits; auto; try lia; intros [A B]; congruence]
                                             |exists 1%Z; split; [right; reflexivity|]; solve [left; splits; auto; lia | right; splits; auto; try lia; intros [A B]; congruence]]. }
  destruct pick as [[b t]|]; [|discriminate]. destruct (HP b t eq_refl) as [Ht HM]. clear HP Ep.
  destruct (Nat.eqb interval 0); [discriminate|].
  match type of H with context[match ?p with Some _ => _ | None => _ end] => remember p as st eqn:Est end.
  destruct st as [st|]; [|discriminate]. destruct (b_x b) as [y|]; [|discriminate]. injection H as <- <-. cbn [h_accept h_step h_id h_fx].
  split; [exact HM|]. destruct (Nat.eqb_spec (v_o v mod interval) 0) as [I|I].
  - split; [congruence|]. intros _. destruct (Nat.eqb_spec (v_o v) 0); [discriminate|]. split; [assumption|]. cbv zeta in *.
    set (rate := (inject_Z (h_accept t) / inject_Z (Z.of_nat (v_o v)))%Q) in *. clearbody rate.
    destruct (Qle_bool rate target) eqn:L1; cbn [negb] in Est.
    + apply Qle_bool_iff in L1. destruct (Qle_bool target rate) eqn:L2; cbn [negb] in Est; injection Est as ->.
      * apply Qle_bool_iff in L2. splits; intro; try lra. exact Ht.
      * assert (~ (target <= rate)%Q) by (rewrite <- Qle_bool_iff; congruence). splits; intro; try lra. rewrite Ht; reflexivity.
    + injection Est as ->. assert (~ (rate <= target)%Q) by (rewrite <- Qle_bool_iff; congruence). splits; intro; try lra. rewrite Ht; reflexivity.
  - split; [|congruence]. intros _. injection Est as ->. exact Ht.
Qed.
Print Assumptions C44_basin_memory.
Definition bh_view (o : nat) : view := mkView None 9 o [no_best; mkBest 1 (Some [2; -(1)]%Q) (Fin 7)] (mkBest 1 (Some [2; -(1)]%Q) (Fin 7)) [(0, 2); (-(4), -(1))]%Q.
Definition most (_ : nat) : Q := 9 # 10.
Example C44_basin_met : exists x s', bh_generate (1 # 2) (9 # 10) 5 (bh_init (1 # 2)) (bh_view 3) (fun _ => 0) (fun _ _ => true) most = (Ok x, s') /\ unit_draws most /\ ordered_bounds (v_bounds (bh_view 3)).
Proof. eexists. eexists. splits; [reflexivity| intro j; unfold most; lra|]. repeat constructor; cbn; lra. Qed.
Example C44_basin_memory_met : exists x s', bh_generate (1 # 2) (9 # 10) 5 (mkBH 3 (1 # 2) 4 (Fin 7)) (bh_view 5) (fun _ => 0) (fun _ _ => false) most = (Ok x, s') /\
  h_id s' = 1 /\ h_accept s' = 4%Z /\ (1 # 2 < h_step s')%Q.
Proof. eexists. eexists. splits; vm_compute; reflexivity. Qed.
(** Finding: the new point may be outside the bounds, and the step may exceed the "maximum jump size allowed". *)
Theorem C44_basin_refuted : exists v x s', unit_draws most /\ bh_generate (1 # 2) (9 # 10) 5 (bh_init (1 # 2)) v (fun _ => 0) (fun _ _ => true) most = (Ok x, s') /\
  (forall b y, In b (v_bests v) -> b_x b = Some y -> within (v_bounds v) y) /\ ~ within (v_bounds v) x.
Proof.
  exists (bh_view 3). eexists. eexists. splits; [intro j; unfold most; lra| reflexivity| |].
  - intros b y [<-|[<-|[]]]; [discriminate|]. intro E. injection E as <-. repeat constructor; cbn; lra.
  - intro H. inversion H as [|? ? ? ? [_ H1] _]; subst. vm_compute in H1. apply H1. reflexivity.
Qed.
Print Assumptions C44_basin_refuted.
Theorem C44_basin_step_refuted : exists target v x s', (0 < target < 1)%Q /\ bh_generate target (9 # 10) 1 (mkBH 1 (1 # 2) 1 (Fin 9)) v (fun _ => 0) (fun _ _ => true) half = (Ok x, s') /\ (1 # 2 < h_step s')%Q.
Proof. exists (1 # 2)%Q, (bh_view 1). eexists. eexists. splits; [lra| lra| vm_compute; reflexivity| vm_compute; reflexivity]. Qed.
Print Assumptions C44_basin_step_refuted.
