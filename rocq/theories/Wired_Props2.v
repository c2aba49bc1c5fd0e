(** * C88, continued: the hunters that measure, and all selectors *)
From Coq Require Import Lia Reals Lra.
From Verif Require Import Prelude Prelude_Proofs Hunters_Model HuntersR_Model Hunters_Spec Hunters_Proofs Logger_Model Logger_Spec Selectors_Model
  Selectors_Proofs Selectors_Props Manager_Model Manager_Spec Manager_Proofs Manager_Trace Manager_Props Logged_Proofs Resumed_Model Resumed_Spec
  Resumed_Proofs Always_Proofs Resumed_Props Wired_Spec Wired_Proofs Wired_Props.
From Verif Require Core_Model.

Open Scope nat_scope.

(** The accepted evaluations of an optimizer. *)
Notation of_opt v h := (filter (fun r => Nat.eqb (ir_opt r) v) (accepted h)).

Lemma finite_all l : (forall f, In f l -> nfinite f = true) -> exists q, l = map Fin q.
Proof.
  induction l as [|f l IH]; intro H; [exists []; reflexivity|]. destruct IH as [q ->]; [intros x Hx; apply H; right; exact Hx|].
  specialize (H f (or_introl eq_refl)). destruct f as [| |x|]; try discriminate. exists (x :: q). reflexivity.
Qed.

(** EvaluationsUnmoving(n, tol) hunts only optimizers whose last n accepted values are finite and deviate at most by tol
    times the last one. *)
Theorem C88_evals_unmoving g w s {L} (behav : nat -> logger * nat * nat -> L -> res bool * L) tree j n tol h1 c b v h2 :
  in_step g w s -> hunts_by behav tree w -> needs tree j -> member_is behav j (evals_unmoving n (Fin tol)) -> 0 < n ->
  st_hist s = h1 ++ (c, EvKill (Some b) v) :: h2 -> ~ In EvLoad (map snd h1) ->
  exists old new z, map ir_fx (of_opt v h2) = old ++ map Fin (new ++ [z]) /\ length (new ++ [z]) = n /\
    (std_dev (reals (new ++ [z])) <= Rabs (Q2R z * Q2R tol))%R.
Proof.
  intros Hs Hw Hn Hj H0 Hh Hl. destruct (hunted _ _ _ _ _ _ _ _ _ _ _ _ _ Hs Hw Hn Hj Hh Hl) as [H1 H2].
  pose proof (C88_hunters_see_everything _ _ _ _ _ _ _ _ Hs Hh H2) as Hr.
  remember (map ir_fx (of_opt v h2)) as fs eqn:Efs. clear Efs.
  destruct (Nat.lt_ge_cases (length fs) n) as [Hlt|Hge].
  { rewrite (evals_unmoving_short _ b _ _ _ _ (Fin tol) Hr Hlt) in H1. discriminate. }
  destruct (split_last n fs Hge) as (old & new & -> & Hnew).
  assert (Hf : forall f, In f new -> nfinite f = true).
  { intros f Hi. destruct (nfinite f) eqn:E; [reflexivity|]. rewrite (evals_unmoving_nonfinite _ b _ _ _ _ _ (Fin tol) f Hr Hnew Hi E) in H1. discriminate. }
  destruct (finite_all new Hf) as [q ->]. rewrite map_length in Hnew.
  destruct (@exists_last _ q) as (q' & z & ->); [intros ->; cbn in Hnew; lia|].
  destruct (evals_unmoving_spec _ b _ _ _ _ _ _ tol Hr Hnew) as (x & E & Hx). rewrite E in H1. injection H1 as ->.
  exists old, q', z. splits; auto. apply Hx. reflexivity.
Qed.
Print Assumptions C88_evals_unmoving.

(** StepSize hunts only optimizers whose last n accepted points are close to each other in sequence. *)
Theorem C88_step_size g w s {L} (behav : nat -> logger * nat * nat -> L -> res bool * L) tree j space n tol h1 c b v h2 :
  in_step g w s -> hunts_by behav tree w -> needs tree j -> member_is behav j (step_size space n tol) -> 2 <= n ->
  st_hist s = h1 ++ (c, EvKill (Some b) v) :: h2 -> ~ In EvLoad (map snd h1) ->
  (forall r, In r (accepted h2) -> exists p, ir_x r = map Fin p) ->
  exists old new, map ir_x (of_opt v h2) = old ++ map (map Fin) new /\ length new = n /\
    (path_length (map reals new) / INR (n - 1) <= tol * space)%R.
Proof.
  intros Hs Hw Hn Hj H0 Hh Hl Hfin. destruct (hunted _ _ _ _ _ _ _ _ _ _ _ _ _ Hs Hw Hn Hj Hh Hl) as [H1 H2].
  pose proof (C88_hunters_see_everything _ _ _ _ _ _ _ _ Hs Hh H2) as Hr.
  assert (Hf : forall x, In x (map ir_x (of_opt v h2)) -> exists p, x = map Fin p).
  { intros f Hi. apply in_map_iff in Hi as (r & <- & Hi). apply filter_In in Hi as [Hi _]. auto. }
  remember (map ir_x (of_opt v h2)) as xs eqn:Exs. clear Exs.
  destruct (Nat.lt_ge_cases (length xs) n) as [Hlt|Hge].
  { rewrite (step_size_short _ b _ _ _ space _ tol Hr Hlt) in H1. discriminate. }
  destruct (split_last n xs Hge) as (old & new & -> & Hnew).
  assert (Hq : exists q, new = map (map Fin) q).
  { assert (Hf' : forall x, In x new -> exists p, x = map Fin p) by (intros x Hx; apply Hf, in_app_iff; right; exact Hx). clear - Hf'.
    induction new as [|x new IH]; [exists []; reflexivity|]. destruct IH as [q ->]; [intros y Hy; apply Hf'; right; exact Hy|].
    destruct (Hf' x (or_introl eq_refl)) as [p ->]. exists (p :: q). reflexivity. }
  destruct Hq as [q ->]. rewrite map_length in Hnew.
  destruct (step_size_spec _ b _ _ _ _ space _ tol Hr Hnew H0) as (x & E & Hx). rewrite E in H1. injection H1 as ->.
  exists old, q. splits; auto. apply Hx. reflexivity.
Qed.
Print Assumptions C88_step_size.

(** ParameterDistance hunts an optimizer only if its last accepted point is close to that of the hunter. *)
Theorem C88_parameter_distance g w s {L} (behav : nat -> logger * nat * nat -> L -> res bool * L) tree j lo hi rel pd h1 c b v h2 :
  in_step g w s -> hunts_by behav tree w -> needs tree j -> member_is behav j (parameter_distance pd) ->
  length lo = length hi -> make_parameter_distance (combine (map Fin lo) (map Fin hi)) (Fin rel) false = Ok pd ->
  st_hist s = h1 ++ (c, EvKill (Some b) v) :: h2 -> ~ In EvLoad (map snd h1) ->
  (forall r, In r (accepted h2) -> exists p, ir_x r = map Fin p) ->
  exists xs ys p q, map ir_x (of_opt b h2) = xs ++ [map Fin p] /\ map ir_x (of_opt v h2) = ys ++ [map Fin q] /\
    (euclid (reals p) (reals q) <= Q2R rel * euclid (reals lo) (reals hi))%R.
Proof.
  intros Hs Hw Hn Hj Hlen Hmk Hh Hl Hfin. destruct (hunted _ _ _ _ _ _ _ _ _ _ _ _ _ Hs Hw Hn Hj Hh Hl) as [H1 H2].
  assert (He : EvKill (Some b) v <> EvLoad) by discriminate.
  destruct (event_now _ _ _ _ _ _ _ _ Hs Hh Hl He) as (_ & _ & Hne).
  pose proof (C88_hunters_see_everything _ _ _ _ _ _ _ _ Hs Hh H2) as Hv.
  assert (Hlast : forall i, map ir_x (of_opt i h2) = [] \/ exists xs p, map ir_x (of_opt i h2) = xs ++ [map Fin p]).
  { intro i. destruct (of_opt i h2) as [|r0 rs] eqn:E; [left; reflexivity|right].
    destruct (@exists_last _ (r0 :: rs)) as (rs' & r & E'); [discriminate|]. rewrite E' in *.
    assert (Hi : In r (accepted h2)). { assert (Hi : In r (of_opt i h2)) by (rewrite E; apply in_app_iff; right; left; reflexivity). apply filter_In in Hi. tauto. }
    destruct (Hfin r Hi) as [p Hp]. exists (map ir_x rs'), p. rewrite map_app. cbn. now rewrite Hp. }
  pose proof Hmk as Hmk'. apply make_pd_inv in Hmk' as [Hrel ->]; [|exact Hlen]. unfold parameter_distance in H1. cbn [pd_all pd_loop] in H1.
  destruct (Nat.eqb_spec b v) as [->|_]; [congruence|]. unfold x_history at 1 in H1.
  destruct (get_history b "x" (k_log c)) as [cs|e] eqn:Eb; [|discriminate].
  assert (Hhas : has_iter_history b (k_log c) = true).
  { destruct (has_iter_history b (k_log c)) eqn:E; [reflexivity|]. unfold get_history in Eb. rewrite E in Eb. injection Eb as <-. cbn in H1. discriminate. }
  pose proof (C88_hunters_see_everything _ _ _ _ _ _ _ _ Hs Hh Hhas) as Hb.
  destruct (Hlast b) as [E0|(xs & p & Ep)].
  { destruct Hb as [Hb _]. rewrite E0, Eb in Hb. injection Hb as ->. cbn in H1. discriminate. }
  destruct (Hlast v) as [E0|(ys & q & Eq)].
  { destruct Hb as [Hb _]. rewrite Eb, Ep in Hb. injection Hb as ->. cbn [rbind] in H1. exfalso. rewrite map_app in H1. unfold points_of in H1. rewrite flat_map_app, rev_app_distr in H1. cbn in H1.
    destruct Hv as [Hv _]. rewrite E0 in Hv. unfold x_history in H1. rewrite Hv in H1. cbn in H1. discriminate. }
  exists xs, ys, p, q. splits; auto. rewrite Ep in Hb. rewrite Eq in Hv.
  assert (Lb : last_point (k_log c) b p) by (eexists _, _; exact Hb). assert (Lv : last_point (k_log c) v q) by (eexists _, _; exact Hv).
  destruct (pd_loop_spec (k_log c) v q lo hi rel false [b] Hrel Lv) as (x & E & Hx).
  { intros k [<-|[]]. right. eauto. }
  cbn [pd_loop] in E. destruct (Nat.eqb_spec b v) as [->|_]; [congruence|]. unfold x_history at 1 in E. rewrite Eb in E. cbn [rbind] in E, H1.
  rewrite E in H1. injection H1 as ->. destruct (proj1 Hx eq_refl) as (k & p' & [<-|[]] & _ & Hp' & Hle).
  rewrite (last_point_unique _ _ _ _ Lb Hp') in Hle || rewrite <- (last_point_unique _ _ _ _ Lb Hp') in Hle. exact Hle.
Qed.
Print Assumptions C88_parameter_distance.

(** Optimizer 1 stands still next to optimizer 2 and is hunted by hunter [j] for it. *)
Definition pd88 : pdist := mkPD (Fin 1) (Fin 16) false.
Definition hunters88c (j : nat) (a : logger * nat * nat) (p : unit) : res bool * unit :=
  let '(l, b, v) := a in (match j with 1 => evals_unmoving 2 (Fin 1) l b v | _ => parameter_distance pd88 l b v end, p).
Definition w88d (j : nat) : world := mkW
  (fun t => match t with 12 => [MPush [ev 2 3 7; ev 1 5 9]] | 20 => [MPush [ev 1 5 9; ev 2 2 8]] | _ => [] end)
  (w_intr wA) (w_err wA) (w_sel wA) (w_check wA)
  (fun t c b v => fst (Core_Model.call _ _ hunters88c (Core_Model.Leaf j) (k_log c, b, v) (Core_Model.mkC (fun _ => None) (fun _ => tt))))
  (w_heads wA) (w_late wA) (w_full wA) (w_time_chk wA) (w_saved wA).
Definition s88d (j : nat) : mstate := snd (run gA (w88d j) 60 true).
Lemma in_step_d j : in_step gA (w88d j) (s88d j).
Proof. apply se_first. exists 60, true. reflexivity. Qed.
Example C88_evals_unmoving_met : in_step gA (w88d 1) (s88d 1) /\ hunts_by hunters88c (Core_Model.Leaf 1) (w88d 1) /\
  member_is hunters88c 1 (evals_unmoving 2 (Fin 1)) /\
  exists h1 c h2, st_hist (s88d 1) = h1 ++ (c, EvKill (Some 2) 1) :: h2 /\ ~ In EvLoad (map snd h1).
Proof.
  splits; [apply in_step_d|intros t c b v; eexists; reflexivity|intros l b v p; reflexivity|].
  first_kill (s88d 1). split; [vm_compute; reflexivity|]. apply (absent is_load); vm_compute; reflexivity.
Qed.
Example C88_parameter_distance_met : in_step gA (w88d 2) (s88d 2) /\ hunts_by hunters88c (Core_Model.Leaf 2) (w88d 2) /\
  member_is hunters88c 2 (parameter_distance pd88) /\ make_parameter_distance (combine (map Fin [2]%Q) (map Fin [6]%Q)) (Fin 1) false = Ok pd88 /\
  exists h1 c h2, st_hist (s88d 2) = h1 ++ (c, EvKill (Some 2) 1) :: h2 /\ ~ In EvLoad (map snd h1) /\
    (forall r, In r (accepted h2) -> exists p, ir_x r = map Fin p).
Proof.
  splits; [apply in_step_d|intros t c b v; eexists; reflexivity|intros l b v p; reflexivity|reflexivity|].
  first_kill (s88d 2). splits; [vm_compute; reflexivity|apply (absent is_load); vm_compute; reflexivity|].
  intros r Hr. vm_compute in Hr. repeat destruct Hr as [<-|Hr]; try destruct Hr; eexists [_]; reflexivity.
Qed.
(** StepSize(2 points, tolerance 0) computed without real numbers: the last two points are equal. *)
Fixpoint still (p q : list num) : bool :=
  match p, q with
  | Fin a :: p', Fin b :: q' => Qeq_bool a b && still p' q'
  | _ :: _, _ :: _ => false
  | _, _ => true
  end.
Definition stands (l : logger) (h v : nat) : res bool :=
  rbind (x_history v l) (fun xs => Ok (match last_n 2 xs with [a; b] => still b a | _ => false end)).
Lemma still_spec p : forall q, match rsum2 p q with Some r => (0 <= r)%R /\ (r = 0%R <-> still p q = true) | None => still p q = false end.
Proof.
  induction p as [|[| |a|] p IH]; intros [|[| |b|] q]; cbn; auto; try (split; [lra|split; auto]).
  specialize (IH q). destruct (rsum2 p q) as [r|]; [|now rewrite IH, andb_false_r]. destruct IH as [H1 H2].
  pose proof (pow2_ge_0 (Q2R a - Q2R b)) as Hs. cbn in Hs. split; [lra|]. rewrite andb_true_iff, <- H2, Qeq_bool_iff. split.
  - intro H. assert (H0 : ((Q2R a - Q2R b) * ((Q2R a - Q2R b) * 1) = 0)%R) by lra. split; [|lra]. apply eqR_Qeq.
    rewrite Rmult_1_r in H0. apply Rsqr_0_uniq in H0. lra.
  - intros [Hq ->]. apply Qeq_eqR in Hq. rewrite Hq. lra.
Qed.
Lemma stands_spec l h v : step_size 1 2 0 l h v = stands l h v.
Proof.
  unfold step_size, stands. destruct (x_history v l) as [xs|e]; [|reflexivity]. cbn [rbind]. f_equal.
  assert (Hl : length (last_n 2 xs) <= 2) by (unfold last_n; cbn; rewrite skipn_length; lia).
  destruct (last_n 2 xs) as [|a [|b [|d t]]]; try reflexivity; [|cbn in Hl; lia]. cbn. unfold rdistance.
  pose proof (still_spec b a) as H. destruct (rsum2 b a) as [r|]; [|now rewrite H]. destruct H as [H1 H2]. cbn.
  destruct (Rle_dec _ _) as [Hle|Hle].
  - symmetry. apply H2. destruct (Req_dec r 0) as [|Hr]; [assumption|]. pose proof (sqrt_lt_R0 r). lra.
  - destruct (still b a); [|reflexivity]. exfalso. apply Hle. rewrite (proj2 H2 eq_refl), sqrt_0. lra.
Qed.
Definition hunters88e (j : nat) (a : logger * nat * nat) (p : unit) : res bool * unit :=
  let '(l, b, v) := a in (stands l b v, p).
Definition w88e : world := mkW (w_moves (w88d 1)) (w_intr wA) (w_err wA) (w_sel wA) (w_check wA)
  (fun t c b v => fst (Core_Model.call _ _ hunters88e (Core_Model.Leaf 1) (k_log c, b, v) (Core_Model.mkC (fun _ => None) (fun _ => tt))))
  (w_heads wA) (w_late wA) (w_full wA) (w_time_chk wA) (w_saved wA).
Definition s88e : mstate := snd (run gA w88e 60 true).
Example C88_step_size_met : in_step gA w88e s88e /\ hunts_by hunters88e (Core_Model.Leaf 1) w88e /\ member_is hunters88e 1 (step_size 1 2 0) /\
  exists h1 c h2, st_hist s88e = h1 ++ (c, EvKill (Some 2) 1) :: h2 /\ ~ In EvLoad (map snd h1) /\
    (forall r, In r (accepted h2) -> exists p, ir_x r = map Fin p).
Proof.
  splits; [apply se_first; exists 60, true; reflexivity|intros t c b v; eexists; reflexivity|intros l b v p; symmetry; apply stands_spec|].
  first_kill s88e. splits; [vm_compute; reflexivity|apply (absent is_load); vm_compute; reflexivity|].
  intros r Hr. vm_compute in Hr. repeat destruct Hr as [<-|Hr]; try destruct Hr; eexists [_]; reflexivity.
Qed.

(** ** All selectors *)
(** opt_selector is one of the three, in any state. *)
Definition selects (sp : spawner) (avail : list conf) (w : world) : Prop := forall t c n,
  let v := mkSV (k_f c) (k_o c) in
  (exists s, w_sel w t c n = fst (cycle_select sp avail v n s)) \/ (exists d, w_sel w t c n = random_select sp avail v n d) \/
  (exists th tg, w_sel w t c n = fst (chain_select sp avail th v n tg)).
Lemma selects_gives sp avail w t c n cf : selects sp avail w -> w_sel w t c n = Ok (SOpt cf) ->
  In cf avail /\ cf_workers cf <= n /\ allow sp (mkSV (k_f c) (k_o c)) = true.
Proof.
  intros Hw H. destruct (C28_fits sp avail (mkSV (k_f c) (k_o c)) n cf) as (H1 & H2 & H3).
  destruct (Hw t c n) as [[s E]|[[d E]|(th & tg & E)]]; rewrite E in H.
  - destruct (cycle_select sp avail (mkSV (k_f c) (k_o c)) n s) as [x s'] eqn:E'. cbn in H. subst x. exact (H1 s s' E').
  - exact (H2 d H).
  - destruct (chain_select sp avail th (mkSV (k_f c) (k_o c)) n tg) as [x t'] eqn:E'. cbn in H. subst x. exact (H3 th tg t' E').
Qed.

(** The optimizers of a run are from the list given to the selector, and whatever their number of workers those running
    together never have more slots than there are. *)
Theorem C88_selected P g w s sp avail : session P g w s -> selects sp avail w ->
  living_slots (st_core s) <= g_max_jobs g /\
  (forall h1 c i cls n h2, st_hist s = h1 ++ (c, EvStart i cls n) :: h2 -> ~ In EvLoad (map snd h1) -> living_slots c + n <= g_max_jobs g) /\
  (forall h1 c i cls h2, st_hist s = h1 ++ (c, EvSetup i cls) :: h2 -> ~ In EvLoad (map snd h1) ->
     exists cf, In cf avail /\ cf_class cf = cls /\ allow sp (mkSV (length (accepted h2)) (i - 1)) = true).
Proof.
  intros Hs Hw. assert (Ho : obeys w) by (intros t c n cf H; apply (selects_gives _ _ _ _ _ _ _ Hw H)). splits.
  - exact (proj1 (C87_slots_within_jobs _ _ _ _ [] (fst none) 0 "" 0 [] Ho Hs)).
  - intros h1 c i cls n h2. exact (proj2 (C87_slots_within_jobs _ _ _ _ h1 c i cls n h2 Ho Hs)).
  - intros h1 c i cls h2 Hh Hl. assert (He : EvSetup i cls <> EvLoad) by discriminate.
    destruct (event_now _ _ _ _ _ _ _ _ Hs Hh Hl He) as (t & c0 & k & cf & H & Hc & -> & Hf).
    destruct (selects_gives _ _ _ _ _ _ _ Hw H) as (H1 & _ & H3). exists cf. splits; auto. cbn. rewrite Nat.sub_0_r, <- Hf. exact H3.
Qed.
Print Assumptions C88_selected.
Example C88_selected_met : session (fun _ => True) gA w88 s88 /\ selects sp88 avail88 w88 /\ g_max_jobs gA = 3 /\
  exists h1 c h2, st_hist s88 = h1 ++ (c, EvStart 3 "A" 1) :: h2 /\ living_slots c = 2.
Proof.
  splits; [apply se_first, met_88|intros t c n; left; eexists; reflexivity|reflexivity|].
  let n := eval vm_compute in (length (filter (fun x => x) (map (fun k => negb (existsb (fun e => match e with EvStart _ _ _ => true | _ => false end)
    (map snd (firstn k (st_hist s88))))) (seq 1 (length (st_hist s88)))))) in
  exists (firstn n (st_hist s88)), (fst (nth n (st_hist s88) none)), (skipn (S n) (st_hist s88)).
  splits; vm_compute; reflexivity.
Qed.
