(** * C88, continued: the hunters that draw, and ChainSelector *)
From Coq Require Import Lia Reals Lra.
From Verif Require Import Prelude Hunters_Model HuntersR_Model Hunters_Spec Hunters_Proofs Logger_Model Logger_Spec Selectors_Model Selectors_Spec
  Selectors_Proofs Manager_Model Manager_Spec Manager_Proofs Manager_Trace Manager_Props Logged_Proofs Resumed_Model Resumed_Spec
  Resumed_Proofs Always_Proofs Resumed_Props Wired_Spec Wired_Proofs Wired_Props Filled_Proofs Prelude_Proofs.
From Verif Require Core_Model.
Open Scope nat_scope.

(** ** TimeAnnealing *)
(** Member [j] is TimeAnnealing(crit); at each call it draws some number between 0 and 1. *)
Definition draws_by {L} (behav : nat -> logger * nat * nat -> L -> res bool * L) (j : nat) (crit : QArith_base.Q) : Prop :=
  forall l b v p, exists u, (0 <= u <= 1)%Q /\ fst (behav j (l, b, v) p) = time_annealing crit u l b v.
Notation evals i h := (length (filter (fun r => Nat.eqb (ir_opt r) i) (accepted h))).

(** An optimizer hunted with TimeAnnealing(crit) has more than 1/crit times the evaluations of the hunter, whatever is drawn. *)
Theorem C88_time_annealing g w s {L} (behav : nat -> logger * nat * nat -> L -> res bool * L) tree j crit h1 c b v h2 :
  in_step g w s -> hunts_by behav tree w -> needs tree j -> draws_by behav j crit -> make_time_annealing crit = Ok crit ->
  st_hist s = h1 ++ (c, EvKill (Some b) v) :: h2 -> ~ In EvLoad (map snd h1) -> has_iter_history b (k_log c) = true ->
  0 < evals v h2 /\ (inject_Z (Z.of_nat (evals b h2)) < crit * inject_Z (Z.of_nat (evals v h2)))%Q.
Proof.
  intros Hs Hw Hn Hj Hm Hh Hl Hb. assert (He : EvKill (Some b) v <> EvLoad) by discriminate.
  destruct (event_now _ _ _ _ _ _ _ _ Hs Hh Hl He) as ([t Ht] & H2 & _). destruct (Hw t c b v) as [st Hst]. rewrite Ht in Hst.
  destruct (needed behav tree j (k_log c, b, v) Hn st (eq_sym Hst)) as [p Hp]. destruct (Hj (k_log c) b v p) as (u & Hu & E). rewrite E in Hp.
  assert (Hc : (0 < crit)%Q).
  { unfold make_time_annealing in Hm. destruct (Qle_bool crit 0) eqn:Eq; [discriminate|]. apply Qnot_le_lt. intro H. apply Qle_bool_iff in H. congruence. }
  pose proof (recorded_len _ _ _ _ (C88_hunters_see_everything _ _ _ _ _ _ _ _ Hs Hh Hb)) as Lb.
  pose proof (recorded_len _ _ _ _ (C88_hunters_see_everything _ _ _ _ _ _ _ _ Hs Hh H2)) as Lv. rewrite map_length in Lb, Lv.
  assert (Hv : 0 < evals v h2). { destruct (evals v h2); [|lia]. unfold time_annealing in Hp. rewrite Lv in Hp. discriminate. }
  split; [exact Hv|]. apply Qnot_le_lt. intro Hle.
  rewrite (time_annealing_never _ _ _ _ _ _ u Lb Lv Hv Hc (proj2 Hu)) in Hp; [discriminate|].
  apply Qle_shift_div_l; [|exact Hle]. unfold Qlt, inject_Z. cbn. lia.
Qed.
Print Assumptions C88_time_annealing.

Definition hunters88i (j : nat) (a : logger * nat * nat) (p : unit) : res bool * unit :=
  let '(l, b, v) := a in (time_annealing 4 (1#2) l b v, p).
Definition w88j : world := mkW
  (fun t => match t with 12 => [MPush [ev 2 3 7; ev 1 5 9]] | 20 => [MPush [ev 1 5 9; ev 2 2 8]] | _ => [] end)
  (w_intr wA) (w_err wA) (w_sel wA) (w_check wA)
  (fun t c b v => fst (Core_Model.call _ _ hunters88i (Core_Model.Leaf 1) (k_log c, b, v) (Core_Model.mkC (fun _ => None) (fun _ => tt))))
  (w_heads wA) (w_late wA) (w_full wA) (w_time_chk wA) (w_saved wA).
Definition s88j : mstate := snd (run gA w88j 60 true).
Example C88_time_annealing_met : in_step gA w88j s88j /\ hunts_by hunters88i (Core_Model.Leaf 1) w88j /\ draws_by hunters88i 1 4 /\
  make_time_annealing 4 = Ok 4%Q /\
  exists h1 c h2, st_hist s88j = h1 ++ (c, EvKill (Some 2) 1) :: h2 /\ ~ In EvLoad (map snd h1) /\ has_iter_history 2 (k_log c) = true.
Proof.
  splits; [apply se_first; exists 60, true; reflexivity|intros t c b v; eexists; reflexivity| |reflexivity|].
  - intros l b v p. exists (1#2)%Q. split; [split; discriminate|reflexivity].
  - first_kill s88j. splits; [vm_compute; reflexivity|apply (absent is_load); vm_compute; reflexivity|vm_compute; reflexivity].
Qed.

(** ** ValueAnnealing *)
Lemma lowest rs : forall x, nnan x = false -> let m := fold_left lower (map CF (map ir_fx rs)) x in
  nnan m = false /\ nle m x = true /\ (m = x \/ exists r, In r rs /\ ir_fx r = m) /\ forall r, In r rs -> nlt (ir_fx r) m = false.
Proof.
  induction rs as [|r rs IH]; intros x Hx; cbn [map fold_left].
  - splits; auto; [apply nle_refl, Hx|intros r []].
  - cbv zeta. change (lower x (CF (ir_fx r))) with (if nlt (ir_fx r) x then ir_fx r else x). destruct (nlt (ir_fx r) x) eqn:E.
    + pose proof (nlt_nan_l _ _ E) as Hr. destruct (IH _ Hr) as (H1 & H2 & H3 & H4). splits; auto.
      * apply (nle_trans _ _ _ H2). apply nlt_nle, E.
      * right. destruct H3 as [->|(r' & Hi & H3)]; [exists r; split; [left; reflexivity|reflexivity]|exists r'; split; [right; exact Hi|exact H3]].
      * intros r' [<-|Hi]; [|auto]. match goal with |- ?x = _ => destruct x eqn:E2 end; [|reflexivity]. apply nlt_nle_false in E2. congruence.
    + destruct (IH _ Hx) as (H1 & H2 & H3 & H4). splits; auto.
      * destruct H3 as [H3|(r' & Hi & H3)]; [left; exact H3|right; exists r'; split; [right; exact Hi|exact H3]].
      * intros r' [<-|Hi]; [|auto]. match goal with |- ?x = _ => destruct x eqn:E2 end; [|reflexivity]. rewrite (nlt_nle_trans _ _ _ E2 H2) in E. discriminate.
Qed.
Lemma setups_before h1 h2 p : In p (setups h2) -> In p (setups (h1 ++ h2)).
Proof. intro H. induction h1 as [|[c e] h1 IH]; [exact H|]. cbn [app setups]. destruct e; auto. apply in_app_iff. left. exact IH. Qed.

(** The best evaluation the log names for an optimizer is the least of those accepted of it, NaN left out (positive
    infinity if there is none). *)
Theorem C88_log_knows_the_best g w s h1 c e h2 i : in_step g w s -> st_hist s = h1 ++ (c, e) :: h2 -> (forall r, e <> EvAccept r) ->
  has_iter_history i (k_log c) = true ->
  exists b, get_best_iter (Some i) (k_log c) = Ok b /\ nnan (b_fx b) = false /\
    (b_fx b = PInf \/ exists r, In r (accepted h2) /\ ir_opt r = i /\ ir_fx r = b_fx b) /\
    forall r, In r (accepted h2) -> ir_opt r = i -> nlt (ir_fx r) (b_fx b) = false.
Proof.
  intros Hs Hh He Hi. pose proof (proj2 (session_FS _ _ _ _ Hs) c e) as HG. rewrite Hh in HG.
  assert (HG' : G (k_log c)) by (apply HG; [apply in_app_iff; right; left; reflexivity|exact He]). clear HG.
  destruct (C88_hunters_see_everything _ _ _ _ _ _ _ _ Hs Hh Hi) as [_ Hf].
  pose proof (event_log_full _ _ _ _ _ _ _ Hs Hh) as HL.
  assert (H0 : i <> 0 /\ exists en, nget i (l_store (k_log c)) = Some en).
  { pose proof Hi as Hi'. unfold has_iter_history in Hi'. destruct (nget i (l_store (k_log c))) as [en|] eqn:E; [|discriminate]. split; [|eauto].
    destruct (lg_store _ _ _ _ HL _ _ E) as (Hin & _). intros ->. apply in_map_iff in Hin as (p & Ep & Hin).
    destruct (session_always _ _ _ _ Hs) as (a & b & d & HJ & _). pose proof (j_setups _ _ _ _ _ _ _ _ HJ) as Hset.
    assert (Hin' : In 0 (seq 1 b)). { rewrite <- Hset, <- Ep. apply in_map. rewrite Hh. apply setups_before. cbn [setups]. destruct e; auto. apply in_app_iff. left. exact Hin. }
    apply in_seq in Hin'. lia. }
  destruct H0 as [H0 [en E]]. destruct (g_best _ HG' _ _ E) as (a & b & Ha & Hb & Hl). unfold get_history in Hf. rewrite Hi, E in Hf.
  unfold low in Hl. destruct (sget "fx" (e_cols en)) as [cs|]; [|discriminate]. injection Hf as ->.
  pose proof (lowest (filter (fun r => Nat.eqb (ir_opt r) i) (accepted h2)) PInf eq_refl) as H. cbv zeta in H. rewrite <- Hl in H. destruct H as (H1 & _ & H3 & H4).
  exists b. splits; auto.
  - unfold get_best_iter. rewrite Ha, Hb. destruct i; [congruence|reflexivity].
  - destruct H3 as [H3|(r & Hr & H3)]; [left; exact H3|right]. apply filter_In in Hr as [Hr1 Hr2]. apply Nat.eqb_eq in Hr2. eauto.
  - intros r Hr Hr'. apply H4. apply filter_In. split; [exact Hr|]. apply Nat.eqb_eq. exact Hr'.
Qed.
Print Assumptions C88_log_knows_the_best.

(** Member [j] is ValueAnnealing(chance); it draws any number. *)
Definition values_by {L} (behav : nat -> logger * nat * nat -> L -> res bool * L) (j : nat) (chance : R) : Prop :=
  forall l b v p, exists u, fst (behav j (l, b, v) p) = value_annealing chance u l b v.
(** With ValueAnnealing an optimizer is hunted only if all its accepted values are worse than one of the hunter, which is
    finite and not zero, whatever is drawn. *)
Theorem C88_value_annealing g w s {L} (behav : nat -> logger * nat * nat -> L -> res bool * L) tree j chance h1 c b v h2 :
  in_step g w s -> hunts_by behav tree w -> needs tree j -> values_by behav j chance ->
  st_hist s = h1 ++ (c, EvKill (Some b) v) :: h2 -> ~ In EvLoad (map snd h1) -> has_iter_history b (k_log c) = true ->
  exists r q, In r (accepted h2) /\ ir_opt r = b /\ ir_fx r = Fin q /\ ~ (q == 0)%Q /\
    forall r', In r' (accepted h2) -> ir_opt r' = v -> nle (ir_fx r') (ir_fx r) = false.
Proof.
  intros Hs Hw Hn Hj Hh Hl Hb. assert (He : EvKill (Some b) v <> EvLoad) by discriminate.
  destruct (event_now _ _ _ _ _ _ _ _ Hs Hh Hl He) as ([t Ht] & H2 & _). destruct (Hw t c b v) as [st Hst]. rewrite Ht in Hst.
  destruct (needed behav tree j (k_log c, b, v) Hn st (eq_sym Hst)) as [p Hp]. destruct (Hj (k_log c) b v p) as (u & E). rewrite E in Hp.
  destruct (C88_log_knows_the_best _ _ _ _ _ _ _ b Hs Hh ltac:(discriminate) Hb) as (x & Ex & Nx & Hx & _).
  destruct (C88_log_knows_the_best _ _ _ _ _ _ _ v Hs Hh ltac:(discriminate) H2) as (y & Ey & Ny & _ & Hy).
  unfold value_annealing in Hp. rewrite Ex, Ey in Hp. cbn [rbind] in Hp. injection Hp as Hp.
  destruct (neq (b_fx x) (Fin 0)) eqn:E0; [discriminate|]. destruct (nle (b_fx y) (b_fx x)) eqn:E1; [discriminate|]. cbn [orb] in Hp.
  destruct Hx as [Hx|(r & Hr1 & Hr2 & Hr3)]; [rewrite Hx in Hp; discriminate|].
  destruct (b_fx x) as [| |q|] eqn:Eq; try discriminate Hp. exists r, q. splits; auto.
  - intro H. assert (Hq : neq (Fin q) (Fin 0) = true) by (unfold neq, nle; apply andb_true_iff; split; apply Qle_bool_iff; rewrite H; apply Qle_refl). congruence.
  - intros r' Hr' Hv. rewrite Hr3. destruct (nle (ir_fx r') (Fin q)) eqn:En; [|reflexivity]. exfalso.
    assert (Hlt : nlt (Fin q) (b_fx y) = true).
    { destruct (nlt (Fin q) (b_fx y)) eqn:Elt; [reflexivity|]. rewrite (nlt_false_nle _ _ Nx Ny Elt) in E1. discriminate. }
    pose proof (Hy r' Hr' Hv) as H. rewrite (nle_nlt_trans _ _ _ En Hlt) in H. discriminate.
Qed.
Print Assumptions C88_value_annealing.

(** ValueAnnealing(1/2) drawing 1, computed without real numbers. *)
Definition worse (l : logger) (h v : nat) : res bool :=
  rbind (get_best_iter (Some h) l) (fun bh => rbind (get_best_iter (Some v) l) (fun bv =>
  Ok (if neq (b_fx bh) (Fin 0) || nle (b_fx bv) (b_fx bh) then false
      else match b_fx bh, b_fx bv with Fin _, Fin _ => true | Fin _, PInf => true | _, _ => false end))).
Lemma worse_spec l h v : value_annealing (1/2) 1 l h v = worse l h v.
Proof.
  unfold worse. destruct (get_best_iter (Some h) l) as [x|e] eqn:Ex; [|unfold value_annealing; rewrite Ex; reflexivity].
  destruct (get_best_iter (Some v) l) as [y|e] eqn:Ey; [|unfold value_annealing; rewrite Ex, Ey; reflexivity]. cbn [rbind].
  destruct (b_fx x) as [| |a|] eqn:Fx; try (unfold value_annealing; rewrite Ex, Ey; cbn [rbind]; rewrite Fx; destruct (_ || _); reflexivity).
  destruct (b_fx y) as [| |b|] eqn:Fy; try (unfold value_annealing; rewrite Ex, Ey; cbn [rbind]; rewrite Fx, Fy; destruct (_ || _); reflexivity).
  - destruct (neq (Fin a) (Fin 0) || nle (Fin b) (Fin a)) eqn:E; [unfold value_annealing; rewrite Ex, Ey; cbn [rbind]; rewrite Fx, Fy, E; reflexivity|].
    apply orb_false_iff in E as [E1 E2].
    assert (H1 : ~ (a == 0)%Q).
    { intro H. assert (Hq : neq (Fin a) (Fin 0) = true) by (unfold neq, nle; apply andb_true_iff; split; apply Qle_bool_iff; rewrite H; apply Qle_refl). congruence. }
    assert (H2 : (a < b)%Q). { apply Qnot_le_lt. intro H. apply Qle_bool_iff in H. cbn in E2. congruence. }
    destruct (va_spec l h v a b (1/2) 1 (ex_intro _ x (conj Ex Fx)) (ex_intro _ y (conj Ey Fy)) H1 H2) as (r & -> & Hr). f_equal. apply Hr.
    assert (Ha : (Q2R a <> 0)%R). { intro H. apply H1. apply eqR_Qeq. rewrite H. unfold Q2R. cbn. lra. }
    apply Qlt_Rlt in H2. pose proof (survival_decreasing (1/2) (Q2R a) ((Q2R a + Q2R b) / 2) (Q2R b) ltac:(lra) Ha ltac:(lra) ltac:(lra)).
    pose proof (survival_range (1/2) (Q2R a) ((Q2R a + Q2R b) / 2) ltac:(lra)). lra.
  - unfold value_annealing. rewrite Ex, Ey. cbn [rbind]. rewrite Fx, Fy. destruct (_ || _); [reflexivity|]. destruct (Rlt_dec 0 1); [reflexivity|lra].
Qed.
Definition hunters88k (j : nat) (a : logger * nat * nat) (p : unit) : res bool * unit := let '(l, b, v) := a in (worse l b v, p).
Definition w88k : world := mkW (w_moves w88j) (w_intr wA) (w_err wA) (w_sel wA) (w_check wA)
  (fun t c b v => fst (Core_Model.call _ _ hunters88k (Core_Model.Leaf 1) (k_log c, b, v) (Core_Model.mkC (fun _ => None) (fun _ => tt))))
  (w_heads wA) (w_late wA) (w_full wA) (w_time_chk wA) (w_saved wA).
Definition s88k : mstate := snd (run gA w88k 60 true).
Example C88_value_annealing_met : in_step gA w88k s88k /\ hunts_by hunters88k (Core_Model.Leaf 1) w88k /\ values_by hunters88k 1 (1/2) /\
  exists h1 c h2, st_hist s88k = h1 ++ (c, EvKill (Some 2) 1) :: h2 /\ ~ In EvLoad (map snd h1) /\ has_iter_history 2 (k_log c) = true.
Proof.
  splits; [apply se_first; exists 60, true; reflexivity|intros t c b v; eexists; reflexivity| |].
  - intros l b v p. exists 1%R. symmetry. apply worse_spec.
  - first_kill s88k. splits; [vm_compute; reflexivity|apply (absent is_load); vm_compute; reflexivity|vm_compute; reflexivity].
Qed.

Example C88_log_knows_the_best_met : in_step gA w88k s88k /\ exists h1 c h2, st_hist s88k = h1 ++ (c, EvKill (Some 2) 1) :: h2 /\
  has_iter_history 2 (k_log c) = true /\ map ir_fx (filter (fun r => Nat.eqb (ir_opt r) 2) (accepted h2)) = [Fin 7] /\
  match get_best_iter (Some 2) (k_log c) with Ok b => b_fx b = Fin 7 | Err _ => False end.
Proof.
  split; [apply se_first; exists 60, true; reflexivity|]. first_kill s88k. splits; vm_compute; reflexivity.
Qed.

(** ** ChainSelector *)
(** The first [k] thresholds are reached by [f] evaluations. *)
Definition passed (th : list QArith_base.Q) (f k : nat) : Prop :=
  k <= length th /\ forall i q, i < k -> nth_error th i = Some q -> (q <= inject_Z (Z.of_nat f))%Q.
(** opt_selector is a ChainSelector; the thresholds it has left behind are reached (C88_chain_state). *)
Definition chains (sp : spawner) (avail : list conf) (th : list QArith_base.Q) (w : world) : Prop :=
  forall t c n, exists k, passed th (k_f c) k /\ w_sel w t c n = fst (chain_select sp avail th (mkSV (k_f c) (k_o c)) n k).

Lemma passed_mono th f f' k : f <= f' -> passed th f k -> passed th f' k.
Proof.
  intros H [H1 H2]. split; [exact H1|]. intros i q Hi Hq. apply (Qle_trans _ _ _ (H2 i q Hi Hq)). rewrite <- Zle_Qle. lia.
Qed.
Definition next (th : list QArith_base.Q) (f k : nat) : nat :=
  match nth_error th k with Some t => if Qle_bool t (inject_Z (Z.of_nat f)) then S k else k | None => k end.
Lemma passed_next th f k : passed th f k -> passed th f (next th f k).
Proof.
  intros [H1 H2]. unfold next. destruct (nth_error th k) as [t|] eqn:E; [|split; assumption].
  destruct (Qle_bool t _) eqn:Eq; [|split; assumption]. split; [assert (k < length th) by (apply nth_error_Some; congruence); lia|].
  intros i q Hi Hq. destruct (Nat.eq_dec i k) as [->|Hne]; [|apply (H2 i q); [lia|exact Hq]].
  rewrite E in Hq. injection Hq as <-. apply Qle_bool_iff. exact Eq.
Qed.
Lemma chain_step sp avail th v n k :
  (snd (chain_select sp avail th v n k) = k /\ fst (chain_select sp avail th v n k) = Ok SFalse) \/
  (snd (chain_select sp avail th v n k) = next th (sv_f v) k /\
   forall cf, fst (chain_select sp avail th v n k) = Ok (SOpt cf) -> nth_error avail (next th (sv_f v) k) = Some cf).
Proof.
  unfold chain_select. destruct (negb (allow sp v)); [left; split; reflexivity|right]. fold (next th (sv_f v) k).
  destruct (nth_error avail (next th (sv_f v) k)) as [c|]; [|split; [reflexivity|discriminate]].
  destruct (Nat.ltb n (cf_workers c)); (split; [reflexivity|]); [discriminate|]. intros cf [= ->]. reflexivity.
Qed.

(** Asked at any times, the selector has left behind only thresholds which are reached. *)
Fixpoint chain_state (sp : spawner) (avail : list conf) (th : list QArith_base.Q) (reqs : list (sview * nat)) (k : nat) : nat :=
  match reqs with [] => k | (v, n) :: reqs' => chain_state sp avail th reqs' (snd (chain_select sp avail th v n k)) end.
Theorem C88_chain_state sp avail th reqs f :
  (forall v n, In (v, n) reqs -> sv_f v <= f) -> passed th f (chain_state sp avail th reqs 0).
Proof.
  intros H. assert (H0 : passed th f 0) by (split; [lia|intros; lia]). revert H0. generalize 0 as k.
  induction reqs as [|[v n] reqs IH]; intros k Hk; [exact Hk|]. cbn [chain_state]. apply IH; [intros v' n' Hi; apply (H v' n'); right; exact Hi|].
  destruct (chain_step sp avail th v n k) as [[-> _]|[-> _]]; [exact Hk|].
  assert (Hf : sv_f v <= f) by (apply (H v n); left; reflexivity).
  destruct Hk as [H1 H2]. unfold next. destruct (nth_error th k) as [t|] eqn:E; [|split; assumption].
  destruct (Qle_bool t _) eqn:Eq; [|split; assumption]. split; [assert (k < length th) by (apply nth_error_Some; congruence); lia|].
  intros i q Hi Hq. destruct (Nat.eq_dec i k) as [->|Hne]; [|apply (H2 i q); [lia|exact Hq]].
  rewrite E in Hq. injection Hq as <-. apply Qle_bool_iff in Eq. apply (Qle_trans _ _ _ Eq). rewrite <- Zle_Qle. lia.
Qed.
Print Assumptions C88_chain_state.

(** No optimizer of a later class is made before as many evaluations are accepted as each threshold before that class says. *)
Theorem C88_chain_through_the_run P g w s sp avail th h1 c i cls h2 : session P g w s -> chains sp avail th w ->
  st_hist s = h1 ++ (c, EvSetup i cls) :: h2 -> ~ In EvLoad (map snd h1) ->
  exists k cf, nth_error avail k = Some cf /\ cf_class cf = cls /\ passed th (length (accepted h2)) k.
Proof.
  intros Hs Hw Hh Hl. assert (He : EvSetup i cls <> EvLoad) by discriminate.
  destruct (event_now _ _ _ _ _ _ _ _ Hs Hh Hl He) as (t & c0 & n & cf & H & Hc & _ & Hf). destruct (Hw t c0 n) as (k & Hk & E). rewrite E in H.
  destruct (chain_step sp avail th (mkSV (k_f c0) (k_o c0)) n k) as [[_ E1]|[_ E1]]; [rewrite E1 in H; discriminate|].
  exists (next th (k_f c0) k), cf. splits; [exact (E1 cf H)|exact Hc|]. rewrite <- Hf. apply passed_next, Hk.
Qed.
Print Assumptions C88_chain_through_the_run.

(** Two classes, the second one from three evaluations on. *)
Definition w88i : world := mkW (w_moves w88) (w_intr w88) (w_err w88)
  (fun t c n => fst (chain_select (NOptimizersSpawnStop 4) avail88 [3%Q] (mkSV (k_f c) (k_o c)) n 0))
  (w_check w88) (w_kill w88) (w_heads w88) (w_late w88) (w_full w88) (w_time_chk w88) (w_saved w88).
Definition s88i : mstate := snd (run gA w88i 400 true).
Example C88_chain_through_the_run_met : met gA w88i s88i /\ chains (NOptimizersSpawnStop 4) avail88 [3%Q] w88i /\
  chain_make avail88 [3%Q] = Ok 0 /\ setups (st_hist s88i) = [(1, "A"); (2, "A"); (3, "A"); (4, "B")] /\
  exists h1 c h2, st_hist s88i = h1 ++ (c, EvSetup 4 "B") :: h2 /\ ~ In EvLoad (map snd h1).
Proof.
  splits; [exists 400, true; reflexivity| |reflexivity|vm_compute; reflexivity|].
  - intros t c n. exists 0. split; [split; [lia|intros; lia]|reflexivity].
  - assert (Hi : In (4, "B") (setups (st_hist s88i))) by occurs. destruct (setup_at _ _ _ Hi) as (h1 & c & h2 & Hh). exists h1, c, h2.
    split; [exact Hh|]. intro Hl. assert (Hm : met gA w88i s88i) by (exists 400, true; reflexivity).
    apply (met_session _ _ _ Hm). rewrite Hh, map_app, in_app_iff. left. exact Hl.
Qed.
Example C88_chain_state_met : let reqs := [(mkSV 0 0, 1); (mkSV 2 1, 1); (mkSV 4 2, 1)] in
  (forall v n, In (v, n) reqs -> sv_f v <= 4) /\ chain_state AlwaysSpawn avail88 [3%Q] reqs 0 = 1.
Proof. split; [|reflexivity]. intros v n H. cbn in H. repeat destruct H as [[= <- <-]|H]; cbn; try lia; destruct H. Qed.
