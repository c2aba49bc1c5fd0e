(** * The manager with the hunters, selectors and checkers of the package: proofs *)
From Verif Require Import Prelude Prelude_Proofs Checkers_Model Hunters_Model Hunters_Spec Logger_Model Logger_Spec Selectors_Model Selectors_Spec
  Selectors_Proofs Manager_Model Manager_Spec Manager_Proofs Logged_Proofs Manager_Trace Manager_Props Resumed_Model Resumed_Spec Resumed_Proofs Always_Proofs Wired_Spec.
From Verif Require Core_Model.
From Coq Require Import Lia.
Open Scope nat_scope.

(** ** Combinations *)
Section Trees.
  Context {A L : Type} (behav : nat -> A -> L -> res bool * L).
  Notation ask := (Core_Model.call A L behav).
  Lemma leaf_answer i a st b : fst (ask (Core_Model.Leaf i) a st) = Ok b -> exists p, fst (behav i a p) = Ok b.
  Proof.
    cbn. unfold Core_Model.call_leaf. destruct (behav i a (Core_Model.c_priv st i)) as [[x|e] l] eqn:E; cbn; [|discriminate].
    intros [= ->]. exists (Core_Model.c_priv st i). now rewrite E.
  Qed.
  Lemma needed tree j a : needs tree j -> forall st, fst (ask tree a st) = Ok true -> exists p, fst (behav j a p) = Ok true.
  Proof.
    induction tree as [i|i k t1 IH1 t2 IH2]; intros Hn st H.
    - cbn in Hn. subst j. exact (leaf_answer _ _ _ _ H).
    - cbn [Core_Model.call] in H. match type of H with context [ask t1 a ?x] => set (s0 := x) in *; clearbody s0 end.
      pose proof (fun Hx => IH1 Hx s0) as H1. destruct (ask t1 a s0) as [[b1|e] s1]; [|discriminate H]. pose proof (fun Hx => IH2 Hx s1) as H2.
      destruct k, b1; cbn in H, Hn; auto.
      + apply H1; [apply Hn|reflexivity].
      + destruct (ask t2 a s1) as [[b2|e] s2]; [|discriminate H]. cbn in *. injection H as ->. apply H2; [apply Hn|reflexivity].
      + destruct (ask t2 a s1) as [[b2|e] s2]; [|discriminate H]. cbn in *. injection H as ->. destruct Hn as [Hn|Hn]; auto.
      + discriminate.
  Qed.
  Lemma sufficient tree j a : suffices tree j -> forall st, fst (ask tree a st) = Ok false -> exists p, fst (behav j a p) = Ok false.
  Proof.
    induction tree as [i|i k t1 IH1 t2 IH2]; intros Hn st H.
    - cbn in Hn. subst j. exact (leaf_answer _ _ _ _ H).
    - cbn [Core_Model.call] in H. match type of H with context [ask t1 a ?x] => set (s0 := x) in *; clearbody s0 end.
      pose proof (fun Hx => IH1 Hx s0) as H1. destruct (ask t1 a s0) as [[b1|e] s1]; [|discriminate H]. pose proof (fun Hx => IH2 Hx s1) as H2.
      destruct k, b1; cbn in H, Hn; auto.
      + discriminate.
      + destruct (ask t2 a s1) as [[b2|e] s2]; [|discriminate H]. cbn in *. injection H as ->. destruct Hn as [Hn|Hn]; auto.
      + destruct (ask t2 a s1) as [[b2|e] s2]; [|discriminate H]. cbn in *. injection H as ->. apply H2; [apply Hn|reflexivity].
      + apply H1; [apply Hn|reflexivity].
  Qed.
End Trees.

(** ** At the events of a session *)
Lemma event_now P g w s h1 c e h2 : session P g w s -> st_hist s = h1 ++ (c, e) :: h2 -> ~ In EvLoad (map snd h1) -> e <> EvLoad -> now g w c e h2.
Proof.
  intros Hs Hh Hl He. destruct (session_always _ _ _ _ Hs) as (a & b & d & HJ & _). pose proof (j_now _ _ _ _ _ _ _ _ HJ) as H. rewrite Hh in H.
  exact (snaps_now_split _ _ _ _ _ He Hl H).
Qed.
Lemma event_fact P g w s h1 c e h2 : session P g w s -> st_hist s = h1 ++ (c, e) :: h2 -> fact sub c e h2.
Proof.
  intros Hs Hh. destruct (session_always _ _ _ _ Hs) as (a & b & d & HJ & _). pose proof (j_facts _ _ _ _ _ _ _ _ HJ) as H. rewrite Hh in H.
  exact (snaps_split _ _ _ _ _ H).
Qed.
Lemma event_log P g w s h1 c e h2 : session P g w s -> st_hist s = h1 ++ (c, e) :: h2 -> LG sub (setups h2) (accepted h2) (k_log c).
Proof. intros Hs Hh. apply (event_fact _ _ _ _ _ _ _ _ Hs Hh). Qed.
Lemma event_log_full g w s h1 c e h2 : in_step g w s -> st_hist s = h1 ++ (c, e) :: h2 -> LG eq (setups h2) (accepted h2) (k_log c).
Proof.
  intros Hs Hh. destruct (session_in_step _ _ _ Hs) as (a & b & d & HJ & _). pose proof (j_facts _ _ _ _ _ _ _ _ HJ) as H. rewrite Hh in H.
  apply (snaps_split _ _ _ _ _ H).
Qed.
(** A hunted optimizer met the condition of every member needed. *)
Lemma hunted P g w s {L} (behav : nat -> logger * nat * nat -> L -> res bool * L) tree j f h1 c b v h2 :
  session P g w s -> hunts_by behav tree w -> needs tree j -> member_is behav j f ->
  st_hist s = h1 ++ (c, EvKill (Some b) v) :: h2 -> ~ In EvLoad (map snd h1) ->
  f (k_log c) b v = Ok true /\ has_iter_history v (k_log c) = true.
Proof.
  intros Hs Hw Hn Hj Hh Hl. assert (He : EvKill (Some b) v <> EvLoad) by discriminate.
  destruct (event_now _ _ _ _ _ _ _ _ Hs Hh Hl He) as ([t Ht] & H2 & _). split; [|exact H2].
  destruct (Hw t c b v) as [st Hst]. rewrite Ht in Hst. destruct (needed behav tree j (k_log c, b, v) Hn st (eq_sym Hst)) as [p Hp]. now rewrite Hj in Hp.
Qed.
(** The judgements of a session. *)
Lemma judged P g w s kinds tree h1 c a d h2 : session P g w s -> checks_by kinds tree w ->
  st_hist s = h1 ++ (c, EvJudge a d) :: h2 -> ~ In EvLoad (map snd h1) -> forall j,
  (if a then needs tree j else suffices tree j) ->
  exists x y z p, fst (check_call (kinds j) (seen c x y z) p) = Ok a.
Proof.
  intros Hs Hw Hh Hl j Hn. assert (He : EvJudge a d <> EvLoad) by discriminate.
  destruct (event_now _ _ _ _ _ _ _ _ Hs Hh Hl He) as [t Ht]. destruct (Hw t c) as (x & y & z & st & E). rewrite Ht in E. exists x, y, z.
  destruct a.
  - exact (needed _ tree j _ Hn st (eq_sym E)).
  - exact (sufficient _ tree j _ Hn st (eq_sym E)).
Qed.

(** ** CycleSelector: its state after a number of optimizers were handed out *)
Fixpoint cycle_state (sp : spawner) (avail : list conf) (reqs : list (sview * nat)) (s : cycle) : cycle :=
  match reqs with [] => s | (v, n) :: reqs' => cycle_state sp avail reqs' (snd (cycle_select sp avail v n s)) end.
Lemma after_ok avail k s : avail <> [] -> after (length avail) k s -> cy_ok avail s.
Proof.
  intros Hne H. unfold after in H. unfold cy_ok. assert (0 < length avail) by (destruct avail; [congruence|cbn; lia]).
  destruct k; [lia|]. pose proof (Nat.mod_upper_bound k (length avail)). lia.
Qed.
Lemma after_next (avail : list conf) k s : avail <> [] -> after (length avail) k s -> Nat.modulo (Z.to_nat (cy_i s + 1)) (length avail) = Nat.modulo k (length avail).
Proof.
  intros Hne H. unfold after in H. assert (0 < length avail) by (destruct avail; [congruence|cbn; lia]). destruct k as [|k].
  - rewrite H. reflexivity.
  - rewrite H. replace (Z.to_nat (Z.of_nat (Nat.modulo k (length avail)) + 1)) with (Nat.modulo k (length avail) + 1) by lia.
    rewrite Nat.add_mod_idemp_l by lia. f_equal. lia.
Qed.
Lemma cycle_after sp avail reqs : avail <> [] -> forall s k, after (length avail) k s ->
  after (length avail) (k + length (given (cycle_run sp avail reqs s))) (cycle_state sp avail reqs s).
Proof.
  intro Hne. induction reqs as [|[v n] reqs IH]; intros s k Ha; cbn [cycle_run cycle_state]; [cbn; now rewrite Nat.add_0_r|].
  destruct (cycle_step sp avail v n s Hne (after_ok _ _ _ Hne Ha)) as [[_ E]|[_ [c [_ [[_ E]|[_ [o E]]]]]]]; rewrite E; cbn [snd].
  - now apply IH.
  - apply IH. exact Ha.
  - cbn. rewrite Nat.add_succ_r. apply (IH _ (S k)). unfold after. cbn. now rewrite (after_next avail k s Hne Ha).
Qed.

(** ** The checkers at a judgement *)
Lemma checked g w c a d h x y z k p : snap_ok g w c (EvJudge a d) h -> plain k = true ->
  exists b, fst (check_call k (seen c x y z) p) = Ok b /\ (b = true <-> due k h).
Proof.
  intros (Hf & Hv & _ & Hd & _) Hp. destruct (Hd eq_refl) as (Hb & Ho & _).
  destruct k as [n|n|n|n|t at_|? ?|? ?]; try discriminate Hp; cbn; eexists; (split; [reflexivity|]); unfold geZ.
  - rewrite Hf. apply Z.leb_le.
  - rewrite Ho. apply Z.leb_le.
  - rewrite Hv. apply Z.leb_le.
  - unfold result_best in Hb. destruct (accepted h) as [|r0 acc] eqn:E.
    { rewrite Hb. cbn. split; [discriminate|]. intros (r & [] & _). }
    destruct Hb as (o & xx & fx & ty & call & rest & Hfb & _ & _ & _ & Hfx & _). rewrite Hfx. split.
    + intro Hle. destruct Hfb as [(-> & _)|(r & _ & Hn & _ & _ & _ & Hr & _)].
      * exists r0. split; [left; reflexivity|]. right. destruct (nplus t at_); cbn in Hle; congruence.
      * exists r. split; [exact (nth_error_In _ _ Hn)|]. left. now rewrite Hr.
    + intros (r & Hi & Hr). destruct Hfb as [(-> & _ & _ & H)|(r' & _ & _ & _ & _ & _ & _ & Hlt & H & _)].
      * destruct Hr as [Hr| ->]; [|reflexivity]. specialize (H r Hi eq_refl). destruct (ir_fx r), (nplus t at_); cbn in *; congruence.
      * destruct Hr as [Hr| ->].
        -- specialize (H r Hi eq_refl). destruct (nle fx (ir_fx r)) eqn:E1; [exact (nle_trans _ _ _ E1 Hr)|].
           destruct fx, (ir_fx r); cbn in *; try discriminate; try congruence. unfold nlt in H. cbn in H. 
           destruct (nplus t at_); cbn in Hr; try discriminate; rewrite ?E1 in *; try discriminate; auto.
        -- destruct fx; cbn in *; congruence.
Qed.
Lemma kills_app h1 h2 : kills (h1 ++ h2) = kills h2 ++ kills h1.
Proof. induction h1 as [|[c e] h1 IH]; cbn; [now rewrite app_nil_r|]. destruct e; cbn; rewrite ?IH, ?app_assoc; reflexivity. Qed.
Lemma due_later k h1 h2 : due k h2 -> due k (h1 ++ h2).
Proof.
  destruct k; cbn; rewrite ?acc_app, ?setups_app, ?kills_app, ?app_length; try lia; auto.
  intros (r & Hi & H). exists r. split; [apply in_app_iff; auto|exact H].
Qed.
Lemma last_judge_at h c a d : last_judge h = Some (c, a, d) -> exists h1 h2, h = h1 ++ (c, EvJudge a d) :: h2.
Proof.
  induction h as [|[c0 e] h IH]; cbn; [discriminate|]. intro H.
  destruct e; try discriminate H; try (destruct (IH H) as (h1 & h2 & ->); eexists ((c0, _) :: h1), h2; reflexivity).
  injection H as -> -> ->. exists [], h. reflexivity.
Qed.
Lemma setup_at h i cls : In (i, cls) (setups h) -> exists h1 c h2, h = h1 ++ (c, EvSetup i cls) :: h2.
Proof.
  induction h as [|[c0 e] h IH]; cbn; [tauto|]. intro H.
  destruct e; try (destruct (IH H) as (h1 & c & h2 & ->); eexists ((c0, _) :: h1), c, h2; reflexivity).
  apply in_app_iff in H as [H|[[= -> ->]|[]]]; [destruct (IH H) as (h1 & c & h2 & ->); eexists ((c0, _) :: h1), c, h2; reflexivity|].
  exists [], c0, h. reflexivity.
Qed.
