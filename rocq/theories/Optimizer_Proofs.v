(** * Optimizers: lemmas *)
From Coq Require Import Lqa.
From Verif Require Import Prelude Prelude_Proofs Logger_Model Optimizer_Model Optimizer_Spec.

(** ** Traces *)
Lemma evaluated_app a b : evaluated (a ++ b) = evaluated a ++ evaluated b.
Proof. induction a as [|[] a IH]; cbn; rewrite ?IH; reflexivity. Qed.
Lemma reported_app a b : reported (a ++ b) = reported a ++ reported b.
Proof. induction a as [|[] a IH]; cbn; rewrite ?IH; reflexivity. Qed.
Lemma quiet_evaluated a : Forall is_quiet a -> evaluated a = [] /\ reported a = [].
Proof. induction 1 as [|x l Hx _ IH]; [auto|]. destruct x; cbn in *; tauto. Qed.

(** The state after recording [a]. *)
Definition extend (a : list act) (s : opt) : opt :=
  mkOpt (o_id s) (o_workers s) (o_detailed s) (o_restart s) (o_inc s) (o_max s) (o_used s) (o_rx s) (o_rfx s) (o_succ s) (o_stop s)
    (o_ev s) (o_gate s) (o_calls s + length (evaluated a)) (o_tr s ++ a).

(** ** The wrapper *)
Lemma use_spec t c s : exists a, snd (use t c s) = extend a s /\ faithful t (o_id s) (o_calls s) (o_detailed s) c (fst (use t c s)) a.
Proof.
  destruct c as [det x]. destruct s as [id w d rs inc mx us rx rfx su st ev ga k tr].
  unfold use, wdetailed, wcall, calculate, bind, faithful, ret, raise, extend, log, set_calls; cbn.
  destruct d, det; cbn; destruct (t_det t) as [dt|]; cbn;
    try (destruct (dt k x) as [[|fx ex]|e]); try (destruct (t_call t k x)); cbn; try (destruct (q_full t k)); cbn;
    eexists; apply and_comm; (split; [split; reflexivity|]); cbn; rewrite <- ?app_assoc, ?app_nil_r; f_equal; lia.
Qed.
Lemma uses_spec t cs : forall s, let (rs, s') := uses t cs s in
  exists a, s' = extend a s /\ faithfuls t (o_id s) (o_calls s) (o_detailed s) cs rs a.
Proof.
  induction cs as [|c cs IH]; intro s; cbn [uses].
  - exists []. split; [destruct s; unfold extend; cbn; rewrite app_nil_r, Nat.add_0_r; reflexivity| reflexivity].
  - destruct (use_spec t c s) as [a [E H]]. destruct (use t c s) as [r s1]. cbn in E, H. specialize (IH s1). destruct (uses t cs s1) as [rs s2].
    destruct IH as [b [E2 H2]]. subst s1. exists (a ++ b). split.
    + subst s2. unfold extend. cbn. rewrite evaluated_app, app_length, app_assoc. f_equal. lia.
    + exists a, b. splits; auto.
Qed.

(** ** Reading messages *)
(** What reading messages may change. *)
Record calm (s s' : opt) : Prop := mkCalm {
  ca_id : o_id s' = o_id s; ca_w : o_workers s' = o_workers s; ca_det : o_detailed s' = o_detailed s; ca_res : o_restart s' = o_restart s;
  ca_max : o_max s' = o_max s; ca_used : o_used s' = o_used s; ca_rx : o_rx s' = o_rx s; ca_rfx : o_rfx s' = o_rfx s;
  ca_succ : o_succ s' = o_succ s; ca_calls : o_calls s' = o_calls s; ca_stop : o_stop s = true -> o_stop s' = true;
  ca_tr : exists a, o_tr s' = o_tr s ++ a /\ Forall is_quiet a /\ (In AStop a -> o_stop s' = true) /\
    (forall p n, In (ASave p n) a -> n_max n = o_max s /\ n_used n = o_used s /\ n_rx n = o_rx s /\ n_rfx n = o_rfx s) }.
Lemma calm_refl s : calm s s.
Proof. split; auto. exists []. rewrite app_nil_r. splits; auto; contradiction. Qed.
Lemma calm_trans a b c : calm a b -> calm b c -> calm a c.
Proof.
  intros H1 H2. destruct H1 as [A1 A2 A3 A4 A5 A6 A7 A8 A9 A10 A11 [ta [Ta [Qa [Sa Na]]]]]. destruct H2 as [B1 B2 B3 B4 B5 B6 B7 B8 B9 B10 B11 [tb [Tb [Qb [Sb Nb]]]]].
  split; try congruence; auto. exists (ta ++ tb). splits.
  - rewrite Tb, Ta, app_assoc. reflexivity.
  - apply Forall_app. auto.
  - intro H. apply in_app_or in H. destruct H; auto.
  - intros p n H. apply in_app_or in H. destruct H as [H|H]; [eauto|]. destruct (Nb p n H) as [N1 [N2 [N3 N4]]]. splits; congruence.
Qed.
Definition tame {A} (m : M opt A) : Prop := forall s, calm s (snd (m s)).
Lemma tame_ret {A} (a : A) : tame (ret a).
Proof. intro s. apply calm_refl. Qed.
Lemma tame_raise {A} e : tame (@raise opt A e).
Proof. intro s. apply calm_refl. Qed.
Lemma tame_bind {A B} (m : M opt A) (f : A -> M opt B) : tame m -> (forall a, tame (f a)) -> tame (bind m f).
Proof.
  intros H1 H2 s. unfold bind. specialize (H1 s). destruct (m s) as [[a|e] s1]; cbn in *; [|exact H1]. eapply calm_trans; [exact H1| apply H2].
Qed.
Lemma tame_act a : is_quiet a -> a <> AStop -> (forall p n, a <> ASave p n) -> tame (act_ a).
Proof.
  intros Hq Hs Hn s. split; auto. cbn. exists [a]. splits; auto.
  - intros [H|[]]. congruence. - intros p n [H|[]]. exfalso. eapply Hn. exact H.
Qed.
Lemma tame_ev s l : calm s (set_ev l s).
Proof. split; auto. exists []. cbn. rewrite app_nil_r. splits; auto; contradiction. Qed.
Lemma tame_gate : tame wait_gate.
Proof. intro s. unfold wait_gate. destruct (o_gate s) as [|[] g]; cbn; try apply calm_refl; (split; auto; exists []; cbn; rewrite app_nil_r; splits; auto; contradiction). Qed.
Lemma tame_all fuel : (forall acc, tame (check fuel acc)) /\ (forall key args, tame (execute fuel key args)) /\ (forall p, tame (prepare fuel p)).
Proof.
  induction fuel as [|k [IHc [IHe IHp]]]; [splits; intros; apply tame_raise|]. splits.
  - intros acc s. cbn [check]. destruct (o_ev s) as [|[|m|] r]; try apply calm_refl; [apply tame_ev|].
    eapply calm_trans; [apply tame_ev|]. destruct m as [key|key args| |]; try apply tame_raise; try apply IHc; destruct (Nat.ltb key 5); try apply IHc; apply tame_bind; auto.
  - intros key args. cbn [execute]. destruct key as [|[|[|[|[|key]]]]]; destruct args as [|p [|q [|z args]]]; try apply tame_raise; try apply tame_ret.
    1-2: intro s; split; auto; exists [ASave p (snap s)]; cbn; (splits; [reflexivity| repeat constructor| intros [H|[]]; discriminate| intros p' n [[= <- <-]|[]]; auto]).
    1-2: intro s; split; auto; exists [AStop]; cbn; (splits; [reflexivity| repeat constructor| auto| intros p' n [H|[]]; discriminate]).
    + apply tame_bind; [apply tame_act; cbn; auto; discriminate| intros _; apply IHp].
    + intro s. split; auto. exists []. cbn. rewrite app_nil_r. splits; auto; contradiction.
  - intro p. cbn [prepare]. destruct (negb (nmem 0 p) && negb (nmem 3 p)).
    + intro s. destruct (drop_silent (o_ev s)) as [|x l]; [apply tame_ev|]. eapply calm_trans; [apply tame_ev|]. apply tame_bind; auto.
    + apply tame_bind; [apply tame_act; cbn; auto; discriminate|]. intros _. apply tame_bind; [apply tame_gate|]. intros _. apply tame_act; cbn; auto; discriminate.
Qed.
Lemma tame_check : tame check_messages.
Proof. intro s. unfold check_messages. apply tame_all. Qed.

(** *** Termination *)
Definition arrivals (l : list event) : nat := length l.
Definition fed {A} (n : nat) (m : M opt A) : Prop := forall s, length (o_ev s) <= n -> fst (m s) <> Err OutOfFuel.
Lemma drop_silent_length l : length (drop_silent l) <= length l.
Proof. induction l as [|[] l IH]; cbn; lia. Qed.
Lemma ev_shrinks fuel : (forall acc s, length (o_ev (snd (check fuel acc s))) <= length (o_ev s)) /\
  (forall key args s, length (o_ev (snd (execute fuel key args s))) <= length (o_ev s)) /\ (forall p s, length (o_ev (snd (prepare fuel p s))) <= length (o_ev s)).
Proof.
  assert (Hb : forall A B (m : M opt A) (f : A -> M opt B), (forall s, length (o_ev (snd (m s))) <= length (o_ev s)) ->
    (forall a s, length (o_ev (snd (f a s))) <= length (o_ev s)) -> forall s, length (o_ev (snd (bind m f s))) <= length (o_ev s)).
  { intros A B m f H1 H2 s. unfold bind. specialize (H1 s). destruct (m s) as [[a|e] s1]; cbn in *; [|exact H1]. specialize (H2 a s1). lia. }
  induction fuel as [|k [IHc [IHe IHp]]]; [splits; intros; reflexivity|]. splits.
  - intros acc s. cbn [check]. destruct (o_ev s) as [|[|m|] r] eqn:E; cbn [snd]; rewrite ?E; cbn; try lia.
    assert (G : forall m : M opt (list nat), (forall s, length (o_ev (snd (m s))) <= length (o_ev s)) -> length (o_ev (snd (m (set_ev r s)))) <= S (length r)).
    { intros m0 H. specialize (H (set_ev r s)). cbn in H. lia. }
    apply G. destruct m as [key|key args| |]; try (intro; cbn; lia); try apply IHc; destruct (key <=? 4); try apply IHc; apply Hb; auto.
  - intros key args. cbn [execute]. destruct key as [|[|[|[|[|key]]]]]; destruct args as [|p [|q [|z args]]]; intro s; try (cbn; lia).
    revert s. apply Hb; [intro; cbn; lia| intros _; apply IHp].
  - intros p s. cbn [prepare]. destruct (negb (nmem 0 p) && negb (nmem 3 p)).
    + pose proof (drop_silent_length (o_ev s)) as Hl. destruct (drop_silent (o_ev s)) as [|x l]; [cbn; lia|].
      eapply Nat.le_trans; [apply (Hb _ _ (check k []) (fun p => prepare k p)); auto| exact Hl].
    + unfold bind, act_, modify, wait_gate. cbn. destruct (o_gate s) as [|[] g]; cbn; lia.
Qed.
Lemma check_consumes k acc s x l : o_ev s = Arrives x :: l -> length (o_ev (snd (check (S k) acc s))) <= length l.
Proof.
  intro E. cbn [check]. rewrite E.
  destruct (ev_shrinks k) as [Hc [He _]].
  assert (Hx : forall key args, length (o_ev (snd ((execute k key args ;;; check k (acc ++ [key])) (set_ev l s)))) <= length l).
  { intros key args. unfold bind. specialize (He key args (set_ev l s)). cbn in He. destruct (execute k key args (set_ev l s)) as [[a|e] s1]; cbn in *; [|exact He].
    specialize (Hc (acc ++ [key]) s1). lia. }
  destruct x as [key|key args| |]; try (cbn; lia); try (destruct (Nat.ltb key 5)); auto; specialize (Hc acc (set_ev l s)); cbn in Hc; lia.
Qed.
Lemma fuel_enough fuel : (forall acc s, 3 * length (o_ev s) + 1 <= fuel -> fst (check fuel acc s) <> Err OutOfFuel) /\
  (forall key args s, 3 * length (o_ev s) + 3 <= fuel -> fst (execute fuel key args s) <> Err OutOfFuel) /\
  (forall p s, 3 * length (o_ev s) + 2 <= fuel -> fst (prepare fuel p s) <> Err OutOfFuel).
Proof.
  induction fuel as [|k [IHc [IHe IHp]]]; [splits; intros; lia|]. destruct (ev_shrinks k) as [Sc [Se Sp]]. splits.
  - intros acc s H. cbn [check]. destruct (o_ev s) as [|[|m|] r] eqn:E; cbn [fst]; try discriminate. cbn [length] in H.
    assert (Hx : forall key args, fst ((execute k key args ;;; check k (acc ++ [key])) (set_ev r s)) <> Err OutOfFuel).
    { intros key args. unfold bind. specialize (IHe key args (set_ev r s)). specialize (Se key args (set_ev r s)). cbn [o_ev set_ev] in IHe, Se.
      destruct (execute k key args (set_ev r s)) as [[a|e] s1]; cbn [fst snd] in *; [apply IHc; lia|]. intros [= ->]. apply IHe; [lia| reflexivity]. }
    assert (Hc : fst (check k acc (set_ev r s)) <> Err OutOfFuel) by (apply IHc; cbn; lia).
    destruct m as [key|key args| |]; try (cbn; discriminate); try (destruct (Nat.ltb key 5)); auto.
  - intros key args s H. cbn [execute]. destruct key as [|[|[|[|[|key]]]]]; destruct args as [|p [|q [|z args]]]; try (cbn; discriminate).
    unfold bind, act_, modify. cbn [fst]. apply IHp. cbn. lia.
  - intros p s H. cbn [prepare]. destruct (negb (nmem 0 p) && negb (nmem 3 p)).
    + pose proof (drop_silent_length (o_ev s)) as Hl. destruct (drop_silent (o_ev s)) as [|x l] eqn:Ed; [cbn; discriminate|]. unfold bind.
      assert (Hc : fst (check k [] (set_ev (x :: l) s)) <> Err OutOfFuel) by (apply IHc; cbn [o_ev set_ev]; cbn [length] in *; lia).
      destruct x as [|m|].
      { exfalso. clear -Ed. induction (o_ev s) as [|[] l0 IH]; cbn in Ed; try discriminate; auto. }
      2:{ destruct k; [cbn in *; lia|]. cbn. discriminate. }
      destruct k as [|k]; [cbn [length] in *; lia|].
      pose proof (check_consumes k [] (set_ev (Arrives m :: l) s) m l eq_refl) as Hn.
      destruct (check (S k) [] (set_ev (Arrives m :: l) s)) as [[a|e] s1]; cbn [fst snd] in *; [|congruence]. apply IHp. cbn [length] in *. lia.
    + unfold bind, act_, modify, wait_gate. cbn. destruct (o_gate s) as [|[] g]; cbn; discriminate.
Qed.
Lemma check_ends s : fst (check_messages s) <> Err OutOfFuel.
Proof. apply fuel_enough. lia. Qed.

(** ** Splitting traces *)
Lemma app_split {A} (a b pre post : list A) x : a ++ b = pre ++ x :: post ->
  (exists post1, a = pre ++ x :: post1 /\ post = post1 ++ b) \/ (exists pre2, b = pre2 ++ x :: post /\ pre = a ++ pre2).
Proof.
  revert pre. induction a as [|y a IH]; intros pre H; [right; exists pre; auto|].
  destruct pre as [|z pre]; cbn in H; injection H as <- H.
  - left. exists a. auto.
  - destruct (IH _ H) as [[p1 [-> ->]]|[p2 [-> ->]]]; [left; exists p1; auto| right; exists p2; auto].
Qed.
(** Every report of being paused is followed by a release. *)
Definition closed (a : list act) : Prop := forall pre post, a = pre ++ ASend 1 :: post -> In ARelease post.
Lemma closed_nil : closed [].
Proof. intros [|? ?] post H; discriminate. Qed.
Lemma closed_app a b : closed a -> closed b -> closed (a ++ b).
Proof. intros Ha Hb pre post H. apply app_split in H as [[p1 [E1 ->]]|[p2 [E1 ->]]]; [apply in_or_app; left; eapply Ha; exact E1| eapply Hb; exact E1]. Qed.
Lemma closed_one x : x <> ASend 1 -> closed [x].
Proof. intros Hx pre post H. destruct pre as [|y pre]; cbn in H; [congruence| destruct pre; discriminate]. Qed.
Definition closing {A} (m : M opt A) : Prop := forall s v s', m s = (Ok v, s') -> exists a, o_tr s' = o_tr s ++ a /\ closed a.
Lemma closing_ret {A} (v : A) : closing (ret v).
Proof. intros s w s' [= <- <-]. exists []. rewrite app_nil_r. split; [reflexivity| apply closed_nil]. Qed.
Lemma closing_raise {A} e : closing (@raise opt A e).
Proof. intros s w s' H. discriminate. Qed.
Lemma closing_bind {A B} (m : M opt A) (f : A -> M opt B) : closing m -> (forall a, closing (f a)) -> closing (bind m f).
Proof.
  intros H1 H2 s v s' H. unfold bind in H. destruct (m s) as [[a|e] s1] eqn:E; [|discriminate].
  destruct (H1 _ _ _ E) as [x [Ex Cx]]. destruct (H2 a _ _ _ H) as [y [Ey Cy]]. exists (x ++ y). rewrite Ey, Ex, app_assoc. split; [reflexivity| apply closed_app; assumption].
Qed.
Lemma closing_act x : x <> ASend 1 -> closing (act_ x).
Proof. intros Hx s v s' [= <- <-]. exists [x]. split; [reflexivity| apply closed_one, Hx]. Qed.
Lemma closing_same {A} (m : M opt A) : (forall s, o_tr (snd (m s)) = o_tr s) -> closing m.
Proof. intros H s v s' E. exists []. specialize (H s). rewrite E in H. cbn in H. rewrite app_nil_r. split; [exact H| apply closed_nil]. Qed.
Lemma closing_gate : closing wait_gate.
Proof. apply closing_same. intro s. unfold wait_gate. destruct (o_gate s) as [|[] g]; reflexivity. Qed.
Lemma closing_all fuel : (forall acc, closing (check fuel acc)) /\ (forall key args, closing (execute fuel key args)) /\
  (forall p, closing (prepare fuel p)) /\
  (forall p s v s', prepare fuel p s = (Ok v, s') -> exists a, o_tr s' = o_tr s ++ a /\ In ARelease a).
Proof.
  induction fuel as [|k [IHc [IHe [IHp IHr]]]]; [splits; intros; try apply closing_raise; discriminate|]. splits.
  - intros acc s v s' H. cbn [check] in H. destruct (o_ev s) as [|[|m|] r]; try discriminate.
    + injection H as <- <-. exists []. rewrite app_nil_r. split; [reflexivity| apply closed_nil].
    + injection H as <- <-. exists []. rewrite app_nil_r. split; [reflexivity| apply closed_nil].
    + change (o_tr s) with (o_tr (set_ev r s)). revert H. generalize (set_ev r s). revert v s'.
      match goal with |- forall v s' o, ?m o = _ -> _ => cut (closing m); [intros Hm v s' o; apply Hm|] end.
      destruct m as [key|key args| |]; try apply closing_raise; try apply IHc; destruct (Nat.ltb key 5); try apply IHc; apply closing_bind; auto.
  - intros key args. cbn [execute]. destruct key as [|[|[|[|[|key]]]]]; destruct args as [|p [|q [|z args]]]; try apply closing_raise; try apply closing_ret.
    1-2: intros s v s' [= <- <-]; exists [ASave p (snap s)]; split; [reflexivity| apply closed_one; discriminate].
    1-2: apply closing_bind; [apply closing_act; discriminate| intros _; apply closing_same; reflexivity].
    + intros s v s' H. unfold bind, act_, modify in H. destruct (IHp [] _ _ _ H) as [a [Ea Ca]]. destruct (IHr [] _ _ _ H) as [a' [Ea' Ra]].
      assert (a' = a) as -> by (eapply app_inv_head; rewrite <- Ea; symmetry; exact Ea'). exists (ASend 1 :: a). cbn in Ea. rewrite <- app_assoc in Ea. split; [exact Ea|].
      intros pre post Hp. destruct pre as [|y pre]; cbn in Hp; [injection Hp as <-; exact Ra| injection Hp as _ Hp; eapply Ca; exact Hp].
    + apply closing_same. reflexivity.
  - intros p. cbn [prepare]. destruct (negb (nmem 0 p) && negb (nmem 3 p)).
    + intros s v s' H. destruct (drop_silent (o_ev s)) as [|x l]; [discriminate|].
      change (o_tr s) with (o_tr (set_ev (x :: l) s)). revert H. apply (closing_bind (check k []) (fun p => prepare k p)); auto.
    + apply closing_bind; [apply closing_act; discriminate|]. intros _. apply closing_bind; [apply closing_gate|]. intros _. apply closing_act; discriminate.
  - intros p s v s' H. cbn [prepare] in H. destruct (negb (nmem 0 p) && negb (nmem 3 p)).
    + destruct (drop_silent (o_ev s)) as [|x l]; [discriminate|]. unfold bind in H.
      destruct (check k [] (set_ev (x :: l) s)) as [[a|e] s1] eqn:E; [|discriminate]. destruct (IHc [] _ _ _ E) as [y [Ey _]]. destruct (IHr _ _ _ _ H) as [b [Eb Rb]].
      exists (y ++ b). rewrite Eb, Ey. cbn. rewrite app_assoc. split; [reflexivity| apply in_or_app; auto].
    + unfold bind, act_, modify, wait_gate in H. cbn in H. destruct (o_gate s) as [|[] g]; try discriminate; injection H as <- <-; cbn;
        rewrite <- app_assoc; (exists [AClear; ARelease]; split; [reflexivity| cbn; auto]).
Qed.
Lemma closing_check : closing check_messages.
Proof. intros s v s' H. unfold check_messages in H. destruct (closing_all (4 + 3 * length (o_ev s))) as [Hc _]. eapply Hc. exact H. Qed.

(** ** RandomOptimizer *)
Lemma point_inside u bounds : (forall j, 0 <= u j < 1)%Q -> (forall b, In b bounds -> fst b <= snd b)%Q -> inside bounds (point u bounds).
Proof.
  intros Hu Hb. unfold inside, point. generalize 0%nat as j. induction bounds as [|[lo hi] bs IH]; intro j; cbn; constructor.
  - cbn. exists (lo + (hi - lo) * u j)%Q. split; [reflexivity|]. specialize (Hu j). assert (lo <= hi)%Q by (apply (Hb (lo, hi)); left; reflexivity). nra.
  - apply IH. intros b H. apply Hb. right. exact H.
Qed.
Lemma best_nil : best_of [] None PInf.
Proof. split; [intros x f []| reflexivity]. Qed.
Lemma best_snoc_new l rx rfx x f : best_of l rx rfx -> nlt f rfx = true -> best_of (l ++ [(x, f)]) (Some x) f.
Proof.
  intros [H1 H2] Hl. split.
  - intros y g H. apply in_app_or in H. destruct H as [H|[[= <- <-]|[]]]; [|apply nlt_irrefl]. specialize (H1 _ _ H).
    destruct (nlt g f) eqn:E; [|reflexivity]. rewrite (nlt_trans _ _ _ E Hl) in H1. discriminate.
  - split; [apply in_or_app; right; left; reflexivity|]. destruct rx as [x0|]; [eapply nlt_trans; [exact Hl| apply H2]| subst; exact Hl].
Qed.
Lemma best_snoc_old l rx rfx x f : best_of l rx rfx -> nlt f rfx = false -> best_of (l ++ [(x, f)]) rx rfx.
Proof.
  intros [H1 H2] Hl. split.
  - intros y g H. apply in_app_or in H. destruct H as [H|[[= <- <-]|[]]]; [eauto| exact Hl].
  - destruct rx as [x0|]; [|exact H2]. destruct H2. split; [apply in_or_app; auto| assumption].
Qed.

(** The record [a] of a part of a run, with the evaluations [l] before it. *)
Record part (e : setup) (l : list (list num * num)) (s s' : opt) (a : list act) (ok : bool) : Prop := mkPart {
  pa_tr : o_tr s' = o_tr s ++ a;
  pa_id : o_id s' = o_id s; pa_max : o_max s' = o_max s; pa_det : o_detailed s' = o_detailed s;
  pa_used : o_used s' = o_used s + length (evaluated a);
  pa_calls : o_calls s' = o_calls s + length (evaluated a);
  pa_in : Forall (inside (e_bounds e)) (evaluated a);
  pa_best : exists z t, reported a = z ++ t /\ length t <= 1 /\ (ok = true -> t = []) /\ best_of (l ++ z) (o_rx s') (o_rfx s');
  pa_rep : exists z, evaluated a = map fst (reported a) ++ z /\ length z <= 1 /\ (ok = true -> z = []);
  pa_stop : forall pre post, a = pre ++ AStop :: post -> evaluated post = [];
  pa_stop0 : o_stop s = true \/ In AStop a -> o_stop s' = true;
  pa_stop1 : o_stop s = true -> evaluated a = [];
  pa_pause : forall pre post, a = pre ++ ASend 1 :: post -> evaluated post <> [] -> exists q w, post = q ++ ARelease :: w /\ evaluated q = [];
  pa_closed : ok = true -> closed a;
  pa_save : forall p n pre post, a = pre ++ ASave p n :: post -> n_max n = o_max s /\ n_used n = o_used s + length (evaluated pre) /\
     exists z t, reported pre = z ++ t /\ length t <= 1 /\ best_of (l ++ z) (n_rx n) (n_rfx n) }.
Lemma part_app e l s s1 s2 a b ok : part e l s s1 a true -> part e (l ++ reported a) s1 s2 b ok -> part e l s s2 (a ++ b) ok.
Proof.
  intros A B. destruct A as [A1 A2 A3 A4 A5 A6 A7 [za [ta [A8 [_ [A8' A8'']]]]] [wa [A9 [_ A9']]] A10 A11 A12 A13 A14 A15].
  destruct B as [B1 B2 B3 B4 B5 B6 B7 [zb [tb [B8 [B8l [B8' B8'']]]]] [wb [B9 [B9l B9']]] B10 B11 B12 B13 B14 B15].
  rewrite (A8' eq_refl), app_nil_r in A8. rewrite (A9' eq_refl), app_nil_r in A9.
  split; try congruence.
  - rewrite B1, A1, app_assoc. reflexivity.
  - rewrite evaluated_app, app_length. lia.
  - rewrite evaluated_app, app_length. lia.
  - rewrite evaluated_app. apply Forall_app. auto.
  - exists (reported a ++ zb), tb. rewrite reported_app, B8, app_assoc. splits; auto. rewrite app_assoc. exact B8''.
  - exists wb. rewrite evaluated_app, reported_app, map_app, A9, B9, app_assoc. splits; auto.
  - intros pre post H. apply app_split in H as [[p1 [E1 ->]]|[p2 [E1 ->]]].
    + rewrite evaluated_app, (A10 _ _ E1). apply B12, A11. right. rewrite E1. apply in_or_app. right. left. reflexivity.
    + eapply B10. exact E1.
  - intros [H|H]; [apply B11; left; apply A11; auto|]. apply in_app_or in H. destruct H as [H|H]; apply B11; auto.
  - intro H. rewrite evaluated_app, (A12 H). apply B12, A11. auto.
  - intros pre post H Hne. apply app_split in H as [[p1 [E1 ->]]|[p2 [E1 ->]]]; [|eapply B13; eassumption].
    destruct (evaluated p1) as [|x ev] eqn:Ev.
    + destruct (in_split _ _ (A14 eq_refl _ _ E1)) as [q [w ->]]. exists q, (w ++ b). rewrite <- app_assoc. split; [reflexivity|].
      rewrite evaluated_app in Ev. apply app_eq_nil in Ev. apply Ev.
    + destruct (A13 _ _ E1) as [q [w [-> Eq]]]; [congruence|]. exists q, (w ++ b). rewrite <- app_assoc. auto.
  - intro H. apply closed_app; auto.
  - intros p n pre post H. apply app_split in H as [[p1 [E1 ->]]|[p2 [E1 ->]]]; [eapply A15; exact E1|].
    destruct (B15 _ _ _ _ E1) as [C1 [C2 [z [t [C3 [C4 C5]]]]]]. splits; [congruence| rewrite evaluated_app, app_length; lia|].
    exists (reported a ++ z), t. rewrite reported_app, C3, app_assoc. splits; auto. rewrite app_assoc. exact C5.
Qed.
Lemma part_nil e l s s' : o_tr s' = o_tr s -> o_id s' = o_id s -> o_max s' = o_max s -> o_detailed s' = o_detailed s -> o_used s' = o_used s ->
  o_calls s' = o_calls s -> o_stop s' = o_stop s -> o_rx s' = o_rx s -> o_rfx s' = o_rfx s -> best_of l (o_rx s) (o_rfx s) -> forall ok, part e l s s' [] ok.
Proof.
  intros E1 E2 E3 E4 E5 E6 E7 E8 E9 H ok. split; auto; cbn; try (intros; destruct pre; discriminate); try lia.
  - rewrite app_nil_r. exact E1.
  - constructor.
  - exists [], []. rewrite E8, E9. cbn. splits; auto. rewrite app_nil_r. exact H.
  - exists []. cbn. splits; auto.
  - rewrite E7. tauto.
  - intros _. apply closed_nil.
Qed.
(** Reading messages is a part. *)
Lemma part_quiet e l s s' : calm s s' -> forall ok, best_of l (o_rx s) (o_rfx s) ->
  (ok = true -> exists a, o_tr s' = o_tr s ++ a /\ closed a) -> exists a, part e l s s' a ok.
Proof.
  intros [C1 C2 C3 C4 C5 C6 C7 C8 C9 C10 C11 [a [C12 [C13 [C14 C15]]]]] ok Hb Hc. exists a.
  destruct (quiet_evaluated a C13) as [E1 E2].
  assert (Hsub : forall pre post x, a = pre ++ x :: post -> evaluated pre = [] /\ reported pre = [] /\ evaluated post = []).
  { intros pre post x ->. apply Forall_app in C13 as [Ha Hb']. inversion Hb' as [|? ? _ Hb2]; subst. destruct (quiet_evaluated _ Ha). destruct (quiet_evaluated _ Hb2). auto. }
  split; auto; rewrite ?E1, ?E2; cbn; try lia; auto.
  - exists [], []. rewrite C7, C8. cbn. splits; auto. rewrite app_nil_r. exact Hb.
  - exists []. splits; auto.
  - intros pre post H. eapply Hsub. exact H.
  - intros [H|H]; auto.
  - intros pre post H Hne. exfalso. apply Hne. eapply Hsub. exact H.
  - intro Ho. destruct (Hc Ho) as [a' [Ha' Hc']]. rewrite C12 in Ha'. apply app_inv_head in Ha'. subst. exact Hc'.
  - intros p n pre post H. destruct (C15 p n) as [N1 [N2 [N3 N4]]]; [rewrite H; apply in_or_app; right; left; reflexivity|].
    destruct (Hsub _ _ _ H) as [F1 [F2 _]]. rewrite F1, F2. cbn. splits; [exact N1| lia|]. exists [], []. rewrite N3, N4. cbn. splits; auto. rewrite app_nil_r. exact Hb.
Qed.
Definition updated (x : list num) (fx : num) (s : opt) : opt := if nlt fx (o_rfx s) then set_result (Some x) fx s else s.
Lemma updated_same x fx s : let s' := updated x fx s in o_tr s' = o_tr s /\ o_id s' = o_id s /\ o_max s' = o_max s /\ o_detailed s' = o_detailed s /\
  o_used s' = o_used s /\ o_calls s' = o_calls s /\ o_stop s' = o_stop s /\ o_restart s' = o_restart s.
Proof. unfold updated. destruct (nlt fx (o_rfx s)); cbn; splits; reflexivity. Qed.
Lemma part_body e l s d x r s2 s' a0 ok : o_stop s = false -> best_of l (o_rx s) (o_rfx s) -> inside (e_bounds e) x -> ir_x r = x ->
  a0 = [AEval d x; AReport r] ->
  calm (set_used (S (o_used s)) (extend a0 s)) s2 -> (ok = true -> exists a, o_tr s2 = o_tr s ++ a0 ++ a /\ closed a) ->
  s' = (if ok then updated x (ir_fx r) s2 else s2) -> exists a, part e l s s' (a0 ++ a) ok.
Proof.
  intros Hst Hb Hx Hr Ha0 [C1 C2 C3 C4 C5 C6 C7 C8 C9 C10 C11 [a [C12 [C13 [C14 C15]]]]] Hc Hs'. exists a.
  cbn [o_id o_detailed o_max o_used o_rx o_rfx o_stop o_tr o_calls extend set_used] in *.
  destruct (quiet_evaluated a C13) as [E1 E2].
  assert (Hsub : forall pre post y, a = pre ++ y :: post -> evaluated pre = [] /\ reported pre = [] /\ evaluated post = []).
  { intros pre post y ->. apply Forall_app in C13 as [Ha Hb']. inversion Hb' as [|? ? _ Hb2]; subst. destruct (quiet_evaluated _ Ha). destruct (quiet_evaluated _ Hb2). auto. }
  assert (Hsub0 : forall y pre post, (match y with AEval _ _ | AReport _ => False | _ => True end) -> a0 ++ a = pre ++ y :: post ->
            exists pre', pre = a0 ++ pre' /\ a = pre' ++ y :: post).
  { intros y pre post Hy H. apply app_split in H as [[p1 [H1 _]]|[p2 [H1 H2]]]; [|eauto]. exfalso. subst a0.
    destruct pre as [|z [|w [|]]]; cbn in H1; injection H1 as ? ?; subst; try exact Hy; discriminate. }
  assert (Ev : evaluated (a0 ++ a) = [x]) by (rewrite evaluated_app, E1; subst a0; reflexivity).
  assert (Er : reported (a0 ++ a) = [(x, ir_fx r)]) by (rewrite reported_app, E2; subst a0; cbn; rewrite Hr; reflexivity).
  assert (Hlen : length (evaluated a0) = 1) by (subst a0; reflexivity). rewrite Hlen in *.
  assert (Hsame : o_tr s' = o_tr s2 /\ o_id s' = o_id s2 /\ o_max s' = o_max s2 /\ o_detailed s' = o_detailed s2 /\ o_used s' = o_used s2 /\ o_calls s' = o_calls s2 /\ o_stop s' = o_stop s2).
  { subst s'. destruct ok; [|splits; reflexivity]. destruct (updated_same x (ir_fx r) s2) as [U1 [U2 [U3 [U4 [U5 [U6 [U7 _]]]]]]]. splits; assumption. }
  destruct Hsame as [S1 [S2 [S3 [S4 [S5 [S6 S7]]]]]].
  split; rewrite ?Ev, ?Er, ?S1, ?S2, ?S3, ?S4, ?S5, ?S6, ?S7; try congruence.
  - rewrite C12, app_assoc. reflexivity.
  - cbn. lia.
  - cbn. lia.
  - repeat constructor. exact Hx.
  - destruct ok.
    + exists [(x, ir_fx r)], []. splits; auto. rewrite Hs'. unfold updated. rewrite C8. destruct (nlt (ir_fx r) (o_rfx s)) eqn:En; cbn.
      * eapply best_snoc_new; eassumption.
      * rewrite C7, C8. apply best_snoc_old; assumption.
    + exists [], [(x, ir_fx r)]. splits; auto; [discriminate|]. rewrite app_nil_r, Hs', C7, C8. exact Hb.
  - exists []. splits; auto.
  - intros pre post H. destruct (Hsub0 AStop pre post I H) as [pre' [_ H']]. eapply Hsub. exact H'.
  - intros [H|H]; [congruence|]. apply in_app_or in H. destruct H as [H|H]; [subst a0; destruct H as [H|[H|[]]]; discriminate| auto].
  - intros pre post H Hne. exfalso. destruct (Hsub0 (ASend 1) pre post I H) as [pre' [_ H']]. apply Hne. eapply Hsub. exact H'.
  - intro Ho. destruct (Hc Ho) as [b [Hb1 Hb2]]. rewrite C12, <- app_assoc in Hb1. apply app_inv_head in Hb1. apply app_inv_head in Hb1. subst b. apply closed_app; [|exact Hb2].
    subst a0. intros pre post H. destruct pre as [|z [|w [|]]]; cbn in H; discriminate.
  - intros p n pre post H. destruct (Hsub0 (ASave p n) pre post I H) as [pre' [-> H']].
    destruct (C15 p n) as [N1 [N2 [N3 N4]]]; [rewrite H'; apply in_or_app; right; left; reflexivity|]. destruct (Hsub _ _ _ H') as [F1 [F2 _]].
    rewrite evaluated_app, reported_app, F1, F2, app_nil_r, app_nil_r, Hlen. splits; [exact N1| lia|].
    exists [], (reported a0). splits; [reflexivity| subst a0; cbn; lia|]. rewrite app_nil_r, N3, N4. exact Hb.
Qed.
(** The evaluation fails. *)
Lemma part_fail e l s x a s' : o_stop s = false -> best_of l (o_rx s) (o_rfx s) -> inside (e_bounds e) x ->
  ((exists d, a = [AEval d x]) \/ (exists d r, a = [AEval d x; ARefused r])) -> s' = set_used (S (o_used s)) (extend a s) -> part e l s s' a false.
Proof.
  intros Hst Hb Hx Ha ->. assert (Ev : evaluated a = [x] /\ reported a = [] /\ forall y pre post, a = pre ++ y :: post -> match y with AEval _ _ | ARefused _ => True | _ => False end).
  { destruct Ha as [[d ->]|[d [r ->]]]; splits; auto; intros y pre post H; destruct pre as [|z [|w pre]]; cbn in H; injection H as; subst; try exact I; try (destruct pre; discriminate); discriminate. }
  destruct Ev as [Ev [Er Hsub]]. split; cbn; rewrite ?Ev, ?Er; auto; try discriminate.
  - cbn. lia.
  - exists [], []. cbn. splits; auto. rewrite app_nil_r. exact Hb.
  - exists [x]. cbn. splits; auto. discriminate.
  - intros pre post H. destruct (Hsub _ _ _ H).
  - intros [H|H]; [congruence|]. apply in_split in H as [p [q H]]. destruct (Hsub _ _ _ H).
  - congruence.
  - intros pre post H. destruct (Hsub _ _ _ H).
  - intros p n pre post H. destruct (Hsub _ _ _ H).
Qed.
Definition good_setup (e : setup) : Prop :=
  (forall k j, 0 <= e_rand e k j < 1)%Q /\ (forall b, In b (e_bounds e) -> fst b <= snd b)%Q.
Definition wrapped (e : setup) (s : opt) : Prop := o_detailed s = true -> t_det (e_task e) <> None.

(** After the evaluation: callbacks, messages, the pause. *)
Definition after (e : setup) : M opt unit :=
  match e_callbacks e with
  | None => ret tt
  | Some cb => fun s => match cb (o_calls s) with
                        | Err x => (Err x, s)
                        | Ok true => (Ok tt, set_stop true (log AStop s))
                        | Ok false => (Ok tt, s)
                        end
  end ;;; when (e_queue e) (check_messages ;;; wait_gate).
Lemma tame_after e : tame (after e).
Proof.
  apply tame_bind.
  - destruct (e_callbacks e) as [cb|]; [|apply tame_ret]. intro s. destruct (cb (o_calls s)) as [[]|x]; try apply calm_refl.
    split; auto. cbn. exists [AStop]. splits; [reflexivity| repeat constructor| auto| intros p n [H|[]]; discriminate].
  - intros _. unfold when. destruct (e_queue e); [|apply tame_ret]. apply tame_bind; [apply tame_check| intros _; apply tame_gate].
Qed.
Lemma closing_after e : closing (after e).
Proof.
  apply closing_bind.
  - destruct (e_callbacks e) as [cb|]; [|apply closing_ret]. intros s v s' H. destruct (cb (o_calls s)) as [[]|x]; try discriminate; injection H as <- <-.
    + exists [AStop]. split; [reflexivity| apply closed_one; discriminate].
    + exists []. rewrite app_nil_r. split; [reflexivity| apply closed_nil].
  - intros _. unfold when. destruct (e_queue e); [|apply closing_ret]. apply closing_bind; [apply closing_check| intros _; apply closing_gate].
Qed.
Lemma mloop_S e n s : o_stop s = false ->
  let x := point (e_rand e (o_calls s)) (e_bounds e) in
  mloop e (S n) (o_rfx s) s =
  match wcall (e_task e) x (set_used (S (o_used s)) s) with
  | (Err er, s1) => (Err er, s1)
  | (Ok v, s1) =>
      match after e s1 with
      | (Err er, s2) => (Err er, s2)
      | (Ok _, s2) => if nlt (scalar v) (o_rfx s) then mloop e n (scalar v) (set_result (Some x) (scalar v) s2) else mloop e n (o_rfx s) s2
      end
  end.
Proof.
  intros Hs x. cbn [mloop]. unfold bind at 1. unfold gets. rewrite Hs. unfold bind at 1. unfold bind at 1. cbn [o_calls set_used]. fold x. unfold bind at 1.
  destruct (wcall (e_task e) x (set_used (S (o_used s)) s)) as [[v|er] s1]; [|reflexivity]. cbv zeta.
  unfold after, modify, bind.
  destruct (e_callbacks e) as [cb|]; [destruct (cb (o_calls s1)) as [[]|er]; [| |reflexivity]|]; unfold ret;
    repeat match goal with |- context [when ?b ?m ?s2] => destruct (when b m s2) as [[[]|er] s3]; [|reflexivity] end; destruct (nlt (scalar v) (o_rfx s)); reflexivity.
Qed.
Lemma wcall_part e s x (r := wcall (e_task e) x (set_used (S (o_used s)) s)) : wrapped e s ->
  match r with
  | (Ok v, s1) => exists d ex, s1 = set_used (S (o_used s)) (extend [AEval d x; AReport (mkIR (o_id s) x (scalar v) ex)] s)
  | (Err _, s1) => exists a, ((exists d, a = [AEval d x]) \/ (exists d r, a = [AEval d x; ARefused r])) /\ s1 = set_used (S (o_used s)) (extend a s)
  end.
Proof.
  intro Hw. destruct (use_spec (e_task e) (false, x) (set_used (S (o_used s)) s)) as [a [E H]].
  change (use (e_task e) (false, x) (set_used (S (o_used s)) s)) with r in E, H. unfold faithful in H. cbn [fst snd o_id o_calls o_detailed set_used] in H.
  rewrite orb_false_r in H. destruct r as [[v|er] s1]; cbn [fst snd] in *; subst s1.
  - destruct (o_detailed s) eqn:Ed.
    + destruct (t_det (e_task e)) as [d|]; [|destruct H; discriminate]. destruct (d (o_calls s) x) as [[|fx ex]|er]; try (destruct H; discriminate).
      destruct (q_full (e_task e) (o_calls s)); [destruct H; discriminate|]. destruct H as [[= ->] ->]. exists true, ex. unfold extend. cbn. reflexivity.
    + destruct (t_call (e_task e) (o_calls s) x) as [fx|er]; [|destruct H; discriminate].
      destruct (q_full (e_task e) (o_calls s)); [destruct H; discriminate|]. destruct H as [[= ->] ->]. exists false, []. unfold extend. cbn. reflexivity.
  - exists a. split; [|reflexivity]. destruct (o_detailed s) eqn:Ed.
    + destruct (t_det (e_task e)) as [d|] eqn:Et; [|exfalso; apply Hw; [exact Ed| exact Et]]. destruct (d (o_calls s) x) as [[|fx ex]|er']; [destruct H as [_ ->]; eauto| |destruct H as [_ ->]; eauto].
      destruct (q_full (e_task e) (o_calls s)); destruct H as [H ->]; [eauto 6| discriminate].
    + destruct (t_call (e_task e) (o_calls s) x) as [fx|er']; [|destruct H as [_ ->]; eauto].
      destruct (q_full (e_task e) (o_calls s)); destruct H as [H ->]; [eauto 6| discriminate].
Qed.
Definition okb (r : res unit) : bool := match r with Ok _ => true | Err _ => false end.
Lemma mloop_part e : good_setup e -> forall n l s r s', wrapped e s -> best_of l (o_rx s) (o_rfx s) -> mloop e n (o_rfx s) s = (r, s') ->
  exists a, part e l s s' a (okb r) /\ length (evaluated a) <= n /\ (okb r = true -> o_stop s' = true \/ length (evaluated a) = n).
Proof.
  intros [Hr Hbd]. induction n as [|n IH]; intros l s r s' Hw Hb H.
  - cbn in H. injection H as <- <-. exists []. splits; [apply part_nil; auto| cbn; lia| auto].
  - destruct (o_stop s) eqn:Est.
    { cbn [mloop] in H. unfold bind at 1 in H. unfold gets in H. rewrite Est in H. injection H as <- <-. exists []. splits; [apply part_nil; auto| cbn; lia| auto]. }
    rewrite (mloop_S e n s Est) in H. cbv zeta in H. set (x := point (e_rand e (o_calls s)) (e_bounds e)) in *.
    assert (Hx : inside (e_bounds e) x) by (apply point_inside; auto). pose proof (wcall_part e s x Hw) as Hc. cbv zeta in Hc.
    destruct (wcall (e_task e) x (set_used (S (o_used s)) s)) as [[v|er] s1].
    2:{ injection H as <- <-. destruct Hc as [a [Ha ->]]. exists a. splits; [eapply part_fail; eauto| |discriminate].
        destruct Ha as [[d ->]|[d [q ->]]]; cbn; lia. }
    destruct Hc as [d [ex Hs1]]. set (rp := mkIR (o_id s) x (scalar v) ex) in *. set (a0 := [AEval d x; AReport rp]) in *.
    pose proof (tame_after e s1) as Ht. pose proof (closing_after e s1) as Hcl. destruct (after e s1) as [[[]|er] s2] eqn:Ea; cbn [snd] in Ht.
    2:{ injection H as <- <-. rewrite Hs1 in Ht. destruct (part_body e l s d x rp s2 s2 a0 false Est Hb Hx eq_refl eq_refl Ht) as [a Hp]; [discriminate| reflexivity|].
        exists (a0 ++ a). splits; [exact Hp| |discriminate]. assert (E : evaluated a = []); [|rewrite evaluated_app, E; cbn; lia].
        pose proof (pa_calls _ _ _ _ _ _ Hp) as Hn. rewrite evaluated_app, app_length in Hn. pose proof (ca_calls _ _ Ht) as Hm. cbn in Hn, Hm.
        destruct (evaluated a); [reflexivity| cbn in Hn; lia]. }
    destruct (Hcl tt s2 eq_refl) as [b [Hb1 Hb2]].
    assert (Hp : exists a, part e l s (updated x (ir_fx rp) s2) (a0 ++ a) true).
    { rewrite Hs1 in Ht. apply (part_body e l s d x rp s2 (updated x (ir_fx rp) s2) a0 true Est Hb Hx eq_refl eq_refl Ht); [|reflexivity]. intros _. exists b. split; [|exact Hb2]. rewrite Hb1, Hs1. cbn [o_tr extend set_used]. rewrite <- app_assoc. reflexivity. }
    destruct Hp as [a Hp]. set (s3 := updated x (ir_fx rp) s2) in *.
    assert (Hrfx : o_rfx s2 = o_rfx s) by (rewrite (ca_rfx _ _ Ht), Hs1; reflexivity).
    assert (H3 : mloop e n (o_rfx s3) s3 = (r, s')).
    { rewrite <- H. unfold s3, updated. rewrite Hrfx. cbn [ir_fx rp]. destruct (nlt (scalar v) (o_rfx s)); [reflexivity| rewrite Hrfx; reflexivity]. }
    assert (Hev : evaluated (a0 ++ a) = [x]).
    { pose proof (pa_calls _ _ _ _ _ _ Hp) as Hn. rewrite evaluated_app, app_length in Hn.
      destruct (updated_same x (ir_fx rp) s2) as [_ [_ [_ [_ [_ [U _]]]]]]. pose proof (ca_calls _ _ Ht) as Hm. rewrite Hs1 in Hm. cbn in Hn, Hm.
      rewrite evaluated_app. cbn. destruct (evaluated a) as [|y l0]; [reflexivity|]. cbn [length] in Hn. unfold s3 in Hn. rewrite U in Hn. lia. }
    assert (Hw3 : wrapped e s3) by (unfold wrapped; rewrite (pa_det _ _ _ _ _ _ Hp); exact Hw).
    assert (Hb3 : best_of (l ++ reported (a0 ++ a)) (o_rx s3) (o_rfx s3)).
    { destruct (pa_best _ _ _ _ _ _ Hp) as [z [t [E1 [_ [E2 E3]]]]]. rewrite (E2 eq_refl), app_nil_r in E1. rewrite E1. exact E3. }
    destruct (IH _ s3 r s' Hw3 Hb3 H3) as [c [Hc1 [Hc2 Hc3]]]. exists ((a0 ++ a) ++ c). splits.
    + eapply part_app; eassumption.
    + rewrite evaluated_app, Hev. cbn. lia.
    + intro Ho. destruct (Hc3 Ho) as [Hs|Hs]; [left; exact Hs| right]. rewrite evaluated_app, Hev. cbn. lia.
Qed.
Lemma minimize_part e l s r s' : good_setup e -> wrapped e s -> best_of l (o_rx s) (o_rfx s) -> (o_restart s = true \/ o_rfx s = PInf) -> minimize e s = (r, s') ->
  exists a, part e l s s' a (okb r) /\ length (evaluated a) <= o_max s - o_used s /\ (okb r = true -> o_stop s' = true \/ length (evaluated a) = o_max s - o_used s).
Proof.
  intros Hg Hw Hb Hre H. unfold minimize in H.
  assert (E : (if o_restart s then o_rfx s else PInf) = o_rfx s) by (destruct Hre as [->| ->]; [reflexivity| destruct (o_restart s); reflexivity]). rewrite E in H. clear E.
  unfold bind at 1 in H. destruct (mloop e (o_max s - o_used s) (o_rfx s) s) as [r1 s1] eqn:Em.
  destruct (mloop_part e Hg _ l s r1 s1 Hw Hb Em) as [a [Hp [Hl Hst]]]. destruct r1 as [[]|er]; [|injection H as <- <-; exists a; auto]. cbn [okb] in *.
  unfold bind at 1 in H. cbn [modify] in H. set (s2 := set_succ true s1) in *.
  assert (Hb1 : best_of (l ++ reported a) (o_rx s1) (o_rfx s1)).
  { destruct (pa_best _ _ _ _ _ _ Hp) as [z [t [E1 [_ [E2 E3]]]]]. rewrite (E2 eq_refl), app_nil_r in E1. rewrite E1. exact E3. }
  assert (Hp2 : part e l s s2 a true).
  { rewrite <- (app_nil_r a). eapply part_app; [exact Hp|]. apply part_nil; auto. }
  set (tail := act_ (ASend 0) ;;; check_messages ;;; ret tt) in *.
  assert (Hq : exists b, part e (l ++ reported a) s2 s' b (okb r) /\ evaluated b = [] /\ o_stop s2 = o_stop s1).
  { assert (Ht : tame (when (e_queue e) tail)).
    { unfold when. destruct (e_queue e); [|apply tame_ret]. apply tame_bind; [apply tame_act; cbn; auto; discriminate|]. intros _. apply tame_bind; [apply tame_check|]. intros; apply tame_ret. }
    assert (Hcl : closing (when (e_queue e) tail)).
    { unfold when. destruct (e_queue e); [|apply closing_ret]. apply closing_bind; [apply closing_act; discriminate|]. intros _. apply closing_bind; [apply closing_check|]. intros; apply closing_ret. }
    specialize (Ht s2). specialize (Hcl s2). rewrite H in Ht, Hcl. cbn [snd] in Ht.
    destruct (part_quiet e (l ++ reported a) s2 s' Ht (okb r)) as [b Hb2]; [exact Hb1| |].
    - intro Ho. destruct r as [[]|]; [|discriminate]. apply (Hcl tt s' eq_refl).
    - exists b. splits; [exact Hb2| |reflexivity]. pose proof (pa_calls _ _ _ _ _ _ Hb2) as Hn. rewrite (ca_calls _ _ Ht) in Hn. destruct (evaluated b); [reflexivity| cbn in Hn; lia]. }
  destruct Hq as [b [Hb2 [Hb3 Hb4]]]. exists (a ++ b). splits.
  - eapply part_app; eassumption.
  - rewrite evaluated_app, Hb3, app_nil_r. exact Hl.
  - intros Ho. rewrite evaluated_app, Hb3, app_nil_r. destruct (Hst eq_refl) as [Hs|Hs]; [left| right; exact Hs]. apply (pa_stop0 _ _ _ _ _ _ Hb2). left. exact Hs.
Qed.

(** ** The farewell *)
Definition no_bye (a : list act) : Prop := forall i, ~ In (ABye i) a.
Definition staying {A} (m : M opt A) : Prop := forall s, exists a, o_tr (snd (m s)) = o_tr s ++ a /\ no_bye a /\ o_id (snd (m s)) = o_id s.
Lemma staying_bind {A B} (m : M opt A) (f : A -> M opt B) : staying m -> (forall a, staying (f a)) -> staying (bind m f).
Proof.
  intros H1 H2 s. unfold bind. destruct (H1 s) as [a [Ea [Na Ia]]]. destruct (m s) as [[v|e] s1]; cbn [snd] in *; [|eauto].
  destruct (H2 v s1) as [b [Eb [Nb Ib]]]. exists (a ++ b). splits; [rewrite Eb, Ea, app_assoc; reflexivity| |congruence].
  intros i H. apply in_app_or in H. destruct H; [eapply Na| eapply Nb]; eassumption.
Qed.
Lemma staying_tame {A} (m : M opt A) : tame m -> staying m.
Proof.
  intros H s. destruct (H s) as [C1 _ _ _ _ _ _ _ _ _ _ [a [C2 [C3 _]]]]. exists a. splits; auto. intros i Hi. rewrite Forall_forall in C3. exact (C3 _ Hi).
Qed.
Lemma staying_same {A} (m : M opt A) : (forall s, o_tr (snd (m s)) = o_tr s /\ o_id (snd (m s)) = o_id s) -> staying m.
Proof. intros H s. destruct (H s) as [H1 H2]. exists []. rewrite app_nil_r. splits; auto. intros i []. Qed.
Lemma staying_wcall t x : staying (wcall t x).
Proof.
  intro s. destruct (use_spec t (false, x) s) as [a [E H]]. change (use t (false, x) s) with (wcall t x s) in *. exists a. rewrite E. splits; try reflexivity.
  intros i Hi. unfold faithful in H. cbn [fst snd] in H.
  destruct (o_detailed s || false); [destruct (t_det t) as [d|]; [destruct (d (o_calls s) x) as [[|fx ex]|er]|]| destruct (t_call t (o_calls s) x) as [fx|er]];
    try (destruct (q_full t (o_calls s))); destruct H as [_ ->]; cbn in Hi; repeat (destruct Hi as [Hi|Hi]; [discriminate|]); exact Hi.
Qed.
Lemma staying_mloop e n : forall b, staying (mloop e n b).
Proof.
  induction n as [|n IH]; intro b; cbn [mloop]; [apply staying_same; auto|]. apply staying_bind; [apply staying_same; auto|]. intros []; [apply staying_same; auto|].
  apply staying_bind; [apply staying_same; auto|]. intros _. apply staying_bind; [apply staying_same; auto|]. intro x. apply staying_bind; [apply staying_wcall|]. intro v.
  cbv zeta. apply staying_bind; [|intros _; apply staying_bind; [|intros _]].
  - destruct (e_callbacks e) as [cb|]; [|apply staying_same; auto]. intro s. destruct (cb (o_calls s)) as [[]|er]; cbn.
    + exists [AStop]. splits; try reflexivity. intros i [H|[]]. discriminate.
    + exists []. rewrite app_nil_r. splits; try reflexivity. intros i [].
    + exists []. rewrite app_nil_r. splits; try reflexivity. intros i [].
  - unfold when. destruct (e_queue e); [|apply staying_same; auto]. apply staying_bind; [apply staying_tame, tame_check| intros _; apply staying_tame, tame_gate].
  - destruct (nlt (scalar v) b); [|apply IH]. apply staying_bind; [apply staying_same; auto| intros _; apply IH].
Qed.
Lemma staying_minimize e : staying (wrap (e_task e) ;;; minimize e).
Proof.
  apply staying_bind; [apply staying_same; intro s; unfold wrap; destruct (o_detailed s && _); auto|]. intros _ s. unfold minimize.
  apply (staying_bind (mloop e (o_max s - o_used s) (if o_restart s then o_rfx s else PInf)) (fun _ => modify (set_succ true) ;;; when (e_queue e) (act_ (ASend 0) ;;; check_messages ;;; ret tt))).
  - apply staying_mloop.
  - intros _. apply staying_bind; [apply staying_same; auto|]. intros _. unfold when. destruct (e_queue e); [|apply staying_same; auto].
    apply staying_tame. apply tame_bind; [apply tame_act; cbn; auto; discriminate|]. intros _. apply tame_bind; [apply tame_check|]. intros; apply tame_ret.
Qed.
Lemma farewell e sends s r s' : minimize_ e sends s = (r, s') -> r <> Err Blocked -> r <> Err OutOfFuel ->
  exists a, o_tr s' = o_tr s ++ a ++ [ABye (o_id s)] /\ no_bye a.
Proof.
  intros H N1 N2. unfold minimize_ in H. destruct (staying_minimize e s) as [a [Ea [Na Ia]]].
  destruct ((wrap (e_task e) ;;; minimize e) s) as [[[]|er] s1]; cbn [snd] in *.
  - injection H as <- <-. exists a. cbn. rewrite Ea, Ia, app_assoc. auto.
  - assert (Hcase : (s' = log (ABye (o_id s1)) s1) \/ (s' = log (ABye (o_id s1)) (log (ASend 9) s1))).
    { destruct er; try (injection H as <- <-; congruence); try (destruct sends); injection H as <- <-; auto. }
    destruct Hcase as [-> | ->]; cbn; rewrite Ea, Ia.
    + exists a. rewrite app_assoc. auto.
    + exists (a ++ [ASend 9]). rewrite !app_assoc. split; [reflexivity|]. intros i Hi. apply in_app_or in Hi. destruct Hi as [Hi|[Hi|[]]]; [exact (Na i Hi)| discriminate].
Qed.
Lemma crash_reported e s x s' : minimize_ e true s = (Err x, s') -> x <> Blocked -> x <> OutOfFuel ->
  exists a, o_tr s' = o_tr s ++ a ++ [ASend 9; ABye (o_id s)].
Proof.
  intros H N1 N2. unfold minimize_ in H. destruct (staying_minimize e s) as [a [Ea [Na Ia]]].
  destruct ((wrap (e_task e) ;;; minimize e) s) as [[[]|er] s1]; cbn [snd] in *; [discriminate|].
  assert (s' = log (ABye (o_id s1)) (log (ASend 9) s1)) as -> by (destruct er; try discriminate; injection H as <- <-; congruence).
  exists a. cbn. rewrite Ea, Ia, <- !app_assoc. reflexivity.
Qed.
