(** * Lemmas about the helper functions *)
From Coq Require Import Ascii DecimalString DecimalN DecimalPos NArith Qround Lqa Permutation.
From Verif Require Import Prelude Prelude_Proofs Core_Model Helpers_Model Helpers_Spec.

(** ** is_bounds_valid *)
Lemma bound_ok b : (nle (snd b) (fst b) = false /\ nfinite (fst b) && nfinite (snd b) = true) <-> usable_bound b.
Proof.
  destruct b as [x y]. cbn [fst snd]. split.
  - intros [H1 H2]. apply andb_true_iff in H2 as [H2 H3]. destruct x; try discriminate. destruct y; try discriminate.
    exists q, q0. split; [reflexivity|]. cbn in H1. apply Qle_bool_false_lt in H1. exact H1.
  - intros [p [q [E H]]]. injection E as -> ->. cbn. split; [|reflexivity]. apply Qle_bool_false_lt. exact H.
Qed.
Lemma valid_iff l r : is_bounds_valid l r = Ok true <-> Forall usable_bound l.
Proof.
  induction l as [|b l IH]; [cbn; split; auto|]. cbn [is_bounds_valid].
  split.
  - intro H. destruct (nle (snd b) (fst b)) eqn:E1; [destruct r; discriminate|].
    destruct (nfinite (fst b) && nfinite (snd b)) eqn:E2; [|destruct r; discriminate]. constructor; [apply bound_ok; auto| apply IH; exact H].
  - intro H. inversion H as [|? ? Hb Hl]; subst. apply bound_ok in Hb as [E1 E2]. rewrite E1, E2. apply IH. exact Hl.
Qed.
Lemma valid_cases l r : is_bounds_valid l r = Ok true \/ is_bounds_valid l r = (if r then Err ValueError else Ok false).
Proof.
  induction l as [|b l IH]; [left; reflexivity|]. cbn [is_bounds_valid].
  destruct (nle _ _); [auto|]. destruct (_ && _); [exact IH| auto].
Qed.

(** ** rolling_min *)
Lemma numbers_some x l : numbers x = Some l <-> x = map Some l.
Proof.
  revert l. induction x as [|o x IH]; intro l; cbn.
  - split; [intro H; injection H as <-; reflexivity| destruct l; [reflexivity| discriminate]].
  - destruct o as [v|]; [|split; [discriminate| destruct l; discriminate]].
    destruct (numbers x) as [m|] eqn:E.
    + pose proof (proj1 (IH m) eq_refl) as ->. split; [intro H; injection H as <-; reflexivity|]. destruct l as [|w l]; [discriminate|]. intro H. injection H as -> H.
      f_equal. f_equal. apply (proj2 (IH l)) in H. congruence.
    + split; [discriminate|]. destruct l as [|w l]; [discriminate|]. intro H. injection H as -> H. apply IH in H. discriminate.
Qed.
Lemma pymin_le a b : nnan a = false -> nnan b = false -> nle (pymin a b) a = true /\ nle (pymin a b) b = true /\ nnan (pymin a b) = false.
Proof. intros Ha Hb. unfold pymin. destruct (nlt b a) eqn:E; splits; auto; try (apply nle_refl; auto); [apply nlt_nle; auto| apply nlt_false_nle; auto]. Qed.
Lemma rolling_length p l : length (rolling p l) = length l.
Proof. revert p. induction l as [|v l IH]; intro p; cbn; [reflexivity| f_equal; apply IH]. Qed.
(** [pre] is what came before, [p] its smallest. *)
Lemma rolling_spec l p pre : nnan p = false -> Forall (fun v => nnan v = false) l ->
  In p pre -> (forall w, In w pre -> nle p w = true) ->
  forall i v, nth_error (rolling p l) i = Some v -> In v (pre ++ firstn (S i) l) /\ forall w, In w (pre ++ firstn (S i) l) -> nle v w = true.
Proof.
  revert p pre. induction l as [|x l IH]; intros p pre Hp Hl Hin Hmin i v; cbn [rolling]; [destruct i; discriminate|].
  inversion Hl as [|? ? Hx Hl']; subst. destruct (pymin_le x p Hx Hp) as [L1 [L2 L3]].
  assert (Hi : In (pymin x p) (pre ++ [x])) by (apply in_or_app; unfold pymin; destruct (nlt p x); [left; auto| right; left; auto]).
  assert (Hm : forall w, In w (pre ++ [x]) -> nle (pymin x p) w = true).
  { intros w Hw. apply in_app_or in Hw as [Hw|[<-|[]]]; [|exact L1]. eapply nle_trans; [exact L2| auto]. }
  destruct i as [|i]; cbn [nth_error].
  - intro E. injection E as <-. cbn [firstn]. auto.
  - intro E. change (firstn (S (S i)) (x :: l)) with ([x] ++ firstn (S i) l). rewrite app_assoc. eapply IH; eauto.
Qed.

(** ** unravel *)
Fixpoint obj_ind' (P : obj -> Prop) (H1 : forall s, P (OStr s)) (H2 : forall n, P (OAtom n))
  (H3 : forall l e, Forall P l -> P (OIter l e)) (o : obj) : P o :=
  match o with
  | OStr s => H1 s
  | OAtom n => H2 n
  | OIter l e => H3 l e ((fix go l : Forall P l := match l with [] => Forall_nil _ | x :: l' => Forall_cons x (obj_ind' P H1 H2 H3 x) (go l') end) l)
  end.

(** [ys] are the leaves of [o], [ps] where they are. *)
Definition leaves_at (o : obj) (ps : list (list nat)) (ys : list obj) : Prop :=
  Forall2 (fun p y => at_path o p = Some y /\ is_leaf y = true) ps ys /\ ordered ps /\
  forall p y, at_path o p = Some y -> is_leaf y = true -> In p ps.

Lemma ordered_app l1 l2 : ordered l1 -> ordered l2 -> (forall p q, In p l1 -> In q l2 -> before p q) -> ordered (l1 ++ l2).
Proof.
  induction l1 as [|p l1 IH]; intros H1 H2 H; cbn; [exact H2|]. inversion H1 as [|? ? Hp H1']; subst. constructor.
  - apply Forall_app. split; [exact Hp|]. apply Forall_forall. intros q Hq. apply H; [left; reflexivity| exact Hq].
  - apply IH; auto. intros; apply H; [right|]; auto.
Qed.
Lemma ordered_map i ps : ordered ps -> ordered (map (cons i) ps).
Proof. induction 1 as [|p l Hp _ IH]; cbn; constructor; auto. rewrite Forall_map. eapply Forall_impl; [|exact Hp]. intros q Hq. apply before_later. exact Hq. Qed.
Lemma proper_inv l e : proper (OIter l e) -> (l = [] /\ e = Some TypeError) \/ (e = None /\ Forall proper l).
Proof. inversion 1 as [o Hl|l' Hl]; subst; [|auto]. cbn in Hl. destruct l; [|discriminate]. destruct e as [[]|]; try discriminate. auto. Qed.
Lemma in_fst {A B} (R : A -> B -> Prop) ps ys p : Forall2 R ps ys -> In p ps -> exists y, R p y.
Proof. induction 1 as [|a b l m H _ IH]; intros []; [subst; eauto| auto]. Qed.

Lemma items_ok l : Forall (fun o => proper o -> exists ps ys, unravel o = (ys, None) /\ leaves_at o ps ys) l -> Forall proper l ->
  forall pre, exists ps ys, unravel_items unravel l None = (ys, None) /\
    Forall2 (fun p y => at_path (OIter (pre ++ l) None) p = Some y /\ is_leaf y = true) ps ys /\ ordered ps /\
    (forall p, In p ps -> exists i p', p = i :: p' /\ length pre <= i) /\
    (forall i p y, length pre <= i -> at_path (OIter (pre ++ l) None) (i :: p) = Some y -> is_leaf y = true -> In (i :: p) ps).
Proof.
  induction l as [|o l IH]; intros HF HP pre.
  - exists [], []. cbn. splits; auto; try constructor; try (intros p []; fail). intros i p y Hi E _. exfalso.
    rewrite app_nil_r in E. destruct (nth_error pre i) eqn:En; [|discriminate]. assert (nth_error pre i <> None) by congruence. apply nth_error_Some in H. lia.
  - inversion HF as [|? ? Ho HF']; subst. inversion HP as [|? ? Hpo HP']; subst.
    destruct (IH HF' HP' (pre ++ [o])) as [ps2 [ys2 [E2 [F2 [O2 [I2 C2]]]]]]. rewrite <- app_assoc in F2, C2. cbn [app] in F2, C2. rewrite app_length in I2, C2. cbn [length] in I2, C2.
    assert (G : exists ps1 ys1, (if is_str o then ([o], None) else unravel o) = (ys1, None) /\ leaves_at o ps1 ys1).
    { destruct o; cbn [is_str]; apply Ho; exact Hpo. }
    destruct G as [ps1 [ys1 [E1 [F1 [O1 C1]]]]].
    exists (map (cons (length pre)) ps1 ++ ps2), (ys1 ++ ys2). cbn [unravel_items]. rewrite E1, E2. splits; auto.
    + apply Forall2_app; [|exact F2]. clear - F1. induction F1 as [|p y ps ys [H1 H2] _ IHF]; cbn; constructor; auto. split; [|exact H2].
      cbn [at_path]. rewrite nth_error_app2, Nat.sub_diag by lia. exact H1.
    + apply ordered_app; [apply ordered_map; exact O1| exact O2|]. intros p q Hp Hq. apply in_map_iff in Hp as [p' [<- _]].
      destruct (I2 q Hq) as [i [q' [-> Hi]]]. constructor. lia.
    + intros p Hp. apply in_app_or in Hp as [Hp|Hp]; [apply in_map_iff in Hp as [p' [<- _]]; eauto|]. destruct (I2 p Hp) as [i [q' [-> Hi]]]. exists i, q'. split; [reflexivity|lia].
    + intros i p y Hi E Hl. apply in_or_app. destruct (Nat.eq_dec i (length pre)) as [->|Hne].
      * left. apply in_map. cbn [at_path] in E. rewrite nth_error_app2, Nat.sub_diag in E by lia. eapply C1; eauto.
      * right. eapply C2; eauto. lia.
Qed.
Lemma unravel_ok o : proper o -> exists ps ys, unravel o = (ys, None) /\ leaves_at o ps ys.
Proof.
  assert (S1 : forall o, is_leaf o = true -> leaves_at o [[]] [o]).
  { intros o' Hl. unfold leaves_at. splits.
    - constructor; [cbn; auto| constructor].
    - constructor; constructor.
    - intros [|i p] y E Hy; [left; reflexivity|]. cbn in E. destruct o' as [|k|l e]; try discriminate. cbn in Hl. destruct l; [|discriminate]. destruct i; discriminate. }
  induction o as [s|n|l e IH] using obj_ind'; intro HP.
  - exists [[]], [OStr s]. split; [reflexivity| apply S1; reflexivity].
  - exists [[]], [OAtom n]. split; [reflexivity| apply S1; reflexivity].
  - apply proper_inv in HP as [[-> ->]|[-> HP]].
    + exists [[]], [OIter [] (Some TypeError)]. split; [reflexivity| apply S1; reflexivity].
    + destruct (items_ok l IH HP []) as [ps [ys [E [F [O [_ C]]]]]]. exists ps, ys. cbn [unravel]. rewrite E. split; [reflexivity|]. unfold leaves_at. splits; auto.
      intros [|i p] y Ep Hl; [cbn in Ep; injection Ep as <-; cbn in Hl; destruct l; discriminate|]. eapply C; eauto. cbn. lia.
Qed.

(** ** present_memory *)
Local Open Scope Q_scope.
Definition kib (k : nat) : Q := inject_Z (1024 ^ Z.of_nat k).
Lemma kib_0 : kib 0 = 1. Proof. reflexivity. Qed.
Lemma kib_S k : kib (S k) == 1024 * kib k.
Proof. unfold kib. rewrite Nat2Z.inj_succ, Z.pow_succ_r by lia. rewrite inject_Z_mult. reflexivity. Qed.
Lemma kib_pos k : 0 < kib k.
Proof. induction k as [|k IH]; [rewrite kib_0; lra|]. rewrite kib_S. lra. Qed.
Lemma scale_spec fuel : forall q u b v, scale fuel (Fin q) u = Ok (b, v) ->
  exists k q', v = (u + k)%nat /\ b = Fin q' /\ q' * kib k == q /\ q' <= 1024 /\ (k <> 0%nat -> 1 < q').
Proof.
  induction fuel as [|fuel IH]; intros q u b v; cbn [scale nlt].
  - destruct (Qle_bool q 1024) eqn:E; [|discriminate]. cbn. intro H. injection H as <- <-. exists 0%nat, q. splits; auto; [rewrite kib_0; lra| apply Qle_bool_iff; exact E| congruence].
  - destruct (Qle_bool q 1024) eqn:E; cbn [negb].
    + intro H. injection H as <- <-. exists 0%nat, q. splits; auto; [rewrite kib_0; lra| apply Qle_bool_iff; exact E| congruence].
    + intro H. apply Qle_bool_false_lt in E. apply IH in H as [k [q' [-> [-> [H1 [H2 H3]]]]]]. exists (S k), q'. splits; auto.
      * lia.
      * rewrite kib_S. setoid_replace (q' * (1024 * kib k)) with (1024 * (q' * kib k)) by ring. rewrite H1. field.
      * intros _. destruct k as [|k]; [|apply H3; discriminate]. rewrite kib_0 in H1. assert (q' == q / 1024) by lra. rewrite H.
        apply Qlt_shift_div_l; lra.
Qed.
Lemma scale_ends n : forall q u fuel, q <= 1024 * kib n -> (n <= fuel)%nat -> is_ok (scale fuel (Fin q) u) = true.
Proof.
  induction n as [|n IH]; intros q u fuel Hq Hf.
  - rewrite kib_0 in Hq. destruct fuel; cbn [scale nlt]; assert (E : Qle_bool q 1024 = true) by (apply Qle_bool_iff; lra); rewrite E; reflexivity.
  - destruct fuel as [|fuel]; [lia|]. cbn [scale nlt]. destruct (Qle_bool q 1024) eqn:E; cbn [negb]; [reflexivity|]. apply IH; [|lia].
    rewrite kib_S in Hq. apply Qle_shift_div_r; lra.
Qed.
Lemma pow_big n : (Z.of_nat n <= 1024 ^ Z.of_nat n)%Z.
Proof. induction n as [|n IH]; [cbn; lia|]. rewrite Nat2Z.inj_succ, Z.pow_succ_r by lia. lia. Qed.
Lemma kib_big q : exists n, q <= 1024 * kib n.
Proof.
  exists (Z.to_nat (Qround.Qceiling q)). pose proof (Qround.Qle_ceiling q) as H. unfold kib.
  pose proof (pow_big (Z.to_nat (Qround.Qceiling q))) as P. rewrite Zle_Qle in P.
  assert (inject_Z (Qround.Qceiling q) <= inject_Z (Z.of_nat (Z.to_nat (Qround.Qceiling q)))) by (rewrite <- Zle_Qle; lia).
  pose proof (kib_pos (Z.to_nat (Qround.Qceiling q))) as K. unfold kib in K. lra.
Qed.

Lemma round_even_near q : Qabs (inject_Z (round_even q) - q) <= 1 # 2.
Proof.
  unfold round_even. pose proof (Qround.Qfloor_le q) as F1. pose proof (Qround.Qlt_floor q) as F2. destruct q as [n d]. cbn [Qnum Qden].
  unfold Qround.Qfloor in F1, F2. rewrite inject_Z_plus in F2. set (f := (n / Z.pos d)%Z) in *. change (inject_Z 1) with 1 in F2.
  destruct (Qcompare ((n # d) - inject_Z f) (1 # 2)) eqn:E.
  - apply Qeq_alt in E. destruct (Z.even f); apply Qabs_Qle_condition; [|rewrite inject_Z_plus; change (inject_Z 1) with 1]; lra.
  - apply Qlt_alt in E. apply Qabs_Qle_condition. lra.
  - apply Qgt_alt in E. apply Qabs_Qle_condition. rewrite inject_Z_plus. change (inject_Z 1) with 1. lra.
Qed.
Lemma near_le z n q : Qabs (inject_Z z - q) <= 1 # 2 -> q <= inject_Z n -> (z <= n)%Z.
Proof.
  intros H1 H2. apply Qabs_Qle_condition in H1. destruct (Z_le_gt_dec z n) as [|G]; [assumption|]. exfalso.
  assert (G' : inject_Z (n + 1) <= inject_Z z) by (rewrite <- Zle_Qle; lia). rewrite inject_Z_plus in G'. change (inject_Z 1) with 1 in G'. lra.
Qed.
Lemma near_ge z n q : Qabs (inject_Z z - q) <= 1 # 2 -> inject_Z n <= q -> (n <= z)%Z.
Proof.
  intros H1 H2. apply Qabs_Qle_condition in H1. destruct (Z_le_gt_dec n z) as [|G]; [assumption|]. exfalso.
  assert (G' : inject_Z (z + 1) <= inject_Z n) by (rewrite <- Zle_Qle; lia). rewrite inject_Z_plus in G'. change (inject_Z 1) with 1 in G'. lra.
Qed.

(** *** Digits *)
Local Open Scope N_scope.
Lemma digit_ascii d : (d < 10)%N -> digit (ascii_of_N (48 + d)) = Some d.
Proof. intro H. unfold digit. rewrite N_ascii_embedding by lia. assert (48 <=? 48 + d = true) as -> by (apply N.leb_le; lia). assert (48 + d <=? 57 = true) as -> by (apply N.leb_le; lia). cbn [andb]. f_equal. lia. Qed.
Fixpoint uval (acc : N) (d : Decimal.uint) : N :=
  match d with
  | Decimal.Nil => acc
  | Decimal.D0 d => uval (acc * 10 + 0) d | Decimal.D1 d => uval (acc * 10 + 1) d | Decimal.D2 d => uval (acc * 10 + 2) d
  | Decimal.D3 d => uval (acc * 10 + 3) d | Decimal.D4 d => uval (acc * 10 + 4) d | Decimal.D5 d => uval (acc * 10 + 5) d
  | Decimal.D6 d => uval (acc * 10 + 6) d | Decimal.D7 d => uval (acc * 10 + 7) d | Decimal.D8 d => uval (acc * 10 + 8) d
  | Decimal.D9 d => uval (acc * 10 + 9) d
  end.
Lemma uval_acc d : forall p, Npos (Pos.of_uint_acc d p) = uval (Npos p) d.
Proof. induction d; intro p; cbn [Pos.of_uint_acc uval]; try (rewrite IHd; f_equal; lia). reflexivity. Qed.
Lemma uval_of d : N.of_uint d = uval 0 d.
Proof. unfold N.of_uint. induction d; cbn [Pos.of_uint uval]; try (rewrite uval_acc; reflexivity); auto. Qed.
Fixpoint ulen (d : Decimal.uint) : nat :=
  match d with
  | Decimal.Nil => 0
  | Decimal.D0 d | Decimal.D1 d | Decimal.D2 d | Decimal.D3 d | Decimal.D4 d
  | Decimal.D5 d | Decimal.D6 d | Decimal.D7 d | Decimal.D8 d | Decimal.D9 d => S (ulen d)
  end%nat.
Lemma read_uint d : forall acc k, read_nat acc k (NilEmpty.string_of_uint d) = Some (uval acc d, (k + ulen d)%nat).
Proof. induction d; intros acc k; cbn [NilEmpty.string_of_uint read_nat uval ulen]; [rewrite Nat.add_0_r; reflexivity|..];
  match goal with |- context[digit ?c] => let v := eval vm_compute in (digit c) in change (digit c) with v end; cbv iota beta; rewrite IHd; f_equal; f_equal; lia. Qed.
Lemma read_uint' n : exists k, read_nat 0 0 (NilZero.string_of_uint (N.to_uint n)) = Some (n, S k).
Proof.
  pose proof (DecimalN.Unsigned.of_to n) as H. rewrite uval_of in H.
  destruct (N.to_uint n) as [|d|d|d|d|d|d|d|d|d|d] eqn:E; cbn [NilZero.string_of_uint]; try (rewrite read_uint, H; eexists; reflexivity).
  cbn in H. subst n. exists 0%nat. reflexivity.
Qed.
Lemma read_app s t : forall acc k n k', read_nat acc k s = Some (n, k') -> read_nat acc k (s ++ t)%string = read_nat n k' t.
Proof. induction s as [|c s IH]; intros acc k n k' H; cbn in *; [injection H as -> ->; reflexivity|]. destruct (digit c); [|discriminate]. auto. Qed.
Lemma read_digits k : forall n acc j, (n < 10 ^ N.of_nat k) -> read_nat acc j (dec_digits k n) = Some (acc * 10 ^ N.of_nat k + n, (j + k)%nat).
Proof.
  induction k as [|k IH]; intros n acc j H.
  - change (10 ^ N.of_nat 0) with 1 in *. cbn [dec_digits read_nat]. rewrite Nat.add_0_r. f_equal. f_equal. lia.
  - rewrite Nat2N.inj_succ, N.pow_succ_r' in *. assert (H1 : n / 10 < 10 ^ N.of_nat k) by (apply N.div_lt_upper_bound; lia).
    cbn [dec_digits]. erewrite read_app by (apply IH; exact H1).
    change (read_nat ?a ?b (String ?c "")) with (match digit c with Some d => read_nat (a * 10 + d) (S b) "" | None => None end).
    rewrite digit_ascii by (apply N.mod_lt; lia). cbn [read_nat]. pose proof (N.div_mod n 10 ltac:(lia)) as D. f_equal. f_equal; [|lia].
    set (p := 10 ^ N.of_nat k) in *. lia.
Qed.
Definition nodot (s : string) : Prop := forall c, In c (list_ascii_of_string s) -> c <> "."%char.
Lemma digit_nodot s : forall acc k n j, read_nat acc k s = Some (n, j) -> nodot s.
Proof.
  induction s as [|c s IH]; intros acc k n j H x Hx; [destruct Hx|]. cbn in H. destruct (digit c) as [d|] eqn:E; [|discriminate].
  destruct Hx as [<-|Hx]; [|exact (IH _ _ _ _ H x Hx)]. intros ->. discriminate E.
Qed.
Lemma at_dot_none s : nodot s -> at_dot s = (s, None).
Proof.
  induction s as [|c s IH]; intro H; cbn; [reflexivity|]. destruct (Ascii.eqb_spec c "."%char) as [->|_]; [destruct (H "."%char); [left; reflexivity| reflexivity]|].
  rewrite IH; [reflexivity|]. intros x Hx. apply H. right. exact Hx.
Qed.
Lemma at_dot_some s t : nodot s -> at_dot (s ++ "." ++ t)%string = (s, Some t).
Proof.
  induction s as [|c s IH]; intro H; [reflexivity|].
  change (at_dot (String c s ++ "." ++ t)%string) with (if Ascii.eqb c "."%char then (EmptyString, Some (s ++ "." ++ t)%string) else let (a, b) := at_dot (s ++ "." ++ t)%string in (String c a, b)).
  destruct (Ascii.eqb_spec c "."%char) as [->|_]; [destruct (H "."%char); [left; reflexivity| reflexivity]|].
  rewrite IH; [reflexivity|]. intros x Hx. apply H. right. exact Hx.
Qed.
Local Open Scope Q_scope.
Lemma read_pos_fixed digits n : exists r, read_pos (NilZero.string_of_uint (N.to_uint (n / 10 ^ N.of_nat digits)) ++
    (match digits with 0%nat => "" | _ => "." ++ dec_digits digits (n mod 10 ^ N.of_nat digits) end))%string = Some r /\
  r == inject_Z (Z.of_N n) / inject_Z (10 ^ Z.of_nat digits).
Proof.
  assert (P : (0 < 10 ^ N.of_nat digits)%N) by (apply N.neq_0_lt_0, N.pow_nonzero; lia).
  assert (HZ : (Z.of_N (10 ^ N.of_nat digits) = 10 ^ Z.of_nat digits)%Z) by (rewrite N2Z.inj_pow; f_equal; lia).
  set (a := (n / 10 ^ N.of_nat digits)%N). set (b := (n mod 10 ^ N.of_nat digits)%N).
  assert (D : n = (10 ^ N.of_nat digits * a + b)%N) by (apply N.div_mod; lia).
  assert (B : (b < 10 ^ N.of_nat digits)%N) by (apply N.mod_lt; lia).
  clearbody a b. destruct (read_uint' a) as [k Ek]. pose proof (digit_nodot _ _ _ _ _ Ek) as ND.
  destruct digits as [|d].
  - exists (inject_Z (Z.of_N a)). change (10 ^ N.of_nat 0)%N with 1%N in D, B.
    replace (NilZero.string_of_uint (N.to_uint a) ++ "")%string with (NilZero.string_of_uint (N.to_uint a))
      by (generalize (NilZero.string_of_uint (N.to_uint a)); intro s; induction s as [|c s IH]; [reflexivity| cbn; rewrite <- IH; reflexivity]).
    unfold read_pos. rewrite (at_dot_none _ ND), Ek. split; [reflexivity|]. assert (n = a) as -> by lia. change (10 ^ Z.of_nat 0)%Z with 1%Z. field.
  - unfold read_pos. rewrite (at_dot_some _ _ ND), Ek, (read_digits (S d) b 0 0 B). eexists. split; [reflexivity|].
    cbn [Nat.add]. rewrite D, N.mul_0_l, N.add_0_l, N2Z.inj_add, N2Z.inj_mul, HZ, inject_Z_plus, inject_Z_mult. field.
    intro X. change 0 with (inject_Z 0) in X. apply -> inject_Z_injective in X. pose proof (Z.pow_pos_nonneg 10 (Z.of_nat (S d)) ltac:(lia) ltac:(lia)). lia.
Qed.
Lemma first_digit n s t : (exists k, read_nat 0 0 s = Some (n, S k)) -> exists c r, (s ++ t)%string = String c r /\ Ascii.eqb c "-"%char = false.
Proof.
  intros [k H]. destruct s as [|c s]; [discriminate|]. exists c, (s ++ t)%string. split; [reflexivity|]. cbn in H. destruct (digit c) eqn:E; [|discriminate].
  apply Ascii.eqb_neq. intros ->. discriminate E.
Qed.
(** The printed number is the nearest one with so many digits. *)
Lemma fixed_spec digits q : exists r, read_number (fixed digits (Fin q)) = Some r /\
  Qabs (r - q) <= 1 / (2 * inject_Z (10 ^ Z.of_nat digits)) /\
  (forall z, q <= inject_Z z -> 0 <= q -> r <= inject_Z z) /\ (forall z, inject_Z z <= q -> 0 <= q -> inject_Z z <= r).
Proof.
  unfold fixed. set (p := inject_Z (10 ^ Z.of_nat digits)).
  assert (Hp : 0 < p). { unfold p. change 0 with (inject_Z 0). rewrite <- Zlt_Qlt. apply Z.pow_pos_nonneg; lia. }
  pose proof (round_even_near (Qabs q * p)) as R. set (z := round_even (Qabs q * p)) in *.
  assert (Hz : (0 <= z)%Z). { apply (near_ge z 0 _ R). change (inject_Z 0) with 0. apply Qmult_le_0_compat; [apply Qabs_nonneg| lra]. }
  destruct (read_pos_fixed digits (Z.to_N z)) as [r [Er Hr]]. rewrite Z2N.id in Hr by exact Hz. fold p in Hr.
  destruct (first_digit _ _ (match digits with 0%nat => "" | _ => "." ++ dec_digits digits (Z.to_N z mod 10 ^ N.of_nat digits) end)%string (read_uint' (Z.to_N z / 10 ^ N.of_nat digits))) as [c [rest [E1 E2]]].
  cbv zeta. fold p. fold z. set (T := (NilZero.string_of_uint (N.to_uint (Z.to_N z / 10 ^ N.of_nat digits)) ++ match digits with 0%nat => "" | _ => "." ++ dec_digits digits (Z.to_N z mod 10 ^ N.of_nat digits) end)%string) in *.
  assert (B : Qabs (r - Qabs q) <= 1 / (2 * p)).
  { apply Qabs_Qle_condition in R. apply Qabs_Qle_condition. rewrite Hr.
    setoid_replace (- (1 / (2 * p))) with (-(1 # 2) / p) by (field; lra). setoid_replace (1 / (2 * p)) with ((1 # 2) / p) by (field; lra).
    setoid_replace (inject_Z z / p - Qabs q) with ((inject_Z z - Qabs q * p) / p) by (field; lra). split; apply Qmult_le_compat_r; try lra; apply Qlt_le_weak, Qinv_lt_0_compat; lra. }
  destruct (Qle_bool 0 q) eqn:Es.
  - apply Qle_bool_iff in Es. rewrite (Qabs_pos q Es) in B, R. exists r. split; [|splits].
    + change ("" ++ T)%string with T. rewrite E1. cbn [read_number]. rewrite E2, <- E1. exact Er.
    + exact B.
    + intros y Hy _. rewrite Hr. apply Qle_shift_div_r; [exact Hp|]. unfold p. rewrite <- inject_Z_mult, <- Zle_Qle. apply (near_le z _ _ R). rewrite inject_Z_mult. fold p. apply Qmult_le_compat_r; lra.
    + intros y Hy _. rewrite Hr. apply Qle_shift_div_l; [exact Hp|]. unfold p. rewrite <- inject_Z_mult, <- Zle_Qle. apply (near_ge z _ _ R). rewrite inject_Z_mult. fold p. apply Qmult_le_compat_r; lra.
  - apply Qle_bool_false_lt in Es. exists (- r). split; [|splits].
    + change ("-" ++ T)%string with (String "-"%char T). cbn [read_number]. change (Ascii.eqb "-" "-") with true. cbn iota. rewrite Er. reflexivity.
    + rewrite (Qabs_neg q) in B by lra. setoid_replace (- r - q) with (- (r - - q)) by ring. rewrite Qabs_opp. exact B.
    + intros; lra.
    + intros; lra.
Qed.
Lemma suffixes_some u : (u < 9)%nat -> exists t, nth_error suffixes u = Some t.
Proof. intro H. do 9 (destruct u as [|u]; [eexists; reflexivity|]). lia. Qed.
Local Open Scope nat_scope.
Local Open Scope list_scope.
Local Open Scope bool_scope.

(** ** nested_string_formatting *)
Lemma replace_app c t a b : replace_char c t (a ++ b) = replace_char c t a ++ replace_char c t b.
Proof. apply flat_map_app. Qed.
Lemma ink_app a b : ink (a ++ b) = ink a ++ ink b.
Proof. apply filter_app. Qed.
Lemma ink_replace c t s : ink t = ink [c] -> ink (replace_char c t s) = ink s.
Proof.
  intro H. induction s as [|a s IH]; [reflexivity|]. change (replace_char c t (a :: s)) with ((if Ascii.eqb a c then t else [a]) ++ replace_char c t s).
  change (a :: s) with ([a] ++ s). rewrite !ink_app, IH. destruct (Ascii.eqb_spec a c) as [->|_]; [rewrite H|]; reflexivity.
Qed.
Lemma split_ne s : split_lines s <> [].
Proof. destruct s as [|a s]; cbn [split_lines]; [discriminate|]. destruct (Ascii.eqb a c_nl); [discriminate|]. destruct (split_lines s); discriminate. Qed.
Lemma join_cons l ls : ls <> [] -> join_lines (l :: ls) = l ++ c_nl :: join_lines ls.
Proof. destruct ls; [congruence| reflexivity]. Qed.
Lemma join_split s : join_lines (split_lines s) = s.
Proof.
  induction s as [|a s IH]; [reflexivity|]. cbn [split_lines]. pose proof (split_ne s) as N. destruct (Ascii.eqb_spec a c_nl) as [->|_].
  - rewrite join_cons by exact N. rewrite IH. reflexivity.
  - destruct (split_lines s) as [|l ls] eqn:E; [congruence|]. destruct ls; cbn in *; rewrite IH; reflexivity.
Qed.
Lemma ink_spaces z l : ink (spaces z ++ l) = ink l.
Proof. rewrite ink_app. unfold spaces. induction (Z.to_nat z) as [|n IH]; [reflexivity|]. exact IH. Qed.
Lemma ink_join ls : ink (join_lines ls) = flat_map ink ls.
Proof.
  induction ls as [|l ls IH]; [reflexivity|]. destruct ls as [|l' ls]; [cbn; rewrite app_nil_r; reflexivity|]. rewrite join_cons by discriminate.
  rewrite ink_app. change (c_nl :: join_lines (l' :: ls)) with ([c_nl] ++ join_lines (l' :: ls)). rewrite ink_app, IH. reflexivity.
Qed.
Lemma ink_indent ls : forall z, flat_map ink (indent z ls) = flat_map ink ls.
Proof.
  induction ls as [|l ls IH]; intro z; [reflexivity|]. cbn [indent]. destruct (has c_open l); cbn [flat_map]; rewrite ink_spaces, IH; reflexivity.
Qed.
Lemma strip_first_ok s : s <> [] -> strip_first s = Ok (without_first s).
Proof. destruct s; [congruence| reflexivity]. Qed.
Lemma strip_last_ok s : s <> [] -> strip_last s = Ok (without_last s).
Proof. destruct s; [congruence| reflexivity]. Qed.
Lemma format_ok s out : format_chars s = Ok out -> ink out = ink (without_last (without_first s)).
Proof.
  unfold format_chars. destruct s as [|a s]; [discriminate|]. rewrite strip_first_ok by discriminate. destruct (without_first (a :: s)) as [|b t] eqn:E; [discriminate|].
  rewrite strip_last_ok by discriminate. intro H. injection H as <-. rewrite ink_join, ink_indent, <- ink_join, join_split, !ink_replace by reflexivity. reflexivity.
Qed.
Lemma format_cases s : (exists out, format_chars s = Ok out) <-> s <> [] /\ s <> [c_open].
Proof.
  unfold format_chars. destruct s as [|a s]; [split; [intros [? H]; discriminate| intros [H _]; congruence]|]. rewrite strip_first_ok by discriminate.
  destruct (without_first (a :: s)) as [|b t] eqn:E.
  - split; [intros [? H]; discriminate|]. intros [_ H]. cbn in E. destruct (Ascii.eqb_spec a c_open) as [->|]; [subst s; congruence| discriminate].
  - rewrite strip_last_ok by discriminate. split; [|eauto]. intros _. split; [discriminate|]. intro Hx. injection Hx as -> ->. discriminate.
Qed.

(** *** Conditions *)
Definition marked (s : chars) : chars := replace_char c_close [c_nl; c_close] (replace_char c_open [c_open; c_nl] s).
Lemma marked_app a b : marked (a ++ b) = marked a ++ marked b.
Proof. unfold marked. rewrite !replace_app. reflexivity. Qed.
Definition clear (s : chars) : Prop := forall c, In c s -> c <> c_open /\ c <> c_close /\ c <> c_nl.
Lemma replace_clear c t s : ~ In c s -> replace_char c t s = s.
Proof. induction s as [|a s IH]; intro H; [reflexivity|]. cbn. destruct (Ascii.eqb_spec a c) as [->|_]; [destruct H; left; reflexivity|]. cbn. f_equal. apply IH. intro; apply H; right; assumption. Qed.
Lemma marked_clear s : clear s -> marked s = s.
Proof. intro H. unfold marked. rewrite !replace_clear; [reflexivity| |rewrite replace_clear]; intro Hx; apply H in Hx; tauto. Qed.
Lemma split_clear s : clear s -> split_lines s = [s].
Proof.
  induction s as [|a s IH]; intro H; [reflexivity|]. cbn [split_lines]. destruct (Ascii.eqb_spec a c_nl) as [->|_]; [destruct (H c_nl); [left; reflexivity| tauto]|].
  rewrite IH; [reflexivity|]. intros c Hc. apply H. right. exact Hc.
Qed.
Lemma split_nl a b : split_lines (a ++ c_nl :: b) = split_lines a ++ split_lines b.
Proof.
  induction a as [|x a IH]; [reflexivity|]. cbn [app split_lines]. rewrite IH. destruct (Ascii.eqb x c_nl); [reflexivity|].
  pose proof (split_ne a). destruct (split_lines a) as [|l ls]; [congruence| reflexivity].
Qed.
Lemma glue_ne ls t : ls <> [] -> glue ls t <> [].
Proof. destruct ls as [|l [|l' ls]]; [congruence|..]; discriminate. Qed.
Lemma glue_app a b t : b <> [] -> glue (a ++ b) t = a ++ glue b t.
Proof. induction a as [|l a IH]; intro H; [reflexivity|]. cbn [app]. rewrite <- IH by exact H. destruct (a ++ b) eqn:E; [destruct a, b; try discriminate; congruence| reflexivity]. Qed.
Lemma glue_cons l ls t : ls <> [] -> glue (l :: ls) t = l :: glue ls t.
Proof. destruct ls; [congruence| reflexivity]. Qed.
Lemma glue_nil ls : glue ls [] = ls.
Proof. induction ls as [|l [|l' ls] IH]; [reflexivity| cbn; rewrite app_nil_r; reflexivity| cbn in *; rewrite IH; reflexivity]. Qed.
Lemma split_glue a t : clear t -> split_lines (a ++ t) = glue (split_lines a) t.
Proof.
  intro H. induction a as [|x a IH]; [cbn [app split_lines glue]; apply split_clear; exact H|]. cbn [app split_lines]. rewrite IH. pose proof (split_ne a). destruct (Ascii.eqb x c_nl).
  - rewrite glue_cons by assumption. reflexivity.
  - destruct (split_lines a) as [|l [|l' ls]]; [congruence| reflexivity| reflexivity].
Qed.

Section Trees.
Variable leaf : nat -> string.
Hypothesis plain_leaf : forall i, plain (leaf i).
Notation text c := (list_ascii_of_string (to_str leaf c)).

Lemma laos_app a b : list_ascii_of_string (a ++ b)%string = list_ascii_of_string a ++ list_ascii_of_string b.
Proof. induction a as [|c a IH]; [reflexivity|]. cbn. rewrite IH. reflexivity. Qed.
Lemma word_clear k : clear (word k).
Proof. intros c H. destruct k; cbn in H; repeat (destruct H as [<-|H]; [splits; discriminate|]); destruct H. Qed.
Lemma text_comb i k a b : text (Comb i k a b) = c_open :: (text a ++ word k ++ c_nl :: text b) ++ [c_close].
Proof.
  cbn [to_str]. rewrite !laos_app. cbn [list_ascii_of_string app]. f_equal. rewrite <- !app_assoc. f_equal. destruct k; reflexivity.
Qed.
Definition inner (k : junct) (a b : core) : list chars :=
  glue (split_lines (marked (text a))) (word k) ++ split_lines (marked (text b)).
Lemma inner_spec k a b : split_lines (marked (text a ++ word k ++ c_nl :: text b)) = inner k a b.
Proof.
  change (c_nl :: text b) with ([c_nl] ++ text b). rewrite !marked_app, (marked_clear (word k) (word_clear k)).
  change (marked [c_nl]) with [c_nl]. rewrite app_assoc. change ([c_nl] ++ marked (text b)) with (c_nl :: marked (text b)). rewrite split_nl, split_glue by apply word_clear. reflexivity.
Qed.
Lemma lines_comb i k a b : split_lines (marked (text (Comb i k a b))) = [c_open] :: inner k a b ++ [[c_close]].
Proof.
  rewrite text_comb. change (c_open :: ?x ++ [c_close]) with ([c_open] ++ x ++ [c_close]).
  rewrite (marked_app [c_open]), (marked_app _ [c_close]). change (marked [c_open]) with ([c_open] ++ c_nl :: []). change (marked [c_close]) with (c_nl :: [c_close]).
  rewrite <- app_assoc. cbn [app]. change (c_open :: c_nl :: ?x) with ([c_open] ++ c_nl :: x). rewrite split_nl, split_nl, inner_spec. reflexivity.
Qed.
Lemma has_clear c s : clear s -> (c = c_open \/ c = c_close) -> has c s = false.
Proof.
  intros H Hc. apply not_true_iff_false. intro X. apply existsb_exists in X as [x [Hx E]]. apply Ascii.eqb_eq in E. subst x. apply H in Hx. destruct Hc; subst c; tauto.
Qed.
Lemma indent_plain z l ls : clear l -> indent z (l :: ls) = (spaces z ++ l) :: indent z ls.
Proof. intro H. cbn [indent]. rewrite (has_clear c_open l H), (has_clear c_close l H) by auto. reflexivity. Qed.
Lemma indent_close z t ls : clear t -> indent z ((c_close :: t) :: ls) = (spaces (z - 1) ++ c_close :: t) :: indent (z - 1) ls.
Proof. intro H. cbn [indent]. change (has c_open (c_close :: t)) with (has c_open t). rewrite (has_clear c_open t H) by auto. reflexivity. Qed.
Lemma block_ne d c : block leaf d c <> [].
Proof. destruct c; discriminate. Qed.
Lemma spaces_nat d l : spaces (Z.of_nat d) ++ l = pad d l.
Proof. unfold spaces, pad. rewrite Nat2Z.id. reflexivity. Qed.
Lemma app_clear a b : clear a -> clear b -> clear (a ++ b).
Proof. intros H1 H2 c Hc. apply in_app_or in Hc as [Hc|Hc]; auto. Qed.
Lemma nil_clear : clear []. Proof. intros c []. Qed.

Lemma indent_block c : forall d t rest, clear t ->
  indent (Z.of_nat d) (glue (split_lines (marked (text c))) t ++ rest) = glue (block leaf d c) t ++ indent (Z.of_nat d) rest.
Proof.
  induction c as [i|i k a IHa b IHb]; intros d t rest Ht.
  - cbn [to_str block]. rewrite marked_clear by (exact (plain_leaf i)). rewrite split_clear by (exact (plain_leaf i)). cbn [glue app].
    rewrite indent_plain by (apply app_clear; [exact (plain_leaf i)| exact Ht]). rewrite spaces_nat. unfold pad. rewrite <- app_assoc. reflexivity.
  - rewrite lines_comb. cbn [block]. unfold inner. rewrite !glue_cons by (intro X; apply app_eq_nil in X as [_ X]; first [discriminate| apply app_eq_nil in X as [_ X]; discriminate]).
    rewrite <- app_assoc, !(glue_app _ (_ ++ [_])) by (intro X; apply app_eq_nil in X as [_ X]; discriminate). rewrite !(glue_app _ [_]) by discriminate. cbn [glue].
    cbn [app indent]. change (has c_open [c_open]) with true. cbn iota. rewrite spaces_nat. f_equal.
    replace (Z.of_nat d + 1)%Z with (Z.of_nat (S d)) by lia. rewrite <- app_assoc, IHa by apply word_clear. rewrite <- !app_assoc. f_equal.
    rewrite <- (glue_nil (split_lines (marked (text b)))). rewrite IHb by exact nil_clear. rewrite glue_nil. f_equal.
    cbn [app]. rewrite indent_close by exact Ht. replace (Z.of_nat (S d) - 1)%Z with (Z.of_nat d) by lia. rewrite spaces_nat. unfold pad. rewrite <- app_assoc. reflexivity.
Qed.
Lemma last_snoc (l : chars) a d : last (l ++ [a]) d = a.
Proof. apply last_last. Qed.
Lemma format_tree c : (forall i, c = Leaf i -> leaf i <> "") -> format_chars (text c) = Ok (join_lines (shown leaf c)).
Proof.
  intro Hne. destruct c as [i|i k a b].
  - cbn [to_str shown]. set (s := list_ascii_of_string (leaf i)). assert (Hs : clear s) by (exact (plain_leaf i)).
    assert (N : s <> []). { unfold s. destruct (leaf i) eqn:E; [destruct (Hne i eq_refl E)| discriminate]. }
    unfold format_chars. rewrite (strip_first_ok s N). assert (without_first s = s) as ->.
    { unfold without_first. destruct s as [|x s']; [reflexivity|]. destruct (Ascii.eqb_spec x c_open) as [->|]; [|reflexivity]. destruct (Hs c_open); [left; reflexivity| congruence]. }
    rewrite (strip_last_ok s N). assert (without_last s = s) as ->.
    { unfold without_last. destruct (Ascii.eqb_spec (last s c_sp) c_close) as [E|]; [|reflexivity]. exfalso. destruct (exists_last N) as [s' [x Ex]]. rewrite Ex, last_snoc in E. subst x.
      destruct (Hs c_close); [rewrite Ex; apply in_or_app; right; left; reflexivity| tauto]. }
    fold (marked s). rewrite (marked_clear s Hs), (split_clear s Hs), indent_plain by exact Hs. reflexivity.
  - unfold format_chars. rewrite text_comb. cbn [strip_first]. change (Ascii.eqb c_open c_open) with true. cbn iota.
    set (s := text a ++ word k ++ c_nl :: text b). rewrite strip_last_ok by (intro X; apply app_eq_nil in X as [_ X]; discriminate).
    unfold without_last. rewrite last_snoc. change (Ascii.eqb c_close c_close) with true. cbn iota. rewrite removelast_last. fold (marked s). unfold s. rewrite inner_spec.
    f_equal. f_equal. cbn [shown]. unfold inner. change 0%Z with (Z.of_nat 0). rewrite indent_block by apply word_clear. f_equal.
    rewrite <- (glue_nil (split_lines (marked (text b)))). rewrite <- (app_nil_r (glue (split_lines _) [])). rewrite indent_block by exact nil_clear. cbn [indent]. rewrite app_nil_r, glue_nil. reflexivity.
Qed.
End Trees.

(** ** bound_group_presenter *)
Section Groups.
Variable bound : Type.
Variable text : bound -> string.
Variable same : bound -> bound -> bool.
Hypothesis same_refl : forall b, same b b = true.

Lemma to_set_kept l : forall kept x, In x kept -> In x (to_set bound same kept l).
Proof. induction l as [|b l IH]; intros kept x H; cbn; [exact H|]. apply IH. destruct (existsb _ _); [exact H| apply in_or_app; left; exact H]. Qed.
Lemma to_set_rep l : forall kept b, In b l -> exists c, In c (to_set bound same kept l) /\ same b c = true.
Proof.
  induction l as [|x l IH]; intros kept b H; [destruct H|]. destruct H as [->|H]; cbn.
  - destruct (existsb (same b) kept) eqn:E; [apply existsb_exists in E as [c [Hc E]]; exists c; split; [apply to_set_kept; exact Hc| exact E]|].
    exists b. split; [apply to_set_kept, in_or_app; right; left; reflexivity| apply same_refl].
  - apply IH. exact H.
Qed.
Lemma to_set_from l : forall kept x, In x (to_set bound same kept l) -> In x kept \/ In x l.
Proof.
  induction l as [|b l IH]; intros kept x H; cbn in *; [auto|]. apply IH in H as [H|H]; [|auto]. destruct (existsb _ _); [auto|]. apply in_app_or in H as [H|[<-|[]]]; auto.
Qed.
Lemma new_groups_spec l : forall g k, sget k (new_groups bound text l g) = if existsb (fun b => String.eqb k (text b)) l then Some [] else sget k g.
Proof.
  induction l as [|b l IH]; intros g k; cbn [new_groups existsb]; [reflexivity|]. rewrite IH, sget_sset.
  destruct (existsb _ l); [rewrite orb_true_r; reflexivity|]. rewrite orb_false_r. reflexivity.
Qed.
Lemma sset_keys {V} k (v : V) g : sget k g <> None -> map fst (sset k v g) = map fst g.
Proof.
  induction g as [|[k' v'] g IH]; cbn; [congruence|]. destruct (String.eqb_spec k k') as [->|]; intro H; cbn; [reflexivity|]. f_equal. apply IH. exact H.
Qed.
Lemma sset_new {V} k (v : V) g : sget k g = None -> sset k v g = g ++ [(k, v)].
Proof. induction g as [|[k' v'] g IH]; cbn; [reflexivity|]. destruct (String.eqb_spec k k') as [->|]; [discriminate|]. intro H. cbn. f_equal. apply IH. exact H. Qed.
Lemma sget_none {V} k (g : list (string * V)) : sget k g = None -> ~ In k (map fst g).
Proof. induction g as [|[k' v'] g IH]; cbn; [tauto|]. destruct (String.eqb_spec k k') as [->|N]; [discriminate|]. intros H [X|X]; [congruence| apply IH; assumption]. Qed.
Lemma sset_nodup {V} k (v : V) g : NoDup (map fst g) -> NoDup (map fst (sset k v g)).
Proof.
  intro H. destruct (sget k g) eqn:E; [rewrite sset_keys by congruence; exact H|]. rewrite sset_new by exact E. rewrite map_app. cbn. apply NoDup_snoc; [exact H| apply sget_none; exact E].
Qed.
Lemma new_groups_nodup l : forall g, NoDup (map fst g) -> NoDup (map fst (new_groups bound text l g)).
Proof. induction l as [|b l IH]; intros g H; cbn; [exact H|]. apply IH, sset_nodup, H. Qed.
(** The places of [l], counted from [i], where the text is [k]. *)
Fixpoint places (i : nat) (l : list bound) (k : string) : list nat :=
  match l with [] => [] | b :: l' => (if String.eqb k (text b) then [i] else []) ++ places (S i) l' k end.
Lemma fill_spec l : forall i g, (forall b, In b l -> sget (text b) g <> None) ->
  exists g', fill bound text i l g = Ok g' /\ map fst g' = map fst g /\
  forall k, sget k g' = match sget k g with Some is => Some (is ++ places i l k) | None => None end.
Proof.
  induction l as [|b l IH]; intros i g H; cbn [fill places].
  - exists g. splits; auto. intro k. destruct (sget k g); [rewrite app_nil_r|]; reflexivity.
  - destruct (sget (text b) g) as [is|] eqn:E; [|destruct (H b); [left; reflexivity| exact E]].
    destruct (IH (S i) (sset (text b) (is ++ [i]) g)) as [g' [F1 [F2 F3]]].
    { intros b' Hb. rewrite sget_sset. destruct (String.eqb _ _); [discriminate|]. apply H. right. exact Hb. }
    exists g'. splits; [exact F1| rewrite F2; apply sset_keys; congruence|]. intro k. rewrite F3, sget_sset. destruct (String.eqb_spec k (text b)) as [->|N].
    + rewrite E, <- app_assoc. reflexivity.
    + reflexivity.
Qed.
Lemma fill_err l : forall i g r, fill bound text i l g = r -> (exists g', r = Ok g') \/ r = Err KeyError.
Proof. induction l as [|b l IH]; intros i g r <-; cbn; [eauto|]. destruct (sget (text b) g); [eapply IH; reflexivity| auto]. Qed.
Lemma in_places l : forall i k j, In j (places i l k) <-> exists n b, j = i + n /\ nth_error l n = Some b /\ text b = k.
Proof.
  induction l as [|b l IH]; intros i k j; cbn [places]; [split; [intros []| intros [[|n] [b [_ [H _]]]]; discriminate]|]. rewrite in_app_iff, IH. split.
  - intros [H|[n [b' [-> [H1 H2]]]]].
    + destruct (String.eqb_spec k (text b)) as [->|]; [|destruct H]. destruct H as [<-|[]]. exists 0, b. splits; auto.
    + exists (S n), b'. splits; auto. lia.
  - intros [[|n] [b' [-> [H1 H2]]]].
    + left. cbn in H1. injection H1 as ->. rewrite <- H2, String.eqb_refl. left. lia.
    + right. exists n, b'. splits; auto. lia.
Qed.
Lemma places_inc l : forall i k, increasing (places i l k).
Proof.
  induction l as [|b l IH]; intros i k; cbn [places]; [constructor|]. destruct (String.eqb k (text b)); [|apply IH]. cbn [app]. constructor; [|apply IH].
  apply Forall_forall. intros j Hj. apply in_places in Hj as [n [b' [-> _]]]. lia.
Qed.
End Groups.
