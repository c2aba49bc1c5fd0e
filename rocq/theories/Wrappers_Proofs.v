(** * Lemmas for C63-C66 *)
From Verif Require Import Prelude_Proofs Wrappers_Model Wrappers_Spec.
From Coq Require Import Sorting.Permutation.

Section P.
Context {X : Type}.
Implicit Types (c : cma X) (w : inp X) (l : list (msg X)).

(** What no message touches. *)
Definition same c c' : Prop :=
  e_iter (c_es c') = e_iter (c_es c) /\ e_told (c_es c') = e_told (c_es c) /\ e_inj (c_es c') = e_inj (c_es c) /\
  c_ctr c' = c_ctr c /\ c_injs c' = c_injs c /\ (e_flag (c_es c) = true -> e_flag (c_es c') = true).
Lemma same_refl c : same c c.
Proof. unfold same; splits; auto. Qed.
Lemma same_trans a b c : same a b -> same b c -> same a c.
Proof. unfold same. intros [A [B [C [D [E F]]]]] [A' [B' [C' [D' [E' F']]]]]. splits; try congruence. auto. Qed.
Lemma handle_same c m : same c (handle c m).
Proof. unfold same; destruct m; cbn; splits; auto. Qed.
Lemma handle_all_same l : forall c, same c (handle_all l c).
Proof. induction l as [|m l IH]; intro c; [apply same_refl|]. cbn. eapply same_trans; [apply handle_same|apply IH]. Qed.
Lemma completions_same n : forall ms c c' b, completions n ms c = (c', b) -> same c c' /\ (b = true -> e_flag (c_es c') = true).
Proof.
  induction n as [|n IH]; intros ms c c' b E; cbn in E; [injection E as <- <-; split; [apply same_refl|discriminate]|].
  destruct (e_flag (c_es (handle_all (hd [] ms) c))) eqn:F.
  - injection E as <- <-. split; [apply handle_all_same|auto].
  - apply IH in E as [E1 E2]. split; [|exact E2]. eapply same_trans; [apply handle_all_same|exact E1].
Qed.

Lemma collect_length (f : X -> num) gone xs : forall k, length (collect f gone k xs) <= length xs.
Proof. induction xs as [|x xs IH]; intro k; cbn; [lia|]. specialize (IH (S k)). rewrite app_length. destruct (gone k); cbn; lia. Qed.
Lemma collect_all (f : X -> num) gone xs : forall k, length xs = length (collect f gone k xs) -> collect f gone k xs = map f xs.
Proof.
  induction xs as [|x xs IH]; intros k E; cbn in *; [reflexivity|]. pose proof (collect_length f gone xs (S k)).
  rewrite app_length in E. destruct (gone k); cbn in *; [lia|]. f_equal. apply IH. lia.
Qed.
Lemma collect_none (f : X -> num) xs : forall k, collect f (fun _ => false) k xs = map f xs.
Proof. induction xs as [|x xs IH]; intro k; cbn; [reflexivity|]. now rewrite IH. Qed.

(** _parallel_map leaves the strategy alone, and a full list of values is the values of the vectors asked for.  It is not full
    only after a stop. *)
Lemma parallel_map_spec g f w c fx c' : parallel_map g f w c = (fx, c') ->
  same c c' /\ (length (i_ask w) = length fx -> fx = map f (i_ask w)) /\ (length (i_ask w) <> length fx -> e_flag (c_es c') = true).
Proof.
  unfold parallel_map. destruct (Nat.ltb 1 (g_workers g)).
  - destruct (g_queue g).
    + destruct (completions _ _ c) as [c1 b] eqn:E. intro H. injection H as <- <-. apply completions_same in E as [E1 E2].
      splits; [exact E1|apply collect_all|]. destruct b; [auto|]. cbn. intro N. exfalso. apply N. rewrite collect_none. now rewrite map_length.
    + intro H. injection H as <- <-. splits; [apply same_refl|apply collect_all|]. cbn. intro N. exfalso. apply N. rewrite collect_none. now rewrite map_length.
  - intro H. injection H as <- <-. splits; [apply same_refl|reflexivity|]. rewrite map_length. congruence.
Qed.

Lemma combine_own (f : X -> num) xs : combine xs (map f xs) = map (fun x => (x, f x)) xs.
Proof. induction xs; cbn; congruence. Qed.

Lemma read_result_spec ok xs c c' : read_result ok xs c = Ok c' ->
  same c c' /\ c_inc c' = c_inc c /\ r_success (c_result c') = ok /\ r_fx (c_result c') = snd (es_result (c_es c)) /\
  (neq (r_fx (c_result c')) PInf = false -> r_x (c_result c') = fst (es_result (c_es c))) /\
  (neq (r_fx (c_result c')) PInf = true -> exists a r, xs = Some (a :: r) /\ r_x (c_result c') = Some a) /\ c_es c' = c_es c.
Proof.
  unfold read_result. destruct (es_result (c_es c)) as [bx bv]. destruct (neq bv PInf) eqn:N.
  - destruct xs as [[|a r]|]; try discriminate. intro H. injection H as <-. cbn. rewrite N. splits; try reflexivity; try discriminate; try (unfold same; cbn; splits; auto; fail). eauto.
  - intro H. injection H as <-. cbn. rewrite N. splits; try reflexivity; try discriminate; unfold same; cbn; splits; auto.
Qed.

Lemma injection_spec g i fx c c' : injection g i fx c = Ok c' ->
  e_iter (c_es c') = e_iter (c_es c) /\ e_told (c_es c') = e_told (c_es c) /\ e_flag (c_es c') = e_flag (c_es c) /\ c_result c' = c_result c /\
  ((c_ctr c' = c_ctr c /\ c_injs c' = c_injs c /\ e_inj (c_es c') = e_inj (c_es c)) \/
   (exists k x v, g_freq g = Some k /\ k + c_ctr c < i /\ c_ctr c' = i /\ c_inc c = (Some x, Some v) /\ c_injs c' = c_injs c ++ [(i, x)] /\
                  e_inj (c_es c') = e_inj (c_es c) ++ [x])) /\ c_inc c' = c_inc c.
Proof.
  unfold injection. destruct (min_of fx) as [m|]; [|discriminate]. destruct (c_inc c) as [ix [iv|]] eqn:I; cbn [opt_lt fst snd]; [|discriminate].
  destruct (nlt iv m); [|intro H; injection H as <-; splits; auto].
  destruct (g_freq g) as [[|k]|] eqn:F; try (intro H; injection H as <-; splits; auto; fail).
  destruct ix as [x|]; [|intro H; injection H as <-; splits; auto].
  destruct (Nat.ltb_spec (S k + c_ctr c) i); intro H0; injection H0 as <-; [|splits; auto].
  cbn. splits; auto. right. exists (S k), x, iv. splits; auto.
Qed.

Lemma first_incumbent_spec i x0 fx c c' : first_incumbent i x0 fx c = Ok c' ->
  c_es c' = c_es c /\ c_result c' = c_result c /\ c_ctr c' = c_ctr c /\ c_injs c' = c_injs c /\
  (c_inc c' = c_inc c /\ i <> 1 \/ i = 1 /\ fst (c_inc c') = Some x0).
Proof.
  unfold first_incumbent. destruct (Nat.eqb_spec i 1).
  - destruct fx; [discriminate|]. intro H; injection H as <-. cbn. splits; auto.
  - intro H; injection H as <-. splits; auto.
Qed.

(** One round: either the population is told with its own values, or there was a stop and nothing is told. *)
Lemma round_inr g f x0 i w c c' : round g f x0 i w c = Ok (inr c') ->
  e_told (c_es c') = e_told (c_es c) ++ map (fun x => (x, f x)) (i_ask w) /\ e_iter (c_es c') = S (e_iter (c_es c)).
Proof.
  unfold round. destruct (parallel_map g f w c) as [fx c1] eqn:P. apply parallel_map_spec in P as [S1 [V _]].
  destruct (Nat.eqb_spec (length (i_ask w)) (length fx)) as [L|L]; cbn [negb]; [|discriminate].
  destruct (first_incumbent i x0 fx c1) as [c2|] eqn:FI; [|discriminate]. apply first_incumbent_spec in FI as [E2 _].
  destruct (read_result _ _ _) as [c3|] eqn:R; [|discriminate]. apply read_result_spec in R as [_ [_ [_ [_ [_ [_ E3]]]]]].
  set (c4 := if i_callback w then _ else c3). set (c5 := if g_queue g then _ else c4).
  destruct (injection g i fx c5) as [c6|] eqn:J; [|discriminate]. intro H. injection H as <-. apply injection_spec in J as [J1 [J2 _]].
  assert (S4 : same c3 c4) by (unfold c4; destruct (i_callback w); [apply (handle_same c3 (MStop Other))|apply same_refl]).
  assert (S5 : same c4 c5) by (unfold c5; destruct (g_queue g); [apply handle_all_same|apply same_refl]).
  destruct (same_trans _ _ _ S4 S5) as [A [B _]]. destruct S1 as [A1 [B1 _]].
  rewrite J1, J2, A, B, E3. unfold tell. cbn. rewrite E2, A1, B1, (V L), combine_own. auto.
Qed.
(** A stop sets the flag. *)
Lemma handle_all_stop l : forall c r, In (MStop r) l -> e_flag (c_es (handle_all l c)) = true.
Proof.
  induction l as [|m l IH]; intros c r I; [destruct I|]. cbn. destruct I as [->|I]; [|now apply (IH _ r)].
  destruct (handle_all_same l (handle c (MStop r))) as (_ & _ & _ & _ & _ & F). now apply F.
Qed.
Lemma completions_stop n : forall ms c r, In (MStop r) (concat (firstn n ms)) ->
  snd (completions n ms c) = true /\ e_flag (c_es (fst (completions n ms c))) = true.
Proof.
  induction n as [|n IH]; intros ms c r I; [destruct I|]. destruct ms as [|m ms]; [destruct I|].
  change (completions (S n) (m :: ms) c) with (if e_flag (c_es (handle_all m c)) then (handle_all m c, true) else completions n ms (handle_all m c)).
  cbn in I. destruct (e_flag (c_es (handle_all m c))) eqn:F; [split; [reflexivity|exact F]|].
  apply in_app_or in I as [I|I]; [|now apply (IH _ _ r)]. rewrite (handle_all_stop _ _ _ I) in F. discriminate.
Qed.
Lemma round_stop g f x0 i w c c' : stop_in g w -> round g f x0 i w c = Ok (inr c') -> e_flag (c_es c') = true.
Proof.
  intro S. unfold round. destruct (parallel_map g f w c) as [fx c1] eqn:P.
  assert (D : stop_during g w -> e_flag (c_es c1) = true).
  { intros (Q & W & r & I). revert P. unfold parallel_map. apply Nat.ltb_lt in W. rewrite W, Q.
    destruct (completions_stop _ _ c r I) as [_ F]. destruct (completions _ _ c) as [c2 b]. intro H. injection H as _ <-. exact F. }
  destruct (Nat.eqb _ _); cbn [negb]; [|discriminate].
  destruct (first_incumbent i x0 fx c1) as [c2|] eqn:FI; [|discriminate]. apply first_incumbent_spec in FI as [E2 _].
  destruct (read_result _ _ _) as [c3|] eqn:R; [|discriminate]. apply read_result_spec in R as [_ [_ [_ [_ [_ [_ E3]]]]]].
  set (c4 := if i_callback w then _ else c3). set (c5 := if g_queue g then _ else c4).
  destruct (injection g i fx c5) as [c6|] eqn:J; [|discriminate]. intro H. injection H as <-. apply injection_spec in J as [_ [_ [-> _]]].
  assert (S4 : same c3 c4) by (unfold c4; destruct (i_callback w); [apply (handle_same c3 (MStop Other))|apply same_refl]).
  assert (S5 : same c4 c5) by (unfold c5; destruct (g_queue g); [apply handle_all_same|apply same_refl]).
  destruct S as [S|[(Q & r & I)|S]].
  - destruct S5 as (_ & _ & _ & _ & _ & F). apply F. unfold c4. now rewrite S.
  - unfold c5. rewrite Q. now apply (handle_all_stop _ _ r).
  - destruct (same_trans _ _ _ S4 S5) as (_ & _ & _ & _ & _ & F). apply F. rewrite E3. cbn. rewrite E2. auto.
Qed.
Lemma collect_short (f : X -> num) gone xs : forall k j, j < length xs -> gone (k + j) = true -> length (collect f gone k xs) < length xs.
Proof.
  induction xs as [|x xs IH]; intros k j L G; cbn in *; [lia|]. rewrite app_length. pose proof (collect_length f gone xs (S k)).
  destruct j as [|j]; [rewrite Nat.add_0_r in G; rewrite G; cbn; lia|].
  rewrite Nat.add_succ_r in G. specialize (IH (S k) j ltac:(lia) G). destruct (gone k); cbn; lia.
Qed.
Lemma round_cancelled g f x0 i w c : stop_during g w -> (exists j, j < length (i_ask w) /\ i_cancel w j = true) ->
  exists c', round g f x0 i w c = Ok (inl c').
Proof.
  intros (Q & W & r & I) (j & L & C). unfold round. destruct (parallel_map g f w c) as [fx c1] eqn:P.
  assert (N : length fx < length (i_ask w)).
  { revert P. unfold parallel_map. apply Nat.ltb_lt in W. rewrite W, Q. destruct (completions_stop _ _ c r I) as [B _].
    destruct (completions _ _ c) as [c2 b]. cbn in B. rewrite B. intro H. injection H as <- _. now apply (collect_short _ _ _ 0 j). }
  assert (X1 : Nat.eqb (length (i_ask w)) (length fx) = false) by (apply Nat.eqb_neq; lia). rewrite X1. now exists c1.
Qed.
Lemma round_inl g f x0 i w c c' : round g f x0 i w c = Ok (inl c') ->
  same c c' /\ e_flag (c_es c') = true.
Proof.
  unfold round. destruct (parallel_map g f w c) as [fx c1] eqn:P. apply parallel_map_spec in P as [S1 [_ V]].
  destruct (Nat.eqb_spec (length (i_ask w)) (length fx)) as [L|L]; cbn [negb].
  - destruct (first_incumbent i x0 fx c1) as [c2|]; [|discriminate].
    destruct (read_result _ _ _) as [c3|]; [|discriminate]. destruct (injection _ _ _ _); discriminate.
  - intro H. injection H as <-. auto.
Qed.

Definition state_of (o : outcome X) : cma X := match o with Done c _ => c | Running c _ => c end.
Lemma loop_told g f x0 ws : forall i xs c o, loop g f x0 i xs ws c = Ok o ->
  exists k, k <= length ws /\ e_told (c_es (state_of o)) = e_told (c_es c) ++ own_values f (map i_ask (firstn k ws)) /\
    e_iter (c_es (state_of o)) = e_iter (c_es c) + k /\
    (forall c' xs', o = Done c' xs' -> k < length ws /\ ((e_flag (c_es c') || match nth_error ws k with Some w => i_stop w | None => false end) = true)) /\
    (forall c' xs', o = Running c' xs' -> k = length ws).
Proof.
  induction ws as [|w ws IH]; intros i xs c o E; cbn in E.
  - injection E as <-. exists 0. cbn. rewrite app_nil_r. splits; auto; try lia; discriminate.
  - destruct (e_flag (c_es c) || i_stop w) eqn:F.
    + injection E as <-. exists 0. cbn. rewrite app_nil_r. splits; auto; try lia; [|discriminate]. intros c' xs' H. injection H as <- <-. split; [lia|exact F].
    + destruct (round g f x0 (S i) w c) as [[c1|c1]|] eqn:R; try discriminate.
      * injection E as <-. apply round_inl in R as [R1 R2]. destruct R1 as [A [B _]]. exists 0. cbn. rewrite app_nil_r. splits; auto; try lia; try congruence.
        intros c' xs' H. injection H as <- <-. split; [lia|]. now rewrite R2.
      * apply round_inr in R as [R1 R2]. apply IH in E as [k [K [T [I [D N]]]]]. exists (S k). cbn [firstn map own_values flat_map length]. splits.
        -- lia.
        -- rewrite T, R1, <- app_assoc. reflexivity.
        -- lia.
        -- intros c' xs' H. destruct (D c' xs' H) as [D1 D2]. split; [lia|]. exact D2.
        -- intros c' xs' H. now rewrite (N c' xs' H).
Qed.

(** ** The best of what was told *)
Lemma best_spec (tl : list (X * num)) : forall b, nnan (snd b) = false ->
  let r := best b tl in nle (snd r) (snd b) = true /\ (forall y u, In (y, u) tl -> nlt u (snd r) = false) /\
  (r = b \/ exists x, fst r = Some x /\ In (x, snd r) tl /\ nlt (snd r) (snd b) = true).
Proof.
  induction tl as [|[x v] tl IH]; intros b N; cbn [best].
  - cbn. splits; [destruct (snd b); try discriminate; cbn; auto; apply Qle_bool_iff, Qle_refl|contradiction|auto].
  - set (b' := if nlt v (snd b) then (Some x, v) else b).
    assert (N' : nnan (snd b') = false).
    { unfold b'. destruct (nlt v (snd b)) eqn:L; [|exact N]. cbn. destruct v; cbn in *; congruence. }
    destruct (IH b' N') as [A [B C]]. cbv zeta in *. set (r := best b' tl) in *. clearbody r. clear IH.
    assert (K : nle (snd b') (snd b) = true /\ nlt v (snd b') = false).
    { unfold b'. destruct (nlt v (snd b)) eqn:L; cbn [snd]; split; auto; destruct v, (snd b); cbn in *; try congruence; numsolve. }
    destruct K as [K1 K2]. splits.
    + clear - A K1 N N'. clearbody b'. destruct (snd r), (snd b'), (snd b); cbn in *; try congruence; numsolve.
    + intros y u [H|H]; [|eauto]. injection H as <- <-. clear - A K2 N'. destruct v, (snd r), (snd b'); cbn in *; try congruence; numsolve.
    + destruct C as [->|[y [C1 [C2 C3]]]].
      * unfold b'. destruct (nlt v (snd b)) eqn:L; [|auto]. right. exists x. cbn. splits; auto.
      * right. exists y. splits; auto; [now right|]. clear - C3 K1 N'. destruct (snd r), (snd b'), (snd b); cbn in *; try congruence; numsolve.
Qed.

(** ** Success *)
Lemma handle_all_success l : forall c, r_success (c_result (handle_all l c)) = true -> r_success (c_result c) = true \/ In Other (msg_reasons l).
Proof.
  induction l as [|m l IH]; intros c H; [now left|]. cbn in H. apply IH in H as [H|H].
  - destruct m as [r|x v|]; cbn in *; auto. destruct r; cbn in H; try discriminate. right. now left.
  - right. unfold msg_reasons. cbn. apply in_or_app. now right.
Qed.
Lemma completions_success n : forall ms c c' b, completions n ms c = (c', b) -> r_success (c_result c') = true ->
  r_success (c_result c) = true \/ In Other (flat_map msg_reasons ms).
Proof.
  induction n as [|n IH]; intros ms c c' b E H; cbn in E; [injection E as <- <-; now left|].
  destruct (e_flag (c_es (handle_all (hd [] ms) c))).
  - injection E as <- <-. apply handle_all_success in H as [H|H]; [now left|]. right. destruct ms; [contradiction|]. cbn. apply in_or_app. now left.
  - apply (IH _ _ _ _ E) in H as [H|H]; [apply handle_all_success in H as [H|H]|].
    + now left.
    + right. destruct ms; [contradiction|]. cbn. apply in_or_app. now left.
    + right. destruct ms; [contradiction|]. cbn. apply in_or_app. now right.
Qed.
Lemma parallel_map_success g f w c fx c' : parallel_map g f w c = (fx, c') -> r_success (c_result c') = true ->
  r_success (c_result c) = true \/ In Other (stop_requests w).
Proof.
  unfold parallel_map, stop_requests. destruct (Nat.ltb 1 (g_workers g)); [destruct (g_queue g)|].
  - destruct (completions _ _ c) as [c1 b] eqn:E. intro H. injection H as <- <-. intro S. apply (completions_success _ _ _ _ _ E) in S as [S|S]; [now left|].
    right. apply in_or_app. now left.
  - intro H. injection H as <- <-. auto.
  - intro H. injection H as <- <-. auto.
Qed.
Lemma round_success g f x0 i w c o : round g f x0 i w c = Ok o ->
  r_success (c_result (match o with inl c => c | inr c => c end)) = true -> r_success (c_result c) = true \/ In Other (stop_requests w).
Proof.
  unfold round. destruct (parallel_map g f w c) as [fx c1] eqn:P.
  destruct (negb _).
  { intro H. injection H as <-. intro S. exact (parallel_map_success _ _ _ _ _ _ P S). }
  destruct (first_incumbent i x0 fx c1) as [c2|] eqn:FI; [|discriminate]. apply first_incumbent_spec in FI as [_ [E2 _]].
  destruct (read_result _ _ _) as [c3|] eqn:R; [|discriminate]. apply read_result_spec in R as [_ [_ [E3 _]]].
  set (c4 := if i_callback w then _ else c3). set (c5 := if g_queue g then _ else c4).
  destruct (injection g i fx c5) as [c6|] eqn:J; [|discriminate]. intro H. injection H as <-. apply injection_spec in J as [_ [_ [_ [J _]]]].
  rewrite J. intro S.
  assert (S4 : r_success (c_result c4) = true \/ In Other (stop_requests w)).
  { unfold c5 in S. destruct (g_queue g); [|now left]. apply handle_all_success in S as [S|S]; [now left|]. right. unfold stop_requests.
    apply in_or_app. right. apply in_or_app. now right. }
  destruct S4 as [S4|S4]; [|now right].
  assert (S3 : r_success (c_result c3) = true \/ In Other (stop_requests w)).
  { unfold c4 in S4. destruct (i_callback w) eqn:CB; [|now left]. right. unfold stop_requests. rewrite CB. apply in_or_app. right. now left. }
  destruct S3 as [S3|S3]; [|now right]. rewrite E3, E2 in S3. exact (parallel_map_success _ _ _ _ _ _ P S3).
Qed.
Lemma loop_success g f x0 ws : forall i xs c o, loop g f x0 i xs ws c = Ok o -> r_success (c_result (state_of o)) = true ->
  r_success (c_result c) = true \/ exists w, In w ws /\ In Other (stop_requests w).
Proof.
  induction ws as [|w ws IH]; intros i xs c o E H; cbn in E; [injection E as <-; now left|].
  destruct (e_flag (c_es c) || i_stop w); [injection E as <-; now left|].
  destruct (round g f x0 (S i) w c) as [[c1|c1]|] eqn:R; try discriminate.
  - injection E as <-. apply (round_success _ _ _ _ _ _ _ R) in H as [H|H]; [now left|]. right. exists w. split; [now left|exact H].
  - apply (IH _ _ _ _ E) in H as [H|[v [H1 H2]]].
    + apply (round_success _ _ _ _ _ _ _ R) in H as [H|H]; [now left|]. right. exists w. split; [now left|exact H].
    + right. exists v. split; [now right|exact H2].
Qed.

(** ** Injections *)
Lemma handle_all_inc l : forall c, c_inc (handle_all l c) = c_inc c \/ exists x v, c_inc (handle_all l c) = (Some x, Some v) /\ In (MInject x v) l.
Proof.
  induction l as [|m l IH]; intro c; [now left|]. cbn. destruct (IH (handle c m)) as [H|[x [v [H1 H2]]]].
  - destruct m as [r|x v|]; cbn in H; [now left| |now left]. right. exists x, v. split; [exact H|now left].
  - right. exists x, v. split; [exact H1|now right].
Qed.
Lemma completions_inc n : forall ms c c' b, completions n ms c = (c', b) ->
  c_inc c' = c_inc c \/ exists x v, c_inc c' = (Some x, Some v) /\ In (MInject x v) (concat ms).
Proof.
  induction n as [|n IH]; intros ms c c' b E; cbn in E; [injection E as <- <-; now left|].
  assert (K : c_inc (handle_all (hd [] ms) c) = c_inc c \/ exists x v, c_inc (handle_all (hd [] ms) c) = (Some x, Some v) /\ In (MInject x v) (concat ms)).
  { destruct (handle_all_inc (hd [] ms) c) as [H|[x [v [H1 H2]]]]; [now left|]. right. exists x, v. split; [exact H1|].
    destruct ms; [contradiction|]. cbn. apply in_or_app. now left. }
  destruct (e_flag (c_es (handle_all (hd [] ms) c))).
  - injection E as <- <-. exact K.
  - apply IH in E as [E|[x [v [E1 E2]]]]; [now rewrite E|]. right. exists x, v. split; [exact E1|]. destruct ms; [contradiction|]. cbn. apply in_or_app. now right.
Qed.
Lemma parallel_map_inc g f w c fx c' : parallel_map g f w c = (fx, c') ->
  c_inc c' = c_inc c \/ exists x v, c_inc c' = (Some x, Some v) /\ sent w x v.
Proof.
  unfold parallel_map, sent. destruct (Nat.ltb 1 (g_workers g)); [destruct (g_queue g)|].
  - destruct (completions _ _ c) as [c1 b] eqn:E. intro H. injection H as <- <-. apply completions_inc in E as [E|[x [v [E1 E2]]]]; [now left|].
    right. exists x, v. split; [exact E1|]. apply in_or_app. now left.
  - intro H. injection H as <- <-. now left.
  - intro H. injection H as <- <-. now left.
Qed.

Lemma min_of_beats (f : X -> num) pop m v : min_of (map f pop) = Ok m -> nlt v m = true -> beats f pop v.
Proof.
  destruct pop as [|a pop]; cbn; [discriminate|]. intro H. injection H as <-.
  assert (G : forall (l : list X) a, nlt v (fold_left (fun a b => if nlt b a then b else a) (map f l) a) = true ->
     nlt v a = true /\ forall y, In y l -> nnan (f y) = false -> nlt v (f y) = true).
  { induction l as [|b l IH]; intros z H; cbn in H; [split; [exact H|contradiction]|].
    apply IH in H as [H1 H2]. clear IH. destruct (nlt (f b) z) eqn:L.
    - split.
      + clear - L H1. destruct v, (f b), z; cbn in *; try congruence; numsolve.
      + intros y [<-|I] N; auto.
    - split; [exact H1|]. intros y [<-|I] N; auto. clear - L H1 N. destruct v, (f b), z; cbn in *; try congruence; numsolve. }
  intro H. apply G in H as [H1 H2]. intros y [<-|I] N; auto.
Qed.
Lemma injection_beats g i (f : X -> num) pop c c' : injection g i (map f pop) c = Ok c' -> c_injs c' <> c_injs c ->
  exists x v, c_inc c = (Some x, Some v) /\ beats f pop v.
Proof.
  unfold injection. destruct (min_of _) as [m|] eqn:M; [|discriminate]. destruct (c_inc c) as [ix [iv|]]; cbn [opt_lt fst snd]; [|discriminate].
  destruct (nlt iv m) eqn:L; [|intro H; injection H as <-; congruence].
  destruct (g_freq g) as [[|k]|]; try (intro H; injection H as <-; congruence).
  destruct ix as [x|]; [|intro H; injection H as <-; congruence]. intros _ _. exists x, iv. split; [reflexivity|]. eapply min_of_beats; eauto.
Qed.

(** Where an incumbent comes from: loaded with the state, the start vector, or a message. *)
Definition origin (f : X -> num) (x0 : X) (inc : option X * option num) (ws : list (inp X)) (x : X) (v : num) : Prop :=
  inc = (Some x, Some v) \/ (exists w a r, In w ws /\ i_ask w = a :: r /\ x = x0 /\ v = f a) \/ exists w, In w ws /\ sent w x v.
Lemma origin_mono f x0 inc ws ws' x v : (forall w, In w ws -> In w ws') -> origin f x0 inc ws x v -> origin f x0 inc ws' x v.
Proof. intros S [H|[[w [a [r [I H]]]]|[w [I H]]]]; [now left|right; left; exists w, a, r; auto|right; right; exists w; auto]. Qed.

Definition new_injection (f : X -> num) (x0 : X) inc (ws : list (inp X)) (i : nat) (p : nat * X) : Prop :=
  i < fst p /\ exists w v, nth_error ws (fst p - S i) = Some w /\ beats f (i_ask w) v /\ origin f x0 inc ws (snd p) v.

Lemma round_injs g f x0 i w c c' : round g f x0 i w c = Ok (inr c') ->
  (forall x v, c_inc c' = (Some x, Some v) -> origin f x0 (c_inc c) [w] x v) /\
  ((c_ctr c' = c_ctr c /\ c_injs c' = c_injs c) \/
   (exists k x v, g_freq g = Some k /\ k + c_ctr c < i /\ c_ctr c' = i /\ c_injs c' = c_injs c ++ [(i, x)] /\ beats f (i_ask w) v /\ origin f x0 (c_inc c) [w] x v)).
Proof.
  unfold round. destruct (parallel_map g f w c) as [fx c1] eqn:P. pose proof (parallel_map_inc _ _ _ _ _ _ P) as I1. apply parallel_map_spec in P as [S1 [V _]].
  destruct (Nat.eqb_spec (length (i_ask w)) (length fx)) as [L|L]; cbn [negb]; [|discriminate]. specialize (V L). clear L. subst fx.
  destruct (first_incumbent i x0 (map f (i_ask w)) c1) as [c2|] eqn:FI; [|discriminate].
  assert (O2 : forall x v, c_inc c2 = (Some x, Some v) -> origin f x0 (c_inc c) [w] x v).
  { intros x v. unfold first_incumbent in FI. destruct (Nat.eqb i 1).
    - destruct (i_ask w) as [|a r] eqn:A; cbn in FI; [discriminate|]. injection FI as <-. cbn. intro H. injection H as <- <-. right. left.
      exists w, a, r. splits; auto. now left.
    - injection FI as <-. destruct I1 as [I1|[y [u [I1 I2]]]]; rewrite I1.
      + intro H. now left.
      + intro H. injection H as <- <-. right. right. exists w. split; [now left|exact I2]. }
  apply first_incumbent_spec in FI as [E2 [R2 [C2 [J2 _]]]].
  destruct (read_result _ _ _) as [c3|] eqn:R; [|discriminate]. apply read_result_spec in R as [S3 [I3 _]]. unfold tell in I3, S3. cbn in I3.
  destruct S3 as [_ [_ [_ [C3 [J3 _]]]]]. cbn in C3, J3.
  set (c4 := if i_callback w then _ else c3). set (c5 := if g_queue g then _ else c4).
  assert (I4 : c_inc c4 = c_inc c3 /\ c_ctr c4 = c_ctr c3 /\ c_injs c4 = c_injs c3) by (unfold c4; destruct (i_callback w); cbn; auto).
  assert (I5 : c_inc c5 = c_inc c4 \/ exists x v, c_inc c5 = (Some x, Some v) /\ sent w x v).
  { unfold c5, sent. destruct (g_queue g); [|now left]. destruct (handle_all_inc (i_after w) c4) as [H|[x [v [H1 H2]]]]; [now left|].
    right. exists x, v. split; [exact H1|]. apply in_or_app. now right. }
  assert (C5 : same c4 c5) by (unfold c5; destruct (g_queue g); [apply handle_all_same|apply same_refl]).
  destruct C5 as [_ [_ [_ [C5 [J5 _]]]]]. destruct I4 as [I4 [C4 J4]]. destruct S1 as [_ [_ [_ [C1 [J1 _]]]]].
  assert (O5 : forall x v, c_inc c5 = (Some x, Some v) -> origin f x0 (c_inc c) [w] x v).
  { intros x v. destruct I5 as [I5|[y [u [I5 I6]]]]; rewrite I5.
    - rewrite I4, I3. apply O2.
    - intro H. injection H as <- <-. right. right. exists w. split; [now left|exact I6]. }
  destruct (injection g i _ c5) as [c6|] eqn:J; [|discriminate]. intro H. injection H as <-.
  pose proof (injection_beats _ _ _ _ _ _ J) as B. apply injection_spec in J as [_ [_ [_ [_ [J K]]]]].
  split; [intros x v Hi; apply O5; congruence|].
  destruct J as [[J6 [J7 _]]|[k [x [v [G [Hk [Hc [Hi [Hj _]]]]]]]]]; [left; split; congruence|].
  right. destruct B as [x' [v' [Bi B]]]; [rewrite Hj; clear; intro E; apply (f_equal (@length _)) in E; rewrite app_length in E; cbn in E; lia|].
  rewrite Hi in Bi. injection Bi as <- <-. exists k, x, v. splits; auto; try congruence; lia.
Qed.

Lemma loop_injs g f x0 ws : forall i xs c o, loop g f x0 i xs ws c = Ok o ->
  exists l : list (nat * X), c_injs (state_of o) = c_injs c ++ l /\ Forall (new_injection f x0 (c_inc c) ws i) l /\
    match g_freq g with None => l = [] | Some k => spaced k (c_ctr c) (map fst l) end.
Proof.
  induction ws as [|w ws IH]; intros i xs c o E; cbn in E.
  - injection E as <-. exists []. cbn. rewrite app_nil_r. splits; auto. now destruct (g_freq g).
  - destruct (e_flag (c_es c) || i_stop w).
    { injection E as <-. exists []. cbn. rewrite app_nil_r. splits; auto. now destruct (g_freq g). }
    destruct (round g f x0 (S i) w c) as [[c1|c1]|] eqn:R; try discriminate.
    { injection E as <-. apply round_inl in R as [[_ [_ [_ [_ [R _]]]]] _]. exists []. cbn. rewrite app_nil_r. splits; auto. now destruct (g_freq g). }
    apply round_injs in R as [O R]. apply IH in E as [l [E1 [E2 E3]]]. clear IH.
    assert (M : Forall (new_injection f x0 (c_inc c) (w :: ws) i) l).
    { eapply Forall_impl; [|exact E2]. intros [j x] [A [w' [v [B [C D]]]]]. cbn in *. split; [cbn; lia|]. exists w', v. cbn. splits; auto.
      - replace (j - S i) with (S (j - S (S i))) by lia. exact B.
      - destruct D as [D|[[w1 [a [r [I H]]]]|[w1 [I H]]]].
        + apply O in D. eapply origin_mono; [|exact D]. intros w1 [<-|[]]. now left.
        + right. left. exists w1, a, r. split; [now right|exact H].
        + right. right. exists w1. split; [now right|exact H]. }
    destruct R as [[R1 R2]|[k [x [v [G [Hk [Hc [Hj [Hb Ho]]]]]]]]].
    + exists l. rewrite E1, R2, <- R1. auto.
    + exists ((S i, x) :: l). rewrite E1, Hj, <- app_assoc. splits; auto.
      * constructor; [|exact M]. split; [cbn; lia|]. exists w, v. cbn. replace (i - i) with 0 by lia. splits; auto.
        eapply origin_mono; [|exact Ho]. intros w1 [<-|[]]. now left.
      * rewrite G in *. cbn. split; [lia|]. now rewrite Hc in E3.
Qed.

(** ** GFLS *)
Lemma submit_accounted (f : X -> num) n : forall xs s, accounted f s -> accounted f (submit n xs s) /\ length (s_futures (submit n xs s)) <= length (s_futures s) + n /\
  s_stop (submit n xs s) = s_stop s /\ s_result (submit n xs s) = s_result s.
Proof.
  induction n as [|n IH]; intros xs s A; cbn; [splits; auto; lia|]. destruct xs as [|x xs]; [splits; auto; lia|].
  match goal with |- context [submit n xs ?t] => set (s' := t) end.
  assert (A' : accounted f s').
  { destruct A as [A [B C]]. unfold s', accounted. cbn. splits.
    - rewrite app_length, app_assoc. cbn [length]. rewrite Nat.add_1_r, seq_S. cbn. now apply Permutation_app_tail.
    - intros k v H. destruct (B k v H) as [y [B1 B2]]. exists y. split; [|exact B2]. rewrite nth_error_app1; [exact B1|]. apply nth_error_Some. congruence.
    - rewrite app_length. cbn. lia. }
  destruct (IH xs s' A') as [H1 [H2 [H3 H4]]]. splits; auto. unfold s' in H2 at 2. cbn in H2. rewrite app_length in H2. cbn in H2. lia.
Qed.
Lemma filter_out_perm (k : nat) (l : list nat) : NoDup l -> In k l -> Permutation l (k :: filter (fun j => negb (Nat.eqb j k)) l).
Proof.
  induction l as [|a l IH]; intros N I; [contradiction|]. inversion N; subst. cbn. destruct (Nat.eqb_spec a k) as [->|D]; cbn.
  - assert (F : forall m, ~ In k m -> filter (fun j => negb (Nat.eqb j k)) m = m).
    { induction m as [|b m IHm]; intro Hm; [reflexivity|]. cbn. destruct (Nat.eqb_spec b k) as [->|]; cbn; [exfalso; apply Hm; now left|].
      f_equal. apply IHm. intro Q. apply Hm. now right. }
    now rewrite F.
  - destruct I as [->|I]; [congruence|]. rewrite (IH H2 I) at 1. apply perm_swap.
Qed.
Lemma evaluate_accounted workers (f : X -> num) (w : ginp X) s s' : evaluate workers f w s = Ok s' -> accounted f s ->
  accounted f s' /\ s_stop s' = s_stop s /\ s_result s' = s_result s /\ length (s_told s') = S (length (s_told s)) /\
  (length (s_futures s) <= workers - 1 -> length (s_futures s') <= workers - 1).
Proof.
  unfold evaluate. intros E A. set (s1 := if Nat.ltb 1 workers then _ else _) in E.
  assert (K : accounted f s1 /\ length (s_futures s1) <= length (s_futures s) + (if Nat.ltb 1 workers then workers - length (s_futures s) else 1) /\
    s_stop s1 = s_stop s /\ s_result s1 = s_result s /\ s_told s1 = s_told s).
  { assert (T : forall n xs t, s_told (@submit X n xs t) = s_told t) by (induction n; intros [|] t; cbn; auto; now rewrite IHn).
    assert (U : forall n, accounted f (submit n (gi_ask w) s) /\ length (s_futures (submit n (gi_ask w) s)) <= length (s_futures s) + n /\
      s_stop (submit n (gi_ask w) s) = s_stop s /\ s_result (submit n (gi_ask w) s) = s_result s /\ s_told (submit n (gi_ask w) s) = s_told s).
    { intro n. destruct (submit_accounted f n (gi_ask w) _ A) as [B [C [D F]]]. splits; auto. }
    unfold s1. destruct (Nat.ltb 1 workers); apply U. }
  destruct K as [K1 [K2 [K3 [K4 K5]]]]. clearbody s1.
  destruct (nth_error (s_futures s1) (gi_pop w)) as [k|] eqn:P; [|discriminate]. destruct (nth_error (s_asked s1) k) as [x|] eqn:Q; [|discriminate].
  injection E as <-. destruct K1 as [A1 [A2 A3]]. cbn.
  assert (N : NoDup (s_futures s1)).
  { pose proof (seq_NoDup (length (s_asked s1)) 0) as ND.
    apply (Permutation_NoDup (Permutation_sym A1)) in ND. clear - ND. induction (map fst (s_told s1)) as [|b l IH]; [exact ND|]. inversion ND; auto. }
  pose proof (filter_out_perm k _ N (nth_error_In _ _ P)) as F. splits; auto.
  - split; [|split]; cbn.
    + rewrite map_app. cbn. rewrite <- app_assoc. cbn. now rewrite <- F.
    + intros j v H. apply in_app_or in H as [H|[H|[]]]; [exact (A2 j v H)|]. injection H as <- <-. eauto.
    + exact A3.
  - rewrite app_length. cbn. rewrite K5. lia.
  - apply Permutation_length in F. cbn in F. intro L. destruct (Nat.ltb_spec 1 workers); lia.
Qed.
(** The loop does not outlive a stop. *)
Lemma loop_stop g f x0 w post : stop_in g w -> post <> [] -> forall pre i xs c o, e_iter (c_es c) = i ->
  loop g f x0 i xs (pre ++ w :: post) c = Ok o ->
  exists c' xs', o = Done c' xs' /\ e_iter (c_es c') <= S (i + length pre) /\
    (stop_during g w -> (exists j, j < length (i_ask w) /\ i_cancel w j = true) -> e_iter (c_es c') <= i + length pre).
Proof.
  intros S NE. induction pre as [|v pre IH]; intros i xs c o I E; cbn [app] in E; cbn [loop] in E.
  - destruct (e_flag (c_es c) || i_stop w); [injection E as <-; exists c, xs; splits; auto; lia|].
    destruct (round g f x0 (Datatypes.S i) w c) as [[c1|c1]|] eqn:R; [| |discriminate].
    + injection E as <-. apply round_inl in R as [[R _] _]. exists c1, (Some (i_ask w)). splits; auto; lia.
    + pose proof (round_stop _ _ _ _ _ _ _ S R) as F. destruct post as [|v post]; [contradiction|]. cbn [loop] in E. rewrite F in E. cbn in E. injection E as <-.
      pose proof R as R'. apply round_inr in R as [_ R]. exists c1, (Some (i_ask w)). splits; auto; [lia|].
      intros D C. destruct (round_cancelled g f x0 (Datatypes.S i) w c D C). congruence.
  - destruct (e_flag (c_es c) || i_stop v); [injection E as <-; exists c, xs; splits; auto; lia|].
    destruct (round g f x0 (Datatypes.S i) v c) as [[c1|c1]|] eqn:R; [| |discriminate].
    + injection E as <-. apply round_inl in R as [[R _] _]. exists c1, (Some (i_ask v)). splits; auto; lia.
    + apply round_inr in R as [_ R]. rewrite I in R. destruct (IH (Datatypes.S i) _ _ _ R E) as (c' & xs' & -> & A & B). exists c', xs'. cbn. splits; auto; [lia|].
      intros D C. specialize (B D C). lia.
Qed.
End P.
