(** * Proofs about the live plot *)
From Coq Require Import Lqa.
From Verif Require Import Prelude Prelude_Proofs Helpers_Spec Scope_Model Scope_Spec.

Lemma dget_dset {V} i j (v : V) d : nget i (nset j v d) = if Nat.eqb i j then Some v else nget i d.
Proof.
  induction d as [|[k w] d IH]; cbn; [reflexivity|].
  destruct (Nat.eqb_spec j k); cbn.
  - subst. destruct (Nat.eqb_spec i k); reflexivity.
  - rewrite IH. destruct (Nat.eqb_spec i k); [|reflexivity]. subst. destruct (Nat.eqb_spec k j); congruence.
Qed.
Lemma nset_keys {V} j (v : V) d : map fst (nset j v d) = if nmemd j d then map fst d else map fst d ++ [j].
Proof.
  unfold dmem. induction d as [|[k w] d IH]; cbn; [reflexivity|]. destruct (Nat.eqb_spec j k); cbn; [reflexivity|].
  rewrite IH. destruct (dget Nat.eqb j d); reflexivity.
Qed.
Lemma nget_in {V} j (d : list (nat * V)) : nget j d = None <-> ~ In j (map fst d).
Proof.
  induction d as [|[k w] d IH]; cbn; [tauto|]. destruct (Nat.eqb_spec j k).
  - subst. split; [discriminate|]. intro H. elim H. auto.
  - rewrite IH. intuition congruence.
Qed.
Lemma nset_nodup {V} j (v : V) d : NoDup (map fst d) -> NoDup (map fst (nset j v d)).
Proof.
  intro H. rewrite nset_keys. unfold dmem. destruct (dget Nat.eqb j d) eqn:E; [exact H|].
  apply nget_in in E. apply NoDup_rev in H. rewrite <- (rev_involutive (map fst d ++ [j])). apply NoDup_rev.
  rewrite rev_app_distr. cbn. constructor; [|exact H]. rewrite <- in_rev. exact E.
Qed.
Lemma nmem_in j l : nmem j l = true <-> In j l.
Proof. unfold nmem. rewrite existsb_exists. split; [intros [x [H E]]; apply Nat.eqb_eq in E; congruence | intro H; exists j; rewrite Nat.eqb_refl; auto]. Qed.
Lemma nmem_nadd i j l : nmem i (nadd j l) = Nat.eqb i j || nmem i l.
Proof.
  unfold nadd. destruct (nmem j l) eqn:E.
  - destruct (Nat.eqb_spec i j); [subst; exact E | reflexivity].
  - unfold nmem. rewrite existsb_app. cbn. rewrite orb_false_r. apply orb_comm.
Qed.

(** ** The purge *)
Lemma purge_get lo l : forall dead i,
  nget i (fst (purge lo dead l)) = match nget i l with Some pts => Some (if nmem i dead then pts else inside lo pts) | None => None end.
Proof.
  induction l as [|[j pts] l IH]; intros dead i; cbn; [reflexivity|].
  destruct (nmem j dead) eqn:Ej.
  - specialize (IH dead i). destruct (purge lo dead l) as [l2 d]. cbn in *. destruct (Nat.eqb_spec i j); [subst; rewrite Ej; reflexivity | exact IH].
  - set (dead' := match _ with [] => _ | _ => _ end). specialize (IH dead' i). destruct (purge lo dead' l) as [l2 d]. cbn in *.
    destruct (Nat.eqb_spec i j) as [->|n]; [rewrite Ej; reflexivity|]. rewrite IH.
    replace (nmem i dead') with (nmem i dead); [reflexivity|]. unfold dead'. destruct (filter _ pts); [|reflexivity].
    rewrite nmem_nadd. destruct (Nat.eqb_spec i j); [congruence|reflexivity].
Qed.
Lemma purge_keys lo l : forall dead, map fst (fst (purge lo dead l)) = map fst l.
Proof.
  induction l as [|[j pts] l IH]; intros dead; cbn; [reflexivity|].
  destruct (nmem j dead).
  - specialize (IH dead). destruct (purge lo dead l). cbn in *. congruence.
  - set (dead' := match _ with [] => _ | _ => _ end). specialize (IH dead'). destruct (purge lo dead' l). cbn in *. congruence.
Qed.
Lemma purge_dead lo l : forall dead i, NoDup (map fst l) -> nmem i (snd (purge lo dead l)) = true ->
  nmem i dead = true \/ exists pts, nget i l = Some pts /\ inside lo pts = [].
Proof.
  induction l as [|[j pts] l IH]; intros dead i N; cbn; [auto|]. inversion N as [|? ? N1 N2]; subst.
  destruct (nmem j dead) eqn:Ej.
  - specialize (IH dead i N2). destruct (purge lo dead l) as [l2 d]. cbn in *. intro H. destruct (IH H) as [|[q [Hq Eq]]]; [auto|]. right. exists q.
    destruct (Nat.eqb_spec i j); [|auto]. subst. assert (nget j l = None) by (apply nget_in; exact N1). congruence.
  - set (dead' := match _ with [] => _ | _ => _ end). specialize (IH dead' i N2). destruct (purge lo dead' l) as [l2 d]. cbn in *. intro H.
    destruct (IH H) as [Hd|[q [Hq Eq]]].
    + destruct (Nat.eqb_spec i j) as [->|n].
      * right. exists pts. split; [reflexivity|]. unfold inside. unfold dead' in Hd. destruct (filter _ pts); [reflexivity | congruence].
      * left. unfold dead' in Hd. destruct (filter _ pts); [|exact Hd]. rewrite nmem_nadd in Hd. destruct (Nat.eqb_spec i j); [congruence | exact Hd].
    + right. exists q. destruct (Nat.eqb_spec i j); [|auto]. subst. assert (nget j l = None) by (apply nget_in; exact N1). congruence.
Qed.

Lemma inside_inside a b l : a <= b -> inside b (inside a l) = inside b l.
Proof.
  intro H. unfold inside. induction l as [|[x y] l IH]; cbn; [reflexivity|]. destruct (Nat.leb_spec a x); cbn.
  - destruct (Nat.leb b x); rewrite IH; reflexivity.
  - rewrite IH. destruct (Nat.leb_spec b x); [lia|reflexivity].
Qed.
Lemma inside_app a k l : inside a (k ++ l) = inside a k ++ inside a l.
Proof. apply filter_app. Qed.

Lemma latest_app a b : latest (a ++ b) = Nat.max (latest a) (latest b).
Proof. induction a as [|[] a IH]; cbn; rewrite ?IH; lia. Qed.
Lemma points_app i a b : points i (a ++ b) = points i a ++ points i b.
Proof. apply flat_map_app. Qed.
Lemma changes_app a b : changes (a ++ b) = changes a + changes b.
Proof. unfold changes. rewrite filter_app, app_length. reflexivity. Qed.
Lemma added_app a b : added (a ++ b) = added a ++ added b.
Proof. apply flat_map_app. Qed.
Lemma window_mono c a b : window c a <= window c (a ++ b).
Proof. unfold window. destruct (c_trunc c); [rewrite latest_app|]; lia. Qed.

Lemma run_app c a b s : run c (a ++ b) s = match run c a s with Ok s' => run c b s' | Err e => Err e end.
Proof. revert s. induction a as [|e a IH]; intro s; cbn; [reflexivity|]. destruct (exec c e s) as [[u|x] s']; [apply IH | reflexivity]. Qed.

(** ** The invariant *)
(** The trajectory of optimizer [i]: [p] was shown when the plot was last redrawn, [q] came after. *)
Record drawn (c : config) (i : nat) (pre post : list event) (p q : line) : Prop := {
  dr_pre : map fst p = map fst (points i pre);
  dr_post : map fst q = map fst (points i post);
  dr_plain : c_elite c = false -> p ++ q = map (fun v => (fst v, scaled c (snd v))) (points i (pre ++ post));
  dr_best : c_elite c = true -> unbroken c i (pre ++ post) -> faithful c (map snd (points i (pre ++ post))) ->
            ~ In NaN (map snd (points i (pre ++ post))) ->
            forall k x v, nth_error (p ++ q) k = Some (x, v) ->
              exists w, v = scaled c w /\ smallest_of_first (S k) (map snd (points i (pre ++ post))) w }.

(** [k]: changes which are not yet counted. *)
Record inv (c : config) (k : nat) (es : list event) (s : scope) : Prop := {
  iv_xmax : s_xmax s = latest es;
  iv_keys : forall i, In i (map fst (s_opt s)) <-> In i (added es);
  iv_nodup : NoDup (map fst (s_opt s));
  iv_dead : forall i, nmem i (s_dead s) = true -> nget i (s_opt s) = Some [];
  iv_known : forall i, In i (added es) \/ points i es = [];
  iv_drawn : exists pre post, es = pre ++ post /\ changes post <= s_events s + k /\ (k = 0 -> changes post <= c_flush c) /\
     forall i l, nget i (s_opt s) = Some l -> exists p q, l = inside (window c pre) p ++ q /\ drawn c i pre post p q }.

Lemma unbroken_app c i a b : unbroken c i (a ++ b) -> unbroken c i a.
Proof. intros H a' x y b' E. apply (H a' x y (b' ++ b)). rewrite E, <- app_assoc. reflexivity. Qed.
Lemma faithful_incl c l k : (forall y, In y l -> In y k) -> faithful c k -> faithful c l.
Proof. unfold faithful. destruct (c_log c) as [[? ?]|]; auto. Qed.

Lemma drawn_ext c i pre post p q e : points i [e] = [] -> drawn c i pre post p q -> drawn c i pre (post ++ [e]) p q.
Proof.
  intros E D. assert (Ep : points i (post ++ [e]) = points i post) by (rewrite points_app, E, app_nil_r; reflexivity).
  assert (Ea : points i (pre ++ post ++ [e]) = points i (pre ++ post)) by (rewrite !(points_app i pre), Ep; reflexivity).
  destruct D as [D1 D2 D3 D4]. constructor.
  - exact D1.
  - rewrite Ep. exact D2.
  - rewrite Ea. exact D3.
  - rewrite Ea. intros H U. apply D4; [exact H|]. rewrite app_assoc in U. eapply unbroken_app. exact U.
Qed.

Lemma inv_quiet c k es s e :
  (match e with Setup => True | Mark _ _ => True | Redraw => True | _ => False end) ->
  inv c k es s -> inv c (k + changes [e]) (es ++ [e]) s.
Proof.
  intros He [I1 I2 I3 I4 I5 [pre [post [E [C1 [C2 D]]]]]].
  assert (Ep : forall i, points i [e] = []) by (intro i; destruct e; try contradiction; reflexivity).
  assert (Ea : added [e] = []) by (destruct e; try contradiction; reflexivity).
  constructor.
  - rewrite latest_app, I1. destruct e; try contradiction; cbn; lia.
  - intro i. rewrite added_app, Ea, app_nil_r. apply I2.
  - exact I3.
  - exact I4.
  - intro i. rewrite added_app, Ea, app_nil_r, points_app, Ep, app_nil_r. apply I5.
  - exists pre, (post ++ [e]). subst es. splits.
    + rewrite app_assoc. reflexivity.
    + rewrite changes_app. lia.
    + rewrite changes_app. intro. assert (k = 0) by lia. specialize (C2 H0). lia.
    + intros i l Hl. destruct (D i l Hl) as [p [q [El Dr]]]. exists p, q. split; [exact El|]. apply drawn_ext; [apply Ep | exact Dr].
Qed.

Lemma inv_redraw c es s force u s' : inv c 1 es s -> redraw c force s = (Ok u, s') -> inv c 0 es s'.
Proof.
  intros I. pose proof I as [I1 I2 I3 I4 I5 [pre [post [E [C1 [C2 D]]]]]]. unfold redraw.
  destruct (Nat.leb (c_flush c) (s_events s) || force) eqn:F.
  - set (s1 := match c_trunc c with None => _ | Some t => _ end). intro H.
    assert (J : inv c 0 es s1).
    { clear H. subst s1. unfold window in D. destruct (c_trunc c) as [t|] eqn:T.
      - cbn [s_xmax s_dead s_opt set_events]. pose proof (purge_get (s_xmax s - t) (s_opt s) (s_dead s)) as PG.
        pose proof (purge_keys (s_xmax s - t) (s_opt s) (s_dead s)) as PK.
        pose proof (fun i => purge_dead (s_xmax s - t) (s_opt s) (s_dead s) i I3) as PD.
        destruct (purge (s_xmax s - t) (s_dead s) (s_opt s)) as [l d]. cbn [fst snd] in *.
        assert (G : forall i, nget i l = match nget i (s_opt s) with Some pts => Some (inside (s_xmax s - t) pts) | None => None end).
        { intro i. rewrite PG. destruct (dget Nat.eqb i (s_opt s)) as [pts|] eqn:Ei; [|reflexivity]. destruct (nmem i (s_dead s)) eqn:Ed; [|reflexivity].
          apply I4 in Ed. rewrite Ei in Ed. injection Ed as ->. reflexivity. }
        constructor; cbn [s_xmax s_opt s_dead s_events set_opt set_dead set_events].
        + exact I1.
        + intro i. rewrite PK. apply I2.
        + rewrite PK. exact I3.
        + intros i Hi. rewrite G. destruct (PD i Hi) as [Hd|[pts [Ei Hp]]].
          * rewrite (I4 i Hd). reflexivity.
          * rewrite Ei, Hp. reflexivity.
        + exact I5.
        + exists es, []. splits; [rewrite app_nil_r; reflexivity | cbn; lia | cbn; lia |].
          intros i l0 Hl. rewrite G in Hl. destruct (dget Nat.eqb i (s_opt s)) as [pts|] eqn:Ei; [|discriminate]. injection Hl as <-.
          destruct (D i pts Ei) as [p [q [El [D1 D2 D3 D4]]]]. exists (p ++ q), []. rewrite app_nil_r. split.
          * rewrite El. unfold window. rewrite T, I1, inside_app, inside_inside, <- inside_app; [reflexivity|]. subst es. rewrite latest_app. lia.
          * subst es. constructor; rewrite ?app_nil_r; auto. rewrite map_app, points_app, map_app. congruence.
      - constructor; cbn; auto. exists es, []. splits; [rewrite app_nil_r; reflexivity | cbn; lia | cbn; lia |].
        intros i l0 Hl. destruct (D i l0 Hl) as [p [q [El [D1 D2 D3 D4]]]]. exists (p ++ q), []. rewrite app_nil_r. split.
        * rewrite El. unfold window. rewrite T, inside_app. f_equal. symmetry. unfold inside. clear. induction q as [|a q IH]; [reflexivity|]. cbn [filter]. change (Nat.leb 0 (fst a)) with true. cbn iota. f_equal. exact IH.
        * subst es. constructor; rewrite ?app_nil_r; auto. rewrite map_app, points_app, map_app. congruence. }
    destruct (c_movie c); [destruct (s_setup s1); [|discriminate]|]; injection H as _ <-; [|exact J].
    destruct J as [J1 J2 J3 J4 J5 J6]. constructor; assumption.
  - intro H. injection H as _ <-. apply orb_false_iff in F as [F _]. apply Nat.leb_gt in F. constructor; cbn; auto.
    exists pre, post. splits; [exact E | lia | lia | exact D].
Qed.

Lemma inv_wake c k es s i : inv c k es s ->
  inv c k es (if nmem i (s_dead s) then set_dead (filter (fun j => negb (Nat.eqb i j)) (s_dead s)) s else s).
Proof.
  intro I. destruct (nmem i (s_dead s)) eqn:E; [|exact I]. destruct I as [I1 I2 I3 I4 I5 I6]. constructor; cbn; auto.
  intros j Hj. apply I4. apply nmem_in in Hj. apply nmem_in. apply filter_In in Hj. tauto.
Qed.
Lemma wake_awake s i : let t := if nmem i (s_dead s) then set_dead (filter (fun j => negb (Nat.eqb i j)) (s_dead s)) s else s in nmem i (s_dead t) = false.
Proof.
  cbn zeta. destruct (nmem i (s_dead s)) eqn:E; [|exact E]. apply not_true_iff_false. intro H. apply nmem_in in H. cbn in H. apply filter_In in H as [_ H].
  rewrite Nat.eqb_refl in H. discriminate.
Qed.

Lemma inv_add c es s i : ~ In i (added es) -> inv c 0 es s -> inv c 0 (es ++ [Add i]) (snd (add_stream i s)).
Proof.
  intros N [I1 I2 I3 I4 I5 [pre [post [E [C1 [C2 D]]]]]]. cbn.
  assert (Nn : nget i (s_opt s) = None) by (apply nget_in; rewrite I2; exact N).
  constructor; cbn.
  - rewrite latest_app. cbn. lia.
  - intro j. rewrite nset_keys, added_app. cbn. unfold dmem. rewrite Nn. rewrite !in_app_iff, I2. cbn. tauto.
  - apply nset_nodup. exact I3.
  - intros j Hj. rewrite dget_dset. destruct (Nat.eqb_spec j i); [reflexivity | apply I4; exact Hj].
  - intro j. rewrite added_app, points_app. cbn. rewrite app_nil_r. rewrite in_app_iff. destruct (I5 j); auto.
  - exists pre, (post ++ [Add i]). subst es. splits.
    + rewrite app_assoc. reflexivity.
    + rewrite changes_app. cbn. lia.
    + intro. rewrite changes_app. cbn. specialize (C2 H). lia.
    + intros j l. rewrite dget_dset. destruct (Nat.eqb_spec j i).
      * intro H. injection H as <-. subst j. exists [], []. split; [reflexivity|].
        destruct (I5 i) as [Hi|Hi]; [contradiction|]. rewrite points_app in Hi. apply app_eq_nil in Hi as [H1 H2].
        assert (points i (pre ++ post ++ [Add i]) = []) by (rewrite !points_app, H1, H2; reflexivity).
        constructor; rewrite ?H1, ?H; try reflexivity; [rewrite points_app, H2; reflexivity|]. intros _ _ _ _ [|k]; discriminate.
      * intro Hl. destruct (D j l Hl) as [p [q [El Dr]]]. exists p, q. split; [exact El|]. apply drawn_ext; [reflexivity | exact Dr].
Qed.

Lemma rev_eq {A} (l : list A) a k : rev l = a :: k -> l = rev k ++ [a].
Proof. intro H. rewrite <- (rev_involutive l), H. reflexivity. Qed.

Lemma last_visible c i pre post p q x y :
  drawn c i pre post p q -> unbroken c i ((pre ++ post) ++ [Point i x y]) ->
  match rev (inside (window c pre) p ++ q) with
  | [] => points i (pre ++ post) = []
  | z :: _ => exists n, length (points i (pre ++ post)) = S n /\ nth_error (p ++ q) n = Some z
  end.
Proof.
  intros [D1 D2 D3 D4] U. specialize (U _ _ _ _ eq_refl).
  assert (L : map fst (p ++ q) = map fst (points i (pre ++ post))) by (rewrite map_app, D1, D2, points_app, map_app; reflexivity).
  destruct (rev (p ++ q)) as [|z k] eqn:R.
  - apply (f_equal (@rev _)) in R. rewrite rev_involutive in R. apply app_eq_nil in R as [-> ->]. cbn in *. symmetry in L. apply map_eq_nil in L. exact L.
  - apply rev_eq in R. rewrite R in L. assert (Lz : length (points i (pre ++ post)) = S (length (rev k))).
    { apply (f_equal (@length _)) in L. rewrite !map_length, app_length in L. cbn in L. lia. }
    assert (V : window c pre <= fst z).
    { destruct (rev (points i (pre ++ post))) as [|[x0 v0] r] eqn:Rp.
      - apply (f_equal (@rev _)) in Rp. rewrite rev_involutive in Rp. rewrite Rp in Lz. discriminate.
      - apply rev_eq in Rp. rewrite Rp in L. rewrite !map_app in L. cbn in L. apply app_inj_tail in L as [_ L]. rewrite L.
        pose proof (window_mono c pre post). lia. }
    assert (T : exists k', inside (window c pre) p ++ q = k' ++ [z]).
    { destruct (rev q) as [|z' k'] eqn:Rq.
      - apply (f_equal (@rev _)) in Rq. rewrite rev_involutive in Rq. cbn in Rq. subst q. rewrite app_nil_r in *. subst p. exists (inside (window c pre) (rev k)).
        rewrite inside_app. f_equal. cbn. destruct (Nat.leb_spec (window c pre) (fst z)); [reflexivity | lia].
      - apply rev_eq in Rq. subst q. rewrite app_assoc in R. apply app_inj_tail in R as [_ ->]. eexists. apply app_assoc. }
    destruct T as [k' T]. rewrite T, rev_app_distr. cbn. exists (length (rev k)). split; [exact Lz|]. rewrite R, nth_error_app2, Nat.sub_diag; [reflexivity | lia].
Qed.

Lemma smallest_snoc ys y w : nnan y = false -> nnan w = false -> smallest_of_first (length ys) ys w ->
  smallest_of_first (S (length ys)) (ys ++ [y]) (if nlt w y then w else y).
Proof.
  intros Ny Nw [H1 H2]. unfold smallest_of_first in *. rewrite firstn_all in *. rewrite firstn_all2 by (rewrite app_length; cbn; lia).
  destruct (nlt w y) eqn:E.
  - split; [apply in_or_app; auto|]. intros v Hv. apply in_app_or in Hv as [Hv|[<-|[]]]; [auto | apply nlt_nle; exact E].
  - split; [apply in_or_app; right; left; reflexivity|]. intros v Hv. apply in_app_or in Hv as [Hv|[<-|[]]]; [|apply nle_refl; exact Ny].
    eapply nle_trans; [apply nlt_false_nle; [exact Nw | exact Ny | exact E] | auto].
Qed.
Lemma smallest_prefix n ys zs w : n <= length ys -> smallest_of_first n ys w -> smallest_of_first n (ys ++ zs) w.
Proof. intros L [H1 H2]. unfold smallest_of_first. rewrite firstn_app. replace (n - length ys) with 0 by lia. cbn. rewrite app_nil_r. split; assumption. Qed.

(** The value which is drawn, 326-332. *)
Definition better (c : config) (l : line) (y : num) : num :=
  if c_elite c then
    match rev l with
    | [] => y
    | (_, v) :: _ => let last := match c_log c with Some (_, exp10) => exp10 v | None => v end in if nlt last y then last else y
    end
  else y.

Lemma drawn_point c i pre post p q x y :
  drawn c i pre post p q ->
  drawn c i pre (post ++ [Point i x y]) p (q ++ [(x, scaled c (better c (inside (window c pre) p ++ q) y))]).
Proof.
  intros D. pose proof D as [D1 D2 D3 D4].
  assert (Pq : points i (post ++ [Point i x y]) = points i post ++ [(x, y)]) by (rewrite points_app; cbn; rewrite Nat.eqb_refl; reflexivity).
  assert (Pa : points i (pre ++ post ++ [Point i x y]) = points i (pre ++ post) ++ [(x, y)]) by (rewrite !(points_app i pre), Pq, app_assoc; reflexivity).
  assert (L : length (p ++ q) = length (points i (pre ++ post))).
  { rewrite <- (map_length fst), map_app, D1, D2, <- map_app, map_length, points_app. reflexivity. }
  constructor.
  - exact D1.
  - rewrite Pq, !map_app, D2. reflexivity.
  - intro E. rewrite Pa, map_app, <- (D3 E), <- app_assoc. cbn. unfold better. rewrite E. reflexivity.
  - rewrite Pa. intros E U F N k xk v Hk. rewrite map_app in *. cbn [map snd] in *.
    assert (U' : unbroken c i ((pre ++ post) ++ [Point i x y])) by (rewrite <- app_assoc; exact U).
    pose proof (last_visible _ _ _ _ _ _ _ _ D U') as LV.
    assert (F' : faithful c (map snd (points i (pre ++ post)))) by (eapply faithful_incl; [|exact F]; intros; apply in_or_app; auto).
    assert (N' : ~ In NaN (map snd (points i (pre ++ post)))) by (intro; apply N, in_or_app; auto).
    assert (Ny : nnan y = false) by (destruct y; try reflexivity; elim N; apply in_or_app; right; left; reflexivity).
    specialize (D4 E (unbroken_app _ _ _ _ U') F' N').
    rewrite app_assoc in Hk. destruct (Nat.lt_ge_cases k (length (p ++ q))) as [Hlt|Hge].
    + rewrite nth_error_app1 in Hk by exact Hlt. destruct (D4 k xk v Hk) as [w [Ew Sw]]. exists w. split; [exact Ew|].
      apply smallest_prefix; [rewrite map_length; lia | exact Sw].
    + rewrite nth_error_app2 in Hk by exact Hge. assert (Ek : k = length (p ++ q)).
      { destruct (k - length (p ++ q)) eqn:X; [lia|]. destruct n; discriminate. }
      rewrite Ek, Nat.sub_diag in Hk. cbn in Hk. injection Hk as <- <-. rewrite Ek, L, <- (map_length snd).
      unfold better. rewrite E. destruct (rev (inside (window c pre) p ++ q)) as [|[x0 v0] r].
      * exists y. split; [reflexivity|]. rewrite LV. cbn. split; [left; reflexivity|]. intros w [<-|[]]. apply nle_refl. exact Ny.
      * destruct LV as [n [Ln Hn]]. destruct (D4 n x0 v0 Hn) as [w [Ew Sw]].
        assert (Hw : In w (map snd (points i (pre ++ post)))) by (destruct Sw as [Sw _]; apply (firstn_skipn (S n)) || idtac; rewrite <- (firstn_skipn (S n) (map snd (points i (pre ++ post)))); apply in_or_app; auto).
        assert (Nw : nnan w = false) by (destruct w; try reflexivity; contradiction).
        assert (El : match c_log c with Some (_, exp10) => exp10 v0 | None => v0 end = w).
        { subst v0. unfold scaled. unfold faithful in F'. destruct (c_log c) as [[lg ex]|]; [apply F'; exact Hw | reflexivity]. }
        rewrite El. cbn zeta. exists (if nlt w y then w else y). split; [reflexivity|]. apply smallest_snoc; [exact Ny | exact Nw |].
        rewrite map_length, Ln. exact Sw.
Qed.

Lemma inv_point c es s i x y u s' : inv c 0 es s -> update_optimizer c i x y s = (Ok u, s') -> inv c 0 (es ++ [Point i x y]) s'.
Proof.
  intros I. unfold update_optimizer.
  assert (exists l, nget i (s_opt s) = Some l \/ nget i (s_opt s) = None) as [l [Hl|Hl]] by (destruct (dget Nat.eqb i (s_opt s)) as [l|]; [exists l | exists []]; auto).
  2: { rewrite Hl. destruct (c_elite c); [discriminate|]. unfold bind, update_point. set (s1 := if nmem i (s_dead s) then _ else s).
       cbv zeta. assert (s_opt s1 = s_opt s) by (unfold s1; destruct (nmem i (s_dead s)); reflexivity).
       cbn [s_opt set_xmax]. rewrite H, Hl. discriminate. }
  rewrite Hl.
  replace (if c_elite c then Ok _ else Ok y) with (@Ok num (better c l y)) by (unfold better; destruct (c_elite c); [destruct (rev l) as [|[? ?] ?]|]; reflexivity).
  unfold bind, update_point. pose proof (inv_wake c 0 es s i I) as W. pose proof (wake_awake s i) as A. cbv zeta in A.
  set (s1 := if nmem i (s_dead s) then _ else s) in *. cbv zeta.
  assert (E1 : s_opt s1 = s_opt s) by (unfold s1; destruct (nmem i (s_dead s)); reflexivity).
  clearbody s1. cbn [s_opt set_xmax]. rewrite E1, Hl. cbv beta iota. intro H. eapply inv_redraw; [|exact H]. clear H.
  destruct W as [I1 I2 I3 I4 I5 [pre [post [E [C1 [C2 D]]]]]]. rewrite <- E1.
  assert (Y : match c_log c with Some (log10, _) => log10 (better c l y) | None => better c l y end = scaled c (better c l y)) by reflexivity.
  constructor; cbn [s_xmax s_opt s_dead s_events set_opt set_xmax].
  - rewrite latest_app. change (latest [Point i x y]) with (Nat.max x 0). destruct (Nat.ltb_spec (s_xmax s1) x); lia.
  - intro j. rewrite nset_keys, added_app. cbn. rewrite app_nil_r. unfold dmem. rewrite E1, Hl, <- E1. apply I2.
  - apply nset_nodup. exact I3.
  - intros j Hj. rewrite dget_dset. destruct (Nat.eqb_spec j i); [congruence | apply I4; exact Hj].
  - intro j. rewrite added_app, points_app. cbn. rewrite !app_nil_r. destruct (Nat.eqb_spec j i).
    + left. subst. apply I2. destruct (in_dec Nat.eq_dec i (map fst (s_opt s1))); [assumption|]. apply nget_in in n. congruence.
    + rewrite app_nil_r. apply I5.
  - exists pre, (post ++ [Point i x y]). subst es. splits.
    + rewrite app_assoc. reflexivity.
    + rewrite changes_app. cbn. lia.
    + discriminate.
    + intros j k. rewrite dget_dset. destruct (Nat.eqb_spec j i).
      * intro H. injection H as <-. subst j. rewrite <- E1 in Hl. destruct (D i l Hl) as [p [q [El Dr]]].
        exists p, (q ++ [(x, scaled c (better c l y))]). split; [rewrite El, app_assoc; reflexivity|].
        pose proof (drawn_point _ _ _ _ _ _ x y Dr) as X. rewrite <- El in X. exact X.
      * intro Hk. destruct (D j k Hk) as [p [q [El Dr]]]. exists p, q. split; [exact El|]. apply drawn_ext; [|exact Dr].
        cbn. destruct (Nat.eqb_spec j i); [contradiction | reflexivity].
Qed.

Lemma inv_gen c k es s g : inv c k es s -> inv c k es (set_gen g s).
Proof. intros [I1 I2 I3 I4 I5 I6]. constructor; assumption. Qed.
Lemma inv_setup c k es s b : inv c k es s -> inv c k es (set_setup b s).
Proof. intros [I1 I2 I3 I4 I5 I6]. constructor; assumption. Qed.

Lemma last_x c k es s i l x y r : inv c k es s -> nget i (s_opt s) = Some l -> rev l = (x, y) :: r -> x <= s_xmax s.
Proof.
  intros [I1 I2 I3 I4 I5 [pre [post [E [C1 [C2 D]]]]]] Hl R. destruct (D i l Hl) as [p [q [El [D1 D2 _ _]]]].
  apply rev_eq in R. assert (H : In x (map fst (points i es))).
  { subst es. rewrite points_app, map_app, <- D1, <- D2, <- map_app. apply in_map_iff. exists (x, y). split; [reflexivity|].
    assert (In (x, y) l) by (rewrite R; apply in_or_app; right; left; reflexivity). rewrite El in H. apply in_app_or in H as [H|H]; apply in_or_app; [left|right; exact H].
    apply filter_In in H. tauto. }
  rewrite I1. clear - H. induction es as [|[] es IH]; cbn in *; try (apply IH; exact H); [contradiction|].
  rewrite map_app in H. apply in_app_or in H as [H|H].
  - destruct (Nat.eqb i i0); [|contradiction]. destruct H as [<-|[]]. cbn. lia.
  - specialize (IH H). lia.
Qed.

Lemma inv_mark c es s i t u s' : inv c 0 es s -> update_mark c i t s = (Ok u, s') -> inv c 0 (es ++ [Mark i t]) s'.
Proof.
  intros I. unfold update_mark, bind, update_point, farthest. destruct (dget Nat.eqb i (s_opt s)) as [l|] eqn:Hl; [|discriminate].
  pose proof (inv_wake c 0 es s i I) as W. set (s1 := if nmem i (s_dead s) then _ else s) in *. cbv zeta.
  assert (E1 : s_opt s1 = s_opt s) by (unfold s1; destruct (nmem i (s_dead s)); reflexivity).
  clearbody s1. destruct (rev l) as [|[x y] r] eqn:R.
  - intro H. eapply inv_redraw; [|exact H]. apply (inv_quiet c 0 es s1 (Mark i t) Logic.I W).
  - assert (X : s_xmax (set_xmax (if Nat.ltb (s_xmax s1) x then x else s_xmax s1) s1) = s_xmax s1).
    { cbn [s_xmax set_xmax]. rewrite <- E1 in Hl. pose proof (last_x _ _ _ _ _ _ _ _ _ W Hl R). destruct (Nat.ltb_spec (s_xmax s1) x); lia. }
    set (s2 := set_xmax _ s1) in *. assert (W2 : inv c 0 es s2) by (destruct W as [I1 I2 I3 I4 I5 I6]; constructor; try assumption; rewrite X; exact I1).
    clearbody s2. destruct (tget t (s_gen s2)) as [g|]; [|discriminate]. intro H. eapply inv_redraw; [|exact H].
    apply inv_gen. apply (inv_quiet c 0 es s2 (Mark i t) Logic.I W2).
Qed.

Lemma inv_exec c es s e u s' : (forall i, e = Add i -> ~ In i (added es)) -> inv c 0 es s -> exec c e s = (Ok u, s') -> inv c 0 (es ++ [e]) s'.
Proof.
  intros N I H. destruct e as [i| |i x y|i t|]; cbn [exec] in H.
  - pose proof (inv_add c es s i (N i eq_refl) I) as A. unfold add_stream in *. injection H as _ <-. exact A.
  - unfold setup_moviemaker, modify in H. injection H as _ <-. pose proof (inv_quiet c 0 es s Setup Logic.I I) as Q. destruct (c_movie c); [apply inv_setup|]; exact Q.
  - eapply inv_point; eassumption.
  - eapply inv_mark; eassumption.
  - eapply inv_redraw; [|exact H]. apply (inv_quiet c 0 es s Redraw Logic.I I).
Qed.

Lemma inv_empty c : inv c 0 [] empty_scope.
Proof.
  constructor; cbn; auto; try tauto; try discriminate; [constructor|]. exists [], []. splits; cbn; auto; try lia. discriminate.
Qed.

Lemma NoDup_app_l {A} (a b : list A) : NoDup (a ++ b) -> NoDup a.
Proof. induction a as [|x a IH]; cbn; [constructor|]. intro H. inversion H; subst. constructor; [|auto]. intro. apply H2, in_or_app; auto. Qed.

Lemma run_inv c es : forall s, NoDup (added es) -> run c es empty_scope = Ok s -> inv c 0 es s.
Proof.
  induction es as [|e es IH] using rev_ind; intros s N R.
  - injection R as <-. apply inv_empty.
  - rewrite run_app in R. destruct (run c es empty_scope) as [s1|] eqn:E1; [|discriminate]. cbn in R.
    destruct (exec c e s1) as [[u|x] s2] eqn:E2; [|discriminate]. injection R as <-. rewrite added_app in N.
    eapply inv_exec; [|apply IH; [eapply NoDup_app_l; exact N | reflexivity] | exact E2].
    intros i -> Hi. cbn in N. apply NoDup_remove_2 in N. rewrite app_nil_r in N. contradiction.
Qed.

(** ** Runs do not fail *)
Lemma redraw_ok c f s : (c_movie c = true -> s_setup s = true) -> exists s', redraw c f s = (Ok tt, s') /\ s_setup s' = s_setup s /\ map fst (s_opt s') = map fst (s_opt s) /\ map fst (s_gen s') = map fst (s_gen s).
Proof.
  intro M. unfold redraw. destruct (_ || f); [|eexists; splits; reflexivity].
  set (s1 := match c_trunc c with None => _ | Some t => _ end).
  assert (s_setup s1 = s_setup s /\ map fst (s_opt s1) = map fst (s_opt s) /\ s_gen s1 = s_gen s) as [H1 [H2 H3]].
  { unfold s1. destruct (c_trunc c) as [t|]; [|auto]. cbn [s_xmax s_dead s_opt set_events].
    pose proof (purge_keys (s_xmax s - t) (s_opt s) (s_dead s)) as PK. destruct (purge _ _ _). cbn in *. auto. }
  cbv zeta. clearbody s1. destruct (c_movie c).
  - pose proof (M eq_refl) as M1. rewrite H1, M1. eexists; splits; [reflexivity | | |]; cbn; congruence.
  - eexists; splits; [reflexivity | | |]; congruence.
Qed.
Lemma wake_same s i : let t := if nmem i (s_dead s) then set_dead (filter (fun j => negb (Nat.eqb i j)) (s_dead s)) s else s in
  s_opt t = s_opt s /\ s_gen t = s_gen s /\ s_setup t = s_setup s.
Proof. cbn zeta. destruct (nmem i (s_dead s)); auto. Qed.
Lemma tset_keys (t : track) (v : line) d : dget track_eqb t d <> None -> map fst (tset t v d) = map fst d.
Proof.
  induction d as [|[k w] d IH]; cbn; [congruence|]. intro H. destruct (track_eqb t k); cbn; [reflexivity|]. rewrite IH; auto.
Qed.
Definition all_tracks : list track := [OptKill; OptNorm; OptCrash; Pause; Chkpt].
Lemma tget_known t (d : list (track * line)) : map fst d = all_tracks -> dget track_eqb t d <> None.
Proof.
  unfold all_tracks. intro H. do 5 (destruct d as [|[? ?] d]; [discriminate | injection H as -> H]).
  destruct t; cbn; discriminate.
Qed.
Lemma update_point_ok c i tr pt s : In i (map fst (s_opt s)) -> map fst (s_gen s) = all_tracks ->
  exists s', update_point c i tr pt s = (Ok tt, s') /\ s_setup s' = s_setup s /\ map fst (s_opt s') = map fst (s_opt s) /\ map fst (s_gen s') = all_tracks.
Proof.
  intros K G. assert (exists l, nget i (s_opt s) = Some l) as [l Hl] by (destruct (dget Nat.eqb i (s_opt s)) eqn:E; [eauto | apply nget_in in E; contradiction]).
  unfold update_point. assert (exists p, (match pt with Some p => Ok (Some p) | None => farthest i s end) = Ok p) as [p ->].
  { destruct pt; [eauto|]. unfold farthest. rewrite Hl. eauto. }
  destruct (wake_same s i) as [W1 [W2 W3]]. cbv zeta in *. set (s1 := if nmem i (s_dead s) then _ else s) in *. clearbody s1.
  destruct p as [[x y]|]; [|exists s1; splits; congruence].
  destruct tr as [t|].
  - cbn [s_gen set_xmax]. assert (Ht : dget track_eqb t (s_gen s1) <> None) by (apply tget_known; congruence).
    destruct (dget track_eqb t (s_gen s1)) as [g|] eqn:Eg; [|congruence]. eexists. splits; [reflexivity | cbn; congruence | cbn; congruence |].
    cbn. rewrite tset_keys by congruence. congruence.
  - cbn [s_opt set_xmax]. rewrite W1, Hl. eexists. splits; [reflexivity | cbn; congruence | | cbn; congruence].
    cbn. rewrite nset_keys. unfold dmem. rewrite Hl. congruence.
Qed.
Lemma update_optimizer_ok c i x y s : In i (map fst (s_opt s)) -> map fst (s_gen s) = all_tracks -> (c_movie c = true -> s_setup s = true) ->
  exists s', update_optimizer c i x y s = (Ok tt, s') /\ s_setup s' = s_setup s /\ map fst (s_opt s') = map fst (s_opt s) /\ map fst (s_gen s') = all_tracks.
Proof.
  intros K G M. unfold update_optimizer. assert (exists l, nget i (s_opt s) = Some l) as [l Hl] by (destruct (dget Nat.eqb i (s_opt s)) eqn:E; [eauto | apply nget_in in E; contradiction]).
  rewrite Hl. match goal with |- context [match ?z with Ok _ => _ | Err _ => _ end] => assert (exists v, z = Ok v) as [v ->] by (destruct (c_elite c); eauto) end.
  unfold bind. destruct (update_point_ok c i None (Some (x, v)) s K G) as [s1 [-> [S1 [S2 S3]]]].
  destruct (redraw_ok c false s1) as [s2 [-> [T1 [T2 T3]]]]; [intro; rewrite S1; auto|]. exists s2. splits; congruence.
Qed.

Lemma run_ok c es : forall known ready s, (forall i, In i (map fst (s_opt s)) <-> In i known) -> (ready = true -> c_movie c = true -> s_setup s = true) -> map fst (s_gen s) = all_tracks ->
  orderly c known ready es -> exists s', run c es s = Ok s'.
Proof.
  induction es as [|e es IH]; intros known ready s K R G O; [exists s; reflexivity|].
  cbn [run]. destruct e as [i| |i x y|i t|]; cbn [orderly exec] in *.
  - destruct O as [N O]. unfold add_stream. eapply IH; [| | |exact O].
    + intro j. cbn. rewrite nset_keys. unfold dmem. destruct (dget Nat.eqb i (s_opt s)) eqn:E.
      * assert (In i (map fst (s_opt s))) by (destruct (in_dec Nat.eq_dec i (map fst (s_opt s))); [assumption | apply nget_in in n; congruence]). apply K in H. contradiction.
      * rewrite in_app_iff, K. cbn. tauto.
    + exact R.
    + exact G.
  - unfold setup_moviemaker, modify. eapply IH; [| | |exact O].
    + destruct (c_movie c); exact K.
    + intros _ M. rewrite M. reflexivity.
    + destruct (c_movie c); exact G.
  - destruct O as [Ki [M O]]. destruct (update_optimizer_ok c i x y s) as [s1 [-> [S1 [S2 S3]]]]; [apply K; exact Ki | exact G | intro; auto |].
    eapply IH; [| | |exact O]; [intro; rewrite S2; apply K | intros; rewrite S1; auto | exact S3].
  - destruct O as [Ki [M O]]. unfold update_mark, bind. destruct (update_point_ok c i (Some t) None s) as [s1 [-> [S1 [S2 S3]]]]; [apply K; exact Ki | exact G |].
    destruct (redraw_ok c false s1) as [s2 [-> [T1 [T2 T3]]]]; [intro; rewrite S1; auto|].
    eapply IH; [| | |exact O]; [intro; rewrite T2, S2; apply K | intros; rewrite T1, S1; auto | congruence].
  - destruct O as [M O]. destruct (redraw_ok c true s) as [s2 [-> [T1 [T2 T3]]]]; [intro; auto|].
    eapply IH; [| | |exact O]; [intro; rewrite T2; apply K | intros; rewrite T1; auto | congruence].
Qed.

Lemma orderly_nodup c es : forall known ready, orderly c known ready es -> NoDup (added es) /\ forall i, In i (added es) -> ~ In i known.
Proof.
  induction es as [|e es IH]; intros known ready O; [split; [constructor | contradiction]|].
  destruct e as [i| |i x y|i t|]; cbn [orderly] in O; try (destruct (IH known true O); split; assumption).
  - destruct O as [N O]. destruct (IH _ _ O) as [H1 H2]. cbn. split.
    + constructor; [|exact H1]. intro H. apply (H2 i H). left. reflexivity.
    + intros j [<-|H]; [exact N|]. intro X. apply (H2 j H). right. exact X.
  - destruct O as [_ [_ O]]. destruct (IH known ready O); split; assumption.
  - destruct O as [_ [_ O]]. destruct (IH known ready O); split; assumption.
  - destruct O as [_ O]. destruct (IH known ready O); split; assumption.
Qed.

(** ** Markers *)
Definition last_of (l : line) : option (nat * num) := match rev l with [] => None | p :: _ => Some p end.
Lemma redraw_gen c f u s s' : redraw c f s = (u, s') -> s_gen s' = s_gen s.
Proof.
  unfold redraw. destruct (_ || f); [|intro H; injection H as _ <-; reflexivity].
  set (s1 := match c_trunc c with None => _ | Some t => _ end).
  assert (H3 : s_gen s1 = s_gen s) by (unfold s1; destruct (c_trunc c) as [t|]; [destruct (purge _ _ _)|]; reflexivity).
  cbv zeta. clearbody s1. destruct (c_movie c); [destruct (s_setup s1)|]; intro H; injection H as _ <-; exact H3.
Qed.
Lemma tget_tset t t' (v : line) d : tget t (tset t' v d) = if track_eqb t t' then Some v else tget t d.
Proof.
  induction d as [|[k w] d IH]; cbn; [reflexivity|].
  destruct t, t', k; cbn in *; try reflexivity; exact IH.
Qed.
Lemma exec_gen c e s u s' t g' : exec c e s = (Ok u, s') -> tget t (s_gen s') = Some g' ->
  tget t (s_gen s) = Some g' \/
  exists i l p g, e = Mark i t /\ nget i (s_opt s) = Some l /\ last_of l = Some p /\ tget t (s_gen s) = Some g /\ g' = g ++ [p].
Proof.
  destruct e as [i| |i x y|i t'|]; cbn [exec]; intros H Hg.
  - injection H as _ <-. left. exact Hg.
  - injection H as _ <-. left. destruct (c_movie c); exact Hg.
  - left. unfold update_optimizer in H. match type of H with context [match ?z with Ok _ => _ | Err _ => _ end] => destruct z as [v|]; [|discriminate] end.
    unfold bind, update_point in H. destruct (wake_same s i) as [W1 [W2 W3]]. cbv zeta in *. set (s1 := if nmem i (s_dead s) then _ else s) in *. clearbody s1.
    cbn [s_opt set_xmax] in H. destruct (dget Nat.eqb i (s_opt s1)); [|discriminate]. apply redraw_gen in H. cbn in H. congruence.
  - unfold update_mark, bind, update_point, farthest in H. destruct (dget Nat.eqb i (s_opt s)) as [l|] eqn:Hl; [|discriminate].
    destruct (wake_same s i) as [W1 [W2 W3]]. cbv zeta in *. set (s1 := if nmem i (s_dead s) then _ else s) in *. clearbody s1.
    destruct (rev l) as [|[x y] r] eqn:R; [apply redraw_gen in H; left; congruence|].
    cbn [s_gen set_xmax] in H. destruct (dget track_eqb t' (s_gen s1)) as [g|] eqn:Eg; [|discriminate]. apply redraw_gen in H. cbn in H.
    rewrite H, tget_tset in Hg. destruct (track_eqb t t') eqn:Et.
    + assert (t' = t) by (destruct t, t'; try discriminate; reflexivity). subst t'. injection Hg as <-. right. exists i, l, (x, y), g. splits; auto; [unfold last_of; rewrite R; reflexivity | congruence].
    + left. congruence.
  - apply redraw_gen in H. left. congruence.
Qed.
Lemma markers c t es : forall s g p, run c es empty_scope = Ok s -> tget t (s_gen s) = Some g -> In p g ->
  exists a b i s' l, es = a ++ Mark i t :: b /\ run c a empty_scope = Ok s' /\ nget i (s_opt s') = Some l /\ last_of l = Some p.
Proof.
  induction es as [|e es IH] using rev_ind; intros s g p R G Hp.
  - injection R as <-. destruct t; cbn in G; injection G as <-; contradiction.
  - rewrite run_app in R. destruct (run c es empty_scope) as [s1|] eqn:E1; [|discriminate]. cbn in R.
    destruct (exec c e s1) as [[u|x] s2] eqn:E2; [|discriminate]. injection R as <-.
    destruct (exec_gen _ _ _ _ _ _ _ E2 G) as [G1|[i [l [q [g0 [-> [Hl [Hq [Hg ->]]]]]]]]].
    + destruct (IH _ _ _ eq_refl G1 Hp) as [a [b [i [s' [l [-> H]]]]]]. exists a, (b ++ [e]), i, s', l. rewrite <- app_assoc. auto.
    + apply in_app_or in Hp as [Hp|[<-|[]]].
      * destruct (IH _ _ _ eq_refl Hg Hp) as [a [b [j [s' [k [-> H]]]]]]. exists a, (b ++ [Mark i t]), j, s', k. rewrite <- app_assoc. auto.
      * exists es, [], i, s1, l. auto.
Qed.

(** A forced redraw leaves nothing outside the window. *)
Lemma redraw_shows c es s u s' : inv c 1 es s -> redraw c true s = (Ok u, s') ->
  forall i l, nget i (s_opt s') = Some l -> exists p, l = inside (window c es) p /\ drawn c i es [] p [].
Proof.
  intros [I1 I2 I3 I4 I5 [pre [post [E [C1 [C2 D]]]]]]. unfold redraw. rewrite orb_true_r.
  set (s1 := match c_trunc c with None => _ | Some t => _ end). intro H.
  assert (Es : s_opt s' = s_opt s1) by (clearbody s1; destruct (c_movie c); [destruct (s_setup s1); [|discriminate]|]; injection H as _ <-; reflexivity).
  rewrite Es. clear H Es s'. intros i l Hl. subst s1.
  assert (exists pts, nget i (s_opt s) = Some pts /\ l = inside (window c es) pts) as [pts [Ei ->]].
  { unfold window. destruct (c_trunc c) as [t|].
    - cbn [s_xmax s_dead s_opt set_events] in Hl. pose proof (purge_get (s_xmax s - t) (s_opt s) (s_dead s) i) as PG.
      destruct (purge (s_xmax s - t) (s_dead s) (s_opt s)) as [l2 d]. cbn [fst snd s_opt set_opt] in *. rewrite PG in Hl.
      destruct (dget Nat.eqb i (s_opt s)) as [pts|] eqn:Ei; [|discriminate]. exists pts. split; [reflexivity|]. injection Hl as <-. rewrite <- I1.
      destruct (nmem i (s_dead s)) eqn:Ed; [|reflexivity]. apply I4 in Ed. rewrite Ei in Ed. injection Ed as ->. reflexivity.
    - cbn in Hl. exists l. split; [exact Hl|]. clear. unfold inside. induction l as [|a q IH]; [reflexivity|]. cbn [filter]. change (Nat.leb 0 (fst a)) with true. cbn iota. f_equal. exact IH. }
  destruct (D i pts Ei) as [p [q [El [D1 D2 D3 D4]]]]. exists (p ++ q). split.
  - rewrite El, inside_app, inside_inside, <- inside_app; [reflexivity|]. subst es. apply window_mono.
  - subst es. constructor; rewrite ?app_nil_r; auto. rewrite map_app, points_app, map_app. congruence.
Qed.

Lemma run_redraw c es s : NoDup (added es) -> run c (es ++ [Redraw]) empty_scope = Ok s ->
  forall i l, nget i (s_opt s) = Some l -> exists p, l = inside (window c es) p /\ drawn c i es [] p [].
Proof.
  intros N R. rewrite run_app in R. destruct (run c es empty_scope) as [s1|] eqn:E1; [|discriminate]. cbn [run exec] in R.
  destruct (redraw c true s1) as [[u|x] s2] eqn:E2; [|discriminate]. injection R as <-.
  pose proof (run_inv c es s1 N E1) as I. eapply redraw_shows; [|exact E2].
  destruct I as [I1 I2 I3 I4 I5 [pre [post [E [C1 [C2 D]]]]]]. constructor; try assumption.
  exists pre, post. splits; [exact E | lia | discriminate | exact D].
Qed.
