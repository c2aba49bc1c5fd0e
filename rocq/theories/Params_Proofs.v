(** * Proofs about the parameters *)
From Coq Require Import Qfield Lqa.
From Verif Require Import Prelude Prelude_Proofs Params_Model Params_Spec.
Local Open Scope nat_scope.
Local Open Scope list_scope.
Local Open Scope bool_scope.

(** ** Scaling *)
Definition range_of (p : param) : Q * Q := (p_lo p, p_hi p).
Lemma ranges_ok e x : (length x = n_parms e \/ length x = n_all_parms e) -> x <> [] ->
  ranges_for e x = Ok (map range_of (addressed e (length x))) /\ length (addressed e (length x)) = length x.
Proof.
  intros L N. unfold ranges_for, addressed, n_parms, n_all_parms, active in *. destruct (Nat.eqb_spec (length x) (length (filter p_act e))) as [E|E].
  - split; [|auto]. destruct (filter p_act e); [destruct x; [congruence|discriminate]|reflexivity].
  - destruct L as [L|L]; [contradiction|]. rewrite L, Nat.eqb_refl. split; [|auto]. destruct e; [destruct x; [congruence|discriminate]|reflexivity].
Qed.
Definition fscale (x : Q) (r : Q * Q) : Q := ((x + - fst r) / (snd r + - fst r))%Q.
Definition funscale (x : Q) (r : Q * Q) : Q := ((snd r + - fst r) * x + fst r)%Q.
Lemma scale1_fin x p : ~ (p_lo p == p_hi p)%Q -> scale1 (Fin x) (range_of p) = Fin (fscale x (range_of p)).
Proof.
  intro H. unfold scale1, fscale. cbn. destruct (Qcompare (p_hi p + - p_lo p) 0) eqn:E; try reflexivity. apply Qeq_alt in E. elim H. lra.
Qed.
Lemma unscale1_fin x r : unscale1 (Fin x) r = Fin (funscale x r).
Proof. reflexivity. Qed.
Definition fover (f : Q -> Q * Q -> Q) (x : list Q) (rs : list (Q * Q)) : list Q := map (fun xr => f (fst xr) (snd xr)) (combine x rs).
Lemma over_scale x : forall e, proper_ranges e -> over scale1 (map Fin x) (map range_of e) = map Fin (fover fscale x (map range_of e)).
Proof.
  unfold over, fover. induction x as [|a x IH]; intros [|p e] H; try reflexivity. inversion H; subst. cbn. rewrite <- (IH e) by assumption.
  f_equal. apply (scale1_fin a p). assumption.
Qed.
Lemma over_unscale x : forall rs, over unscale1 (map Fin x) rs = map Fin (fover funscale x rs).
Proof. unfold over, fover. induction x as [|a x IH]; intros [|p e]; try reflexivity. cbn. rewrite <- IH. reflexivity. Qed.
Lemma fover_length f x rs : length rs = length x -> length (fover f x rs) = length x.
Proof. unfold fover. rewrite map_length, combine_length. lia. Qed.

Lemma roundtrip1 x : forall e, length e = length x -> proper_ranges e -> Forall2 Qeq (fover funscale (fover fscale x (map range_of e)) (map range_of e)) x.
Proof.
  unfold fover. induction x as [|a x IH]; intros [|p e] L H; try discriminate; [constructor|]. inversion H; subst. cbn. constructor; [|apply IH; [injection L; auto | assumption]].
  unfold funscale, fscale. cbn. field. intro X. apply H2. lra.
Qed.
Lemma roundtrip2 x : forall e, length e = length x -> proper_ranges e -> Forall2 Qeq (fover fscale (fover funscale x (map range_of e)) (map range_of e)) x.
Proof.
  unfold fover. induction x as [|a x IH]; intros [|p e] L H; try discriminate; [constructor|]. inversion H; subst. cbn. constructor; [|apply IH; [injection L; auto | assumption]].
  unfold funscale, fscale. cbn. field. intro X. apply H2. lra.
Qed.
Lemma map_fin_ne (x : list Q) : x <> [] -> map Fin x <> [].
Proof. destruct x; [congruence | discriminate]. Qed.

Lemma scale_there_back e x : (length x = n_parms e \/ length x = n_all_parms e) -> x <> [] -> proper_ranges (addressed e (length x)) ->
  exists y z, real2scaled e (map Fin x) = Ok (map Fin y) /\ scaled2real e (map Fin y) = Ok (map Fin z) /\ Forall2 Qeq z x.
Proof.
  intros L N P. unfold real2scaled, scaled2real. destruct (ranges_ok e (map Fin x)) as [R RL]; [rewrite map_length; exact L | apply map_fin_ne; exact N|].
  rewrite map_length in *. rewrite R, over_scale by exact P. set (A := addressed e (length x)) in *.
  exists (fover fscale x (map range_of A)). assert (Ly : length (fover fscale x (map range_of A)) = length x) by (apply fover_length; rewrite map_length; exact RL).
  set (y := fover fscale x (map range_of A)) in *.
  destruct (ranges_ok e (map Fin y)) as [R' _]; [rewrite map_length, Ly; exact L | apply map_fin_ne; destruct y; [destruct x; [congruence|discriminate]|discriminate] |].
  rewrite map_length, Ly in R'. rewrite R', over_unscale. fold A. eexists. splits; [reflexivity | reflexivity |]. apply roundtrip1; assumption.
Qed.
Lemma scale_back_there e x : (length x = n_parms e \/ length x = n_all_parms e) -> x <> [] -> proper_ranges (addressed e (length x)) ->
  exists y z, scaled2real e (map Fin x) = Ok (map Fin y) /\ real2scaled e (map Fin y) = Ok (map Fin z) /\ Forall2 Qeq z x.
Proof.
  intros L N P. unfold real2scaled, scaled2real. destruct (ranges_ok e (map Fin x)) as [R RL]; [rewrite map_length; exact L | apply map_fin_ne; exact N|].
  rewrite map_length in *. rewrite R, over_unscale. set (A := addressed e (length x)) in *.
  exists (fover funscale x (map range_of A)). assert (Ly : length (fover funscale x (map range_of A)) = length x) by (apply fover_length; rewrite map_length; exact RL).
  set (y := fover funscale x (map range_of A)) in *.
  destruct (ranges_ok e (map Fin y)) as [R' _]; [rewrite map_length, Ly; exact L | apply map_fin_ne; destruct y; [destruct x; [congruence|discriminate]|discriminate] |].
  rewrite map_length, Ly in R'. rewrite R'. fold A. rewrite over_scale by exact P. eexists. splits; [reflexivity | reflexivity |]. apply roundtrip2; assumption.
Qed.

(** ** Indices *)
Lemma index_map_notin l : forall k d n, ~ In n l -> sget n (index_map k l d) = sget n d.
Proof.
  induction l as [|m l IH]; intros k d n H; [reflexivity|]. cbn. rewrite IH by (intro; apply H; right; assumption).
  rewrite sget_sset. destruct (String.eqb_spec n m); [subst; elim H; left; reflexivity | reflexivity].
Qed.
Lemma index_map_in l : forall k d j n, NoDup l -> nth_error l j = Some n -> sget n (index_map k l d) = Some (k + j).
Proof.
  induction l as [|m l IH]; intros k d j n N H; [destruct j; discriminate|]. inversion N as [|? ? N1 N2]; subst. destruct j as [|j]; cbn in *.
  - injection H as ->. rewrite index_map_notin by exact N1. rewrite sget_sset, String.eqb_refl. f_equal. lia.
  - rewrite (IH (S k) _ j n N2 H). f_equal. lia.
Qed.
Lemma index_map_some l k n i : NoDup l -> sget n (index_map k l []) = Some i -> exists j, i = k + j /\ nth_error l j = Some n.
Proof.
  intros N H. destruct (in_dec string_dec n l) as [Hi|Hi].
  - apply In_nth_error in Hi as [j Hj]. rewrite (index_map_in l k [] j n N Hj) in H. injection H as <-. eauto.
  - rewrite index_map_notin in H by exact Hi. discriminate.
Qed.

Lemma names_filter_nodup e : NoDup (names e) -> NoDup (names (active e)).
Proof.
  unfold names, active. induction e as [|p e IH]; cbn; [auto|]. intro H. inversion H; subst. destruct (p_act p); cbn; [|auto]. constructor; [|auto].
  intro X. apply H2. apply in_map_iff in X as [q [Eq Hq]]. apply filter_In in Hq as [Hq _]. apply in_map_iff. eauto.
Qed.
Lemma ids_nth e : forall s k, match nth_error (ids_from s e) k with
  | Some i => s <= i /\ (exists p, nth_error e (i - s) = Some p /\ p_act p = true /\ nth_error (active e) k = Some p)
  | None => nth_error (active e) k = None end.
Proof.
  unfold active. induction e as [|p e IH]; intros s k; cbn [ids_from filter]; [destruct k; reflexivity|]. destruct (p_act p) eqn:A.
  - destruct k as [|k]; cbn [nth_error].
    + split; [lia|]. exists p. rewrite Nat.sub_diag. auto.
    + specialize (IH (S s) k). destruct (nth_error (ids_from (S s) e) k) as [i|]; [|exact IH]. destruct IH as [H1 [q [H2 H3]]]. split; [lia|]. exists q.
      replace (i - s) with (S (i - S s)) by lia. auto.
  - specialize (IH (S s) k). destruct (nth_error (ids_from (S s) e) k) as [i|]; [|exact IH]. destruct IH as [H1 [q [H2 H3]]]. split; [lia|]. exists q.
    replace (i - s) with (S (i - S s)) by lia. auto.
Qed.
Lemma ids_positions e : active_abs_indices e = active_positions e.
Proof.
  unfold active_abs_indices, active_positions.
  assert (G : forall s d, length d = s -> ids_from s e = filter (fun i => match nth_error (d ++ e) i with Some p => p_act p | None => false end) (seq s (length e))).
  { induction e as [|p e IH]; intros s d L; cbn; [reflexivity|]. rewrite nth_error_app2 by lia. replace (s - length d) with 0 by lia. cbn [nth_error].
    rewrite (IH (S s) (d ++ [p])) by (rewrite app_length; cbn; lia). rewrite <- app_assoc. cbn [app]. destruct (p_act p); reflexivity. }
  apply (G 0 []). reflexivity.
Qed.
Lemma mapM_map {A B} (f : A -> res B) (g : A -> B) l : (forall a, In a l -> f a = Ok (g a)) -> mapM f l = Ok (map g l).
Proof. induction l as [|a l IH]; intro H; [reflexivity|]. cbn. rewrite (H a) by (left; reflexivity). rewrite IH by (intros; apply H; right; assumption). reflexivity. Qed.
Lemma mapM_app_ok {A B} (f : A -> res B) l r : mapM f l = Ok r -> Forall2 (fun a b => f a = Ok b) l r.
Proof.
  revert r. induction l as [|a l IH]; intros r H; cbn in H; [injection H as <-; constructor|].
  destruct (f a) eqn:E; [|discriminate]. destruct (mapM f l); [|discriminate]. injection H as <-. constructor; auto.
Qed.
Lemma mapM_forall2 {A B} (f : A -> res B) l r : Forall2 (fun a b => f a = Ok b) l r -> mapM f l = Ok r.
Proof. induction 1 as [|a b l r H F IH]; [reflexivity|]. cbn. rewrite H, IH. reflexivity. Qed.

Lemma nth_error_map' {A B} (f : A -> B) l k : nth_error (map f l) k = option_map f (nth_error l k).
Proof. revert k. induction l; intros [|k]; cbn; auto. Qed.

(** The k-th active parameter. *)
Lemma rel2abs_one e k : NoDup (names e) -> k < n_parms e ->
  exists i p, nth_error (active_abs_indices e) k = Some i /\ nth_error e i = Some p /\ p_act p = true /\ nth_error (active e) k = Some p /\
    nth_error (names (active e)) k = Some (p_name p) /\ sget (p_name p) (index_map 0 (names e) []) = Some i /\
    sget (p_name p) (index_map 0 (names (active e)) []) = Some k.
Proof.
  intros N L. unfold active_abs_indices. pose proof (ids_nth e 0 k) as H. destruct (nth_error (ids_from 0 e) k) as [i|].
  - destruct H as [_ [p [H1 [H2 H3]]]]. rewrite Nat.sub_0_r in H1. exists i, p.
    assert (Hn : nth_error (names (active e)) k = Some (p_name p)) by (unfold names; rewrite nth_error_map', H3; reflexivity).
    splits; auto.
    + apply (index_map_in _ 0 [] i); [exact N|]. unfold names. rewrite nth_error_map', H1. reflexivity.
    + apply (index_map_in _ 0 [] k); [apply names_filter_nodup; exact N | exact Hn].
  - apply nth_error_None in H. unfold n_parms in L. lia.
Qed.
Lemma rel2abs_all e rs : NoDup (names e) -> Forall (fun k => k < n_parms e) rs ->
  exists is, rel2abs e rs = Ok is /\ abs2rel e is = Ok (map Some rs) /\ Forall2 (fun k i => nth_error (active_abs_indices e) k = Some i) rs is.
Proof.
  intros N F. unfold rel2abs, abs2rel.
  assert (exists asked is, mapM (fun i => match nth_error (names (active e)) i with Some n => Ok n | None => Err KeyError end) rs = Ok asked /\
    mapM (fun n => match sget n (index_map 0 (names e) []) with Some i => Ok i | None => Err KeyError end) asked = Ok is /\
    mapM (fun i => match at_index e i with Ok p => Ok (p_name p) | Err er => Err er end) is = Ok asked /\
    map (fun n => sget n (index_map 0 (names (active e)) [])) asked = map Some rs /\
    Forall2 (fun k i => nth_error (active_abs_indices e) k = Some i) rs is) as [asked [is [E1 [E2 [E3 [E4 E5]]]]]].
  { induction rs as [|k rs IH]; [exists [], []; splits; constructor|]. inversion F as [|? ? Fk Fr]; subst. destruct (IH Fr) as [asked [is [E1 [E2 [E3 [E4 E5]]]]]].
    destruct (rel2abs_one e k N Fk) as [i [p [H1 [H2 [H3 [H4 [H5 [H6 H7]]]]]]]]. exists (p_name p :: asked), (i :: is). cbn.
    rewrite H5, E1, H6, E2, E3, E4, H7. unfold at_index. rewrite H2. splits; auto. }
  rewrite E1. exists is. cbv zeta. rewrite E2, E3, E4. auto.
Qed.

Lemma active_rank e i : is_active_at e i -> exists k, nth_error (active_abs_indices e) k = Some i /\ k < n_parms e.
Proof.
  intros [p [H A]]. rewrite ids_positions. assert (In i (active_positions e)) as Hi.
  { unfold active_positions. apply filter_In. rewrite H. split; [|exact A]. apply in_seq. split; [lia|]. cbn. apply nth_error_Some. congruence. }
  apply In_nth_error in Hi as [k Hk]. exists k. split; [exact Hk|]. rewrite <- ids_positions in Hk. pose proof (ids_nth e 0 k) as X. unfold active_abs_indices in Hk. rewrite Hk in X.
  destruct X as [_ [q [_ [_ X]]]]. unfold n_parms. apply nth_error_Some. congruence.
Qed.
Lemma abs2rel_all e is : NoDup (names e) -> Forall (is_active_at e) is ->
  exists rs, abs2rel e is = Ok (map Some rs) /\ rel2abs e rs = Ok is /\ Forall2 (fun k i => nth_error (active_abs_indices e) k = Some i) rs is.
Proof.
  intros N F. assert (exists rs, Forall2 (fun k i => nth_error (active_abs_indices e) k = Some i) rs is /\ Forall (fun k => k < n_parms e) rs) as [rs [H1 H2]].
  { induction F as [|i is Hi F [rs [H1 H2]]]; [exists []; auto|]. destruct (active_rank e i Hi) as [k [Hk Lk]]. exists (k :: rs). auto. }
  destruct (rel2abs_all e rs N H2) as [is' [E1 [E2 E3]]].
  assert (is' = is). { clear - H1 E3. revert is H1. induction E3; intros is H1; inversion H1; subst; [reflexivity|]. f_equal; [congruence | auto]. }
  subst is'. eauto.
Qed.
Lemma abs2rel_inactive e i p : NoDup (names e) -> nth_error e i = Some p -> p_act p = false -> abs2rel e [i] = Ok [None].
Proof.
  intros N H A. unfold abs2rel, at_index. cbn. rewrite H. cbn. f_equal. f_equal. rewrite index_map_notin; [reflexivity|].
  unfold names, active. intro X. apply in_map_iff in X as [q [Eq Hq]]. apply filter_In in Hq as [Hq Aq].
  apply In_nth_error in Hq as [j Hj]. assert (i = j).
  { apply (proj1 (NoDup_nth_error (names e)) N); [unfold names; rewrite map_length; apply nth_error_Some; congruence|]. unfold names. rewrite !nth_error_map', H, Hj. cbn. congruence. }
  subst j. congruence.
Qed.

(** ** Toggling *)
Lemma key_eqb_spec a b : reflect (a = b) (key_eqb a b).
Proof.
  destruct a as [i|s], b as [j|t]; cbn; try (constructor; congruence).
  - destruct (Nat.eqb_spec i j); constructor; congruence.
  - destruct (String.eqb_spec s t); constructor; congruence.
Qed.
Lemma key_eqb_refl a : key_eqb a a = true.
Proof. destruct (key_eqb_spec a a); congruence. Qed.
Lemma kget_in k (d : list (key * bool)) : dmem key_eqb k d = true <-> In k (map fst d).
Proof.
  unfold dmem. induction d as [|[k' b] d IH]; cbn; [split; [discriminate | contradiction]|]. destruct (key_eqb_spec k k').
  - subst. split; auto.
  - rewrite IH. intuition congruence.
Qed.
Lemma kset_fresh k b (d : list (key * bool)) : ~ In k (map fst d) -> kset k b d = d ++ [(k, b)].
Proof.
  induction d as [|[k' b'] d IH]; cbn; [reflexivity|]. intro H. destruct (key_eqb_spec k k'); [subst; elim H; auto|]. rewrite IH; auto.
Qed.
Lemma make_dict_nodup l : forall d, NoDup (map fst d ++ map fst l) -> make_dict l d = d ++ l.
Proof.
  induction l as [|[k b] l IH]; intros d N; cbn; [rewrite app_nil_r; reflexivity|].
  cbn in N. rewrite kset_fresh by (intro X; apply NoDup_remove_2 in N; apply N, in_or_app; left; exact X).
  rewrite IH; [rewrite <- app_assoc; reflexivity|]. rewrite map_app, <- app_assoc. exact N.
Qed.
Lemma combine_fst {A B} (a : list A) : forall (b : list B), length a = length b -> map fst (combine a b) = a.
Proof. induction a as [|x a IH]; intros [|y b] L; try discriminate; [reflexivity|]. cbn. rewrite IH by (injection L; auto). reflexivity. Qed.
Lemma combine_snd {A B} (a : list A) : forall (b : list B), length a = length b -> map snd (combine a b) = b.
Proof. induction a as [|x a IH]; intros [|y b] L; try discriminate; [reflexivity|]. cbn. rewrite IH by (injection L; auto). reflexivity. Qed.

Definition keys_of (e : engine) (by_name : bool) : list key := if by_name then map KS (names e) else map KI (seq 0 (length e)).
Lemma keys_length e b : length (keys_of e b) = length e.
Proof. unfold keys_of, names. destruct b; rewrite ?map_length, ?seq_length; reflexivity. Qed.
Lemma keys_nodup e b : NoDup (names e) -> NoDup (keys_of e b).
Proof.
  intro N. unfold keys_of. destruct b.
  - induction N as [|s l Hs N IH]; cbn; [constructor|]. constructor; [|exact IH]. intro X. apply in_map_iff in X as [? [Y ?]]. congruence.
  - pose proof (seq_NoDup (length e) 0) as S. induction S as [|s l Hs S IH]; cbn; [constructor|]. constructor; [|exact IH]. intro X. apply in_map_iff in X as [? [Y ?]]. congruence.
Qed.
Lemma mapping_eq e b : NoDup (names e) -> mapping e b = combine (keys_of e b) (activity e).
Proof.
  intro N. unfold mapping. fold (keys_of e b). assert (L : length (keys_of e b) = length (activity e)) by (rewrite keys_length; unfold activity; rewrite map_length; reflexivity).
  rewrite make_dict_nodup; [reflexivity|]. cbn. rewrite combine_fst by exact L. apply keys_nodup. exact N.
Qed.
Lemma kset_known k t (m : list (key * bool)) : NoDup (map fst m) -> In k (map fst m) ->
  kset k t m = map (fun kb => if key_eqb k (fst kb) then (fst kb, t) else kb) m.
Proof.
  induction m as [|[k' b] m IH]; cbn; [contradiction|]. intros N H. inversion N as [|? ? N1 N2]; subst. destruct (key_eqb_spec k k') as [->|n].
  - f_equal. symmetry. rewrite <- (map_id m) at 2. apply map_ext_in. intros [k2 b2] Hk. cbn. destruct (key_eqb_spec k' k2); [|reflexivity].
    subst. elim N1. apply in_map_iff. exists (k2, b2). auto.
  - f_equal. apply IH; [exact N2|]. destruct H; [congruence|assumption].
Qed.
Definition hit (ps : list key) (k : key) : bool := existsb (fun p => key_eqb p k) ps.
Lemma toggle_loop_spec t ps : forall m, NoDup (map fst m) -> (forall p, In p ps -> is_name p = false -> In p (map fst m)) ->
  fst (toggle_loop t ps m) = map (fun kb => if hit ps (fst kb) then (fst kb, t) else kb) m /\
  (snd (toggle_loop t ps m) = 0 <-> Forall (fun p => In p (map fst m)) ps).
Proof.
  induction ps as [|p ps IH]; intros m N R; cbn [toggle_loop].
  - split; [cbn; symmetry; rewrite <- (map_id m) at 2; apply map_ext; reflexivity | cbn; split; auto].
  - destruct (is_name p && negb (dmem key_eqb p m)) eqn:E.
    + apply andb_true_iff in E as [E1 E2]. apply negb_true_iff in E2. assert (Hp : ~ In p (map fst m)) by (intro X; apply kget_in in X; congruence).
      destruct (IH m N (fun q H => R q (or_intror H))) as [H1 H2]. destruct (toggle_loop t ps m) as [m' w]. cbn [fst snd] in *. split.
      * rewrite H1. apply map_ext_in. intros [k b] Hk. cbn [fst hit existsb]. destruct (key_eqb_spec p k); [|reflexivity]. subst. elim Hp. apply in_map_iff. exists (k, b). auto.
      * split; [discriminate|]. intro F. inversion F; subst. contradiction.
    + assert (Hp : In p (map fst m)).
      { apply andb_false_iff in E as [E|E]; [apply R; [left; reflexivity | exact E]|]. apply negb_false_iff in E. apply kget_in. exact E. }
      rewrite (kset_known p t m N Hp). set (f := fun kb => _). assert (Ef : map fst (map f m) = map fst m).
      { rewrite map_map. apply map_ext. intros [k b]. unfold f. cbn. destruct (key_eqb p k); reflexivity. }
      destruct (IH (map f m)) as [H1 H2]; [rewrite Ef; exact N | rewrite Ef; intros q H; apply R; right; exact H |].
      rewrite H1, H2, Ef. split.
      * rewrite map_map. apply map_ext. intros [k b]. unfold f, hit. cbn [fst snd existsb]. destruct (key_eqb p k); cbn; destruct (existsb (fun q => key_eqb q k) ps); reflexivity.
      * split; [intro F; constructor; assumption | intro F; inversion F; assumption].
Qed.
Lemma set_activity_ok e : forall l, length l = length e -> exists e', set_activity e l = Ok e' /\ same_but_activity e e' /\ activity e' = l.
Proof.
  induction e as [|p e IH]; intros [|b l] L; try discriminate; [exists []; splits; auto; constructor|].
  destruct (IH l) as [e' [H1 [H2 H3]]]; [injection L; auto|]. cbn. rewrite H1. eexists. splits; [reflexivity | constructor; [cbn; auto | exact H2] | unfold activity in *; cbn; rewrite H3; reflexivity].
Qed.
Lemma set_activity_bad e : forall l, length l <> length e -> set_activity e l = Err ValueError.
Proof. induction e as [|p e IH]; intros [|b l] L; cbn in *; try reflexivity; [congruence|]. rewrite IH by lia. reflexivity. Qed.

Lemma hit_meant e ps j p : nth_error e j = Some p -> same_kind ps -> ps <> [] -> NoDup (names e) ->
  forall k, nth_error (keys_of e (is_name (hd (KI 0) ps))) j = Some k -> hit ps k = true <-> meant e ps j.
Proof.
  intros Hj S Ne N k Hk. unfold hit. rewrite existsb_exists. destruct ps as [|p0 ps]; [congruence|]. clear Ne. cbn [hd] in Hk.
  assert (Hall : forall q, In q (p0 :: ps) -> is_name q = is_name p0).
  { intros q Hq. destruct S as [S|S]; rewrite Forall_forall in S; rewrite (S q Hq), (S p0) by (left; reflexivity); reflexivity. }
  unfold keys_of in Hk. split.
  - intros [q [Hq E]]. destruct (key_eqb_spec q k); [|discriminate]. subst q. exists k. split; [exact Hq|]. destruct (is_name p0).
    + unfold names in Hk. rewrite !nth_error_map', Hj in Hk. cbn in Hk. injection Hk as <-. cbn. eauto.
    + rewrite nth_error_map' in Hk. assert (nth_error (seq 0 (length e)) j = Some j) as Es.
      { assert (j < length e) by (apply nth_error_Some; congruence). rewrite nth_error_nth' with (d := 0) by (rewrite seq_length; assumption). rewrite seq_nth by assumption. reflexivity. }
      rewrite Es in Hk. cbn in Hk. injection Hk as <-. reflexivity.
  - intros [q [Hq M]]. exists q. split; [exact Hq|]. specialize (Hall q Hq). destruct q as [i|s]; cbn in Hall, M; rewrite <- Hall in Hk.
    + subst i. rewrite nth_error_map' in Hk. assert (nth_error (seq 0 (length e)) j = Some j) as Es.
      { assert (j < length e) by (apply nth_error_Some; congruence). rewrite nth_error_nth' with (d := 0) by (rewrite seq_length; assumption). rewrite seq_nth by assumption. reflexivity. }
      rewrite Es in Hk. cbn in Hk. injection Hk as <-. apply key_eqb_refl.
    + destruct M as [p' [Hp' Es]]. assert (p' = p) by congruence. subst p'. unfold names in Hk. rewrite !nth_error_map', Hj in Hk. cbn in Hk. injection Hk as <-. rewrite Es. apply key_eqb_refl.
Qed.
Definition toggle_value (t : toggle) : option bool := match t with On | TBool true => Some true | Off | TBool false => Some false | TOther => None end.
Lemma toggle_eq e ps t : toggle_parameter e ps t = match toggle_value t with
  | None => Err ValueError
  | Some t => match ps with [] => Err IndexError | p0 :: _ => let (m, w) := toggle_loop t ps (mapping e (is_name p0)) in
              match set_activity e (map snd m) with Ok e' => Ok (e', w) | Err er => Err er end end end.
Proof. reflexivity. Qed.
Lemma act_of_activity e j : act_at e j = nth_error (activity e) j.
Proof. unfold act_at, activity. rewrite nth_error_map'. reflexivity. Qed.
Lemma combine_nth_error {A B} (a : list A) : forall (b : list B) j x y, nth_error a j = Some x -> nth_error b j = Some y -> nth_error (combine a b) j = Some (x, y).
Proof. induction a as [|u a IH]; intros [|v b] [|j] x y H1 H2; cbn in *; try discriminate; [congruence | apply IH; assumption]. Qed.

Lemma toggle_spec e ps t b : NoDup (names e) -> ps <> [] -> same_kind ps -> (forall i, In (KI i) ps -> i < length e) -> toggle_value t = Some b ->
  exists e' w, toggle_parameter e ps t = Ok (e', w) /\ same_but_activity e e' /\
    (forall j, j < length e -> (meant e ps j -> act_at e' j = Some b) /\ (~ meant e ps j -> act_at e' j = act_at e j)) /\
    (w = 0 <-> Forall (known e) ps).
Proof.
  intros N Ne S R T. rewrite toggle_eq, T. destruct ps as [|p0 ps]; [congruence|]. set (Ps := p0 :: ps) in *.
  set (bn := is_name p0). assert (L : length (keys_of e bn) = length (activity e)) by (rewrite keys_length; unfold activity; rewrite map_length; reflexivity).
  assert (Fs : map fst (mapping e bn) = keys_of e bn) by (rewrite mapping_eq by exact N; apply combine_fst; exact L).
  assert (Hall : forall q, In q Ps -> is_name q = bn).
  { intros q Hq. destruct S as [S|S]; rewrite Forall_forall in S; unfold bn; rewrite (S q Hq), (S p0) by (left; reflexivity); reflexivity. }
  destruct (toggle_loop_spec b Ps (mapping e bn)) as [H1 H2].
  { rewrite Fs. apply keys_nodup. exact N. }
  { intros q Hq Eq. rewrite Fs. pose proof (Hall q Hq) as X. rewrite Eq in X. unfold keys_of. rewrite <- X. destruct q as [i|]; [|discriminate].
    apply in_map. apply in_seq. specialize (R i Hq). lia. }
  destruct (toggle_loop b Ps (mapping e bn)) as [m w]. cbn [fst snd] in *. rewrite Fs in H2. rewrite mapping_eq in H1 by exact N. clear Fs.
  set (g := fun kb : key * bool => if hit Ps (fst kb) then (fst kb, b) else kb) in *.
  destruct (set_activity_ok e (map snd m)) as [e' [E1 [E2 E3]]].
  { subst m. rewrite !map_length, combine_length. rewrite keys_length in *. lia. }
  rewrite E1. exists e', w. splits; [reflexivity | exact E2 | |].
  - intros j Hj. assert (exists p, nth_error e j = Some p) as [p Hp] by (destruct (nth_error e j) eqn:X; [eauto | apply nth_error_None in X; lia]).
    assert (exists k, nth_error (keys_of e bn) j = Some k) as [k Hk] by (destruct (nth_error (keys_of e bn) j) eqn:X; [eauto | apply nth_error_None in X; rewrite keys_length in X; lia]).
    pose proof (hit_meant e Ps j p Hp S Ne N k Hk) as HM.
    assert (A : act_at e' j = Some (if hit Ps k then b else p_act p)).
    { rewrite act_of_activity, E3, H1, !nth_error_map'. rewrite (combine_nth_error _ _ j k (p_act p) Hk) by (unfold activity; rewrite nth_error_map', Hp; reflexivity).
      cbn [option_map]. unfold g. cbn [fst snd]. destruct (hit Ps k); reflexivity. }
    rewrite A. split; intro M.
    + apply HM in M. rewrite M. reflexivity.
    + destruct (hit Ps k) eqn:X; [elim M; apply HM; reflexivity|]. unfold act_at. rewrite Hp. reflexivity.
  - rewrite H2. rewrite !Forall_forall. split; intros F q Hq; specialize (F q Hq); specialize (Hall q Hq).
    + unfold keys_of in F. destruct q as [i|s]; cbn in Hall; rewrite <- Hall in F.
      * specialize (R i Hq). destruct (nth_error e i) eqn:X; [exists i, p; cbn; auto | apply nth_error_None in X; lia].
      * apply in_map_iff in F as [s' [Es Hs]]. injection Es as ->. unfold names in Hs. apply in_map_iff in Hs as [p [Ep Hp]]. apply In_nth_error in Hp as [j Hj].
        exists j, p. cbn. eauto.
    + destruct F as [j [p [Hj M]]]. unfold keys_of. destruct q as [i|s]; cbn in Hall, M; rewrite <- Hall.
      * subst. apply in_map, in_seq. assert (j < length e) by (apply nth_error_Some; congruence). lia.
      * destruct M as [p' [Hp' <-]]. apply in_map. unfold names. apply in_map. eapply nth_error_In. exact Hp'.
Qed.

(** ** ReaxFF *)
Lemma pick_in is b : forall allowed n s j, length allowed = n ->
  In j (map fst (filter (fun jab : nat * (bool * bool) => Bool.eqb (fst (snd jab)) b && snd (snd jab)) (combine (seq s n) (combine allowed (map (fun j => nmem j is) (seq s n)))))) <->
  (s <= j /\ nth_error allowed (j - s) = Some b /\ In j is).
Proof.
  induction allowed as [|a allowed IH]; intros n s j L; subst n; cbn [length seq map combine filter fst snd].
  - split; [contradiction|]. intros [_ [H _]]. destruct (j - s); discriminate.
  - specialize (IH (length allowed) (S s) j eq_refl).
    set (rest := map fst (filter _ (combine (seq (S s) (length allowed)) _))) in *.
    assert (X : (S s <= j /\ nth_error allowed (j - S s) = Some b /\ In j is) <-> (s < j /\ nth_error (a :: allowed) (j - s) = Some b /\ In j is)).
    { split; intros [H1 [H2 H3]]; splits; auto; [replace (j - s) with (S (j - S s)) by lia; exact H2 | replace (j - s) with (S (j - S s)) in H2 by lia; exact H2]. }
    destruct (Bool.eqb a b && nmem s is) eqn:E; cbn [map fst In].
    + apply andb_true_iff in E as [E1 E2]. apply Bool.eqb_prop in E1. subst a.
      assert (In s is) by (unfold nmem in E2; apply existsb_exists in E2 as [z [Hz Ez]]; apply Nat.eqb_eq in Ez; congruence).
      change (In j (map fst (filter _ (combine (seq (S s) (length allowed)) _)))) with (In j rest). rewrite IH, X. split.
      * intros [<-|[H1 H2]]; [rewrite Nat.sub_diag; auto | split; [lia | exact H2]].
      * intros [H1 H2]. destruct (Nat.eq_dec s j); [left; assumption | right; split; [lia | exact H2]].
    + change (In j (map fst (filter _ (combine (seq (S s) (length allowed)) _)))) with (In j rest). rewrite IH, X. split.
      * intros [H1 H2]. split; [lia | exact H2].
      * intros [H1 [H2 H3]]. split; [|auto]. destruct (Nat.eq_dec s j); [|lia]. subst j. rewrite Nat.sub_diag in H2. cbn in H2. injection H2 as ->.
        apply andb_false_iff in E as [E|E]; [rewrite Bool.eqb_reflx in E; discriminate|]. assert (nmem s is = true) by (unfold nmem; apply existsb_exists; exists s; rewrite Nat.eqb_refl; auto). congruence.
Qed.
Lemma position_known e k : NoDup (names e) -> known e k -> exists j, position e k = Ok j /\ j < length e /\ forall i, i < length e -> (means e k i <-> i = j).
Proof.
  intros N [j [p [Hj M]]]. assert (Lj : j < length e) by (apply nth_error_Some; congruence). exists j. destruct k as [i|s]; cbn in M |- *.
  - subst i. rewrite Hj. splits; auto. intros i Hi. split; congruence.
  - destruct M as [q [Hq <-]]. assert (q = p) by congruence. subst q. rewrite (index_map_in (names e) 0 [] j) by (auto; unfold names; rewrite nth_error_map', Hj; reflexivity).
    splits; auto. intros i Hi. split.
    + intros [q [Hq' Eq]]. apply (proj1 (NoDup_nth_error (names e)) N); [unfold names; rewrite map_length; exact Hi|]. unfold names. rewrite !nth_error_map', Hj, Hq'. cbn. congruence.
    + intros ->. eauto.
Qed.
Lemma positions_meant e ps : NoDup (names e) -> Forall (known e) ps ->
  exists is, mapM (position e) ps = Ok is /\ forall j, j < length e -> (In j is <-> meant e ps j).
Proof.
  intros N F. induction F as [|k ps Hk F [is [H1 H2]]].
  - exists []. split; [reflexivity|]. intros j _. split; [contradiction | intros [k [[] _]]].
  - destruct (position_known e k N Hk) as [i [P1 [P2 P3]]]. exists (i :: is). cbn. rewrite P1, H1. split; [reflexivity|]. intros j Hj. split.
    + intros [<-|H]; [exists k; split; [left; reflexivity|]; apply P3; auto|]. apply H2 in H as [k' [K1 K2]]; [|exact Hj]. exists k'. split; [right; exact K1 | exact K2].
    + intros [k' [[<-|K1] K2]]; [left; symmetry; apply P3; auto | right; apply H2; [exact Hj|]; exists k'; auto].
Qed.

Lemma reax_spec allowed e ps t : NoDup (names e) -> length allowed = length e -> Forall (known e) ps -> toggle_value t = Some true ->
  (exists j, nth_error allowed j = Some true /\ meant e ps j) ->
  exists e' w, reax_toggle allowed e ps t false = Ok (e', w) /\ same_but_activity e e' /\
    (forall j, j < length e -> (meant e ps j /\ nth_error allowed j = Some true -> act_at e' j = Some true) /\
                              (~ (meant e ps j /\ nth_error allowed j = Some true) -> act_at e' j = act_at e j)) /\
    (w = true <-> exists j, nth_error allowed j = Some false /\ meant e ps j).
Proof.
  intros N L F T [j0 [A0 M0]]. unfold reax_toggle.
  replace (match t with On | TBool true => true | _ => false end) with true by (destruct t as [| |[]|]; try discriminate; reflexivity).
  destruct (positions_meant e ps N F) as [is [E H]]. rewrite E. cbv zeta.
  pose proof (fun j => pick_in is true allowed (length e) 0 j L) as Pt. pose proof (fun j => pick_in is false allowed (length e) 0 j L) as Pf.
  set (pt := map fst (filter (fun jab => Bool.eqb (fst (snd jab)) true && snd (snd jab)) _)) in *.
  set (pf := map fst (filter (fun jab => Bool.eqb (fst (snd jab)) false && snd (snd jab)) _)) in *. clearbody pt pf.
  assert (La : forall j b, nth_error allowed j = Some b -> j < length e) by (intros j b X; rewrite <- L; apply nth_error_Some; congruence).
  assert (Pm : forall j, In j pt <-> nth_error allowed j = Some true /\ meant e ps j).
  { intro j. rewrite Pt, Nat.sub_0_r. split; [intros [_ [X Y]] | intros [X Y]; splits; [lia | exact X |]]; [split; [exact X|]|]; (apply H; [eapply La; exact X | exact Y]). }
  destruct (toggle_spec e (map KI pt) t true N) as [e' [w [E1 [E2 [E3 _]]]]].
  { assert (In j0 pt) by (apply Pm; auto). destruct pt; [contradiction | discriminate]. }
  { right. apply Forall_forall. intros k Hk. apply in_map_iff in Hk as [i [<- _]]. reflexivity. }
  { intros i Hi. apply in_map_iff in Hi as [i' [X Hi]]. injection X as ->. apply Pm in Hi as [X _]. eapply La. exact X. }
  { exact T. }
  rewrite E1. eexists. eexists. splits; [reflexivity | exact E2 | |].
  - intros j Hj. destruct (E3 j Hj) as [X Y].
    assert (Q : meant e (map KI pt) j <-> meant e ps j /\ nth_error allowed j = Some true).
    { unfold meant at 1. split.
      - intros [k [Hk Mk]]. apply in_map_iff in Hk as [i [<- Hi]]. cbn in Mk. subst i. apply Pm in Hi. tauto.
      - intros [Q1 Q2]. exists (KI j). split; [apply in_map; apply Pm; auto | reflexivity]. }
    split; intro Z; [apply X, Q, Z | apply Y; rewrite Q; exact Z].
  - assert (Pn : forall j, In j pf <-> nth_error allowed j = Some false /\ meant e ps j).
    { intro j. rewrite Pf, Nat.sub_0_r. split; [intros [_ [X Y]] | intros [X Y]; splits; [lia | exact X |]]; [split; [exact X|]|]; (apply H; [eapply La; exact X | exact Y]). }
    destruct pf as [|j pf]; split; try discriminate; [intros [j Hj]; apply Pn in Hj; contradiction | intros _; exists j; apply Pn; left; reflexivity | reflexivity].
Qed.
Lemma reax_none allowed e ps t : NoDup (names e) -> length allowed = length e -> Forall (known e) ps -> toggle_value t = Some true ->
  (forall j, meant e ps j -> nth_error allowed j <> Some true) -> reax_toggle allowed e ps t false = Err IndexError.
Proof.
  intros N L F T A. unfold reax_toggle.
  replace (match t with On | TBool true => true | _ => false end) with true by (destruct t as [| |[]|]; try discriminate; reflexivity).
  destruct (positions_meant e ps N F) as [is [E H]]. rewrite E. cbv zeta.
  pose proof (fun j => pick_in is true allowed (length e) 0 j L) as Pt.
  set (pt := map fst (filter (fun jab => Bool.eqb (fst (snd jab)) true && snd (snd jab)) _)) in *. clearbody pt.
  assert (pt = []) as ->. { destruct pt as [|j pt]; [reflexivity|]. destruct (proj1 (Pt j) (or_introl eq_refl)) as [_ [X Y]]. rewrite Nat.sub_0_r in X.
    elim (A j); [|exact X]. apply H; [rewrite <- L; apply nth_error_Some; congruence | exact Y]. }
  cbn [map]. rewrite toggle_eq, T. reflexivity.
Qed.

(** ** Setting values *)
Definition same_but_values (e e' : engine) : Prop :=
  Forall2 (fun p q => p_name p = p_name q /\ p_lo p = p_lo q /\ p_hi p = p_hi q /\ p_act p = p_act q) e e'.
Lemma put_all_ok e : forall x, length x = length e -> exists e', put_all e x = Ok e' /\ same_but_values e e' /\ values e' = x.
Proof.
  induction e as [|p e IH]; intros [|v x] L; try discriminate; [exists []; splits; auto; constructor|].
  destruct (IH x) as [e' [H1 [H2 H3]]]; [injection L; auto|]. cbn. rewrite H1. eexists. splits; [reflexivity | constructor; [cbn; auto | exact H2] | unfold values in *; cbn; rewrite H3; reflexivity].
Qed.
Lemma put_active_ok e : forall x, length x = length (active e) -> exists e', put_active e x = Ok e' /\ same_but_values e e' /\ values (active e') = x /\
  Forall2 (fun p q => p_act p = false -> p = q) e e'.
Proof.
  unfold active. induction e as [|p e IH]; intros x L; cbn [filter put_active] in *.
  - destruct x; [exists []; splits; auto; constructor | discriminate].
  - destruct (p_act p) eqn:A.
    + destruct x as [|v x]; [discriminate|]. destruct (IH x) as [e' [H1 [H2 [H3 H4]]]]; [injection L; auto|]. rewrite H1. eexists. splits; [reflexivity | constructor; [cbn; auto | exact H2] | |].
      * cbn. unfold values in *. cbn. rewrite H3. reflexivity.
      * constructor; [congruence | exact H4].
    + destruct (IH x L) as [e' [H1 [H2 [H3 H4]]]]. rewrite H1. eexists. splits; [reflexivity | constructor; auto | |].
      * cbn. rewrite A. exact H3.
      * constructor; auto.
Qed.
Lemma scaled_length e x y : scaled2real e x = Ok y -> length y = length x /\ (length x = n_parms e \/ length x = n_all_parms e).
Proof.
  unfold scaled2real, ranges_for, n_parms, n_all_parms. intro H.
  destruct (Nat.eqb_spec (length x) (length (active e))) as [E|E].
  - split; [|auto]. destruct (active e) as [|p l] eqn:A; [discriminate|]. injection H as <-. unfold over. rewrite map_length, combine_length. cbn [length map] in *. rewrite map_length. lia.
  - destruct (Nat.eqb_spec (length x) (length e)) as [E2|E2]; [|discriminate]. split; [|auto]. destruct e as [|p l]; [discriminate|]. injection H as <-. unfold over. rewrite map_length, combine_length. cbn [length map] in *. rewrite map_length. lia.
Qed.
