(** * C62: A log that was saved can be used again *)
From Verif Require Import Prelude_Proofs Reload_Model Reload_Spec.

Lemma key_get {V} k (l : list (string * V)) : In k (dkeys l) <-> exists v, sget k l = Some v.
Proof.
  unfold dkeys. induction l as [|[a b] l IH]; cbn; [split; [tauto|intros [v X]; discriminate]|].
  destruct (String.eqb k a) eqn:Q.
  - apply String.eqb_eq in Q. subst. split; eauto.
  - rewrite <- IH. split; [intros [->|X]; [rewrite String.eqb_refl in Q; discriminate|exact X]|auto].
Qed.
Lemma fold_get {V} (l : list (string * V)) : forall m k, NoDup (dkeys l) ->
  sget k (fold_left (fun m kv => sset (fst kv) (snd kv) m) l m) = match sget k l with Some v => Some v | None => sget k m end.
Proof.
  induction l as [|[a b] l IH]; intros m k N; cbn [fold_left fst snd]; [reflexivity|]. cbn [dkeys map fst] in N. inversion N; subst.
  rewrite IH by assumption. cbn [dget]. rewrite sget_sset. destruct (String.eqb k a) eqn:Q; [|reflexivity].
  apply String.eqb_eq in Q. subst k. destruct (sget a l) eqn:G; [|reflexivity].
  exfalso. apply H1. apply key_get. eauto.
Qed.
Lemma filter_get {V} (P : string -> bool) (m : list (string * V)) s :
  sget s (filter (fun kv => P (fst kv)) m) = if P s then sget s m else None.
Proof.
  induction m as [|[k v] m IH]; cbn [filter fst dget]; [destruct (P s); reflexivity|]. destruct (P k) eqn:Q; cbn [dget].
  - destruct (String.eqb s k) eqn:Z; [apply String.eqb_eq in Z; subst; now rewrite Q|exact IH].
  - destruct (String.eqb s k) eqn:Z; [apply String.eqb_eq in Z; subst; rewrite Q in *; exact IH|exact IH].
Qed.
Lemma filter_nodup {V} (P : string * V -> bool) m : NoDup (dkeys m) -> NoDup (dkeys (filter P m)).
Proof.
  unfold dkeys. induction m as [|[k v] m IH]; cbn; intro N; [constructor|]. inversion N; subst. destruct (P (k, v)); cbn; auto.
  constructor; auto. intro X. apply H1. apply in_map_iff in X as [[k' v'] [X1 X2]]. apply filter_In in X2 as [X2 _].
  cbn in X1. subst. apply in_map_iff. exists (k, v'). auto.
Qed.

Lemma loaded_get {V} (o : obj V) c k : whole o ->
  sget k (o_attrs (load c (save o))) = if existsb (String.eqb k) (blocked (o_cls o)) then None else sget k (o_attrs o).
Proof.
  intros [N _]. unfold load, save. cbn [o_attrs]. rewrite fold_get by (apply filter_nodup, N).
  rewrite (filter_get (fun k => negb (existsb (String.eqb k) (blocked (o_cls o))))).
  destruct (existsb _ _); cbn [negb]; [reflexivity|]. destruct (sget k (o_attrs o)); reflexivity.
Qed.
Lemma whole_has {V} (o : obj V) k : whole o -> (In k (names (o_cls o)) <-> exists v, sget k (o_attrs o) = Some v).
Proof. intros [_ W]. rewrite <- W. apply key_get. Qed.

(** Everything but the references into the file comes back with its value. *)
Theorem C62_values V (o : obj V) c append h g t k : whole o -> In k (names (o_cls o)) -> ~ In k into_file ->
  exists v, sget k (o_attrs o) = Some v /\ sget k (o_attrs (open append h g t (load c (save o)))) = Some v.
Proof.
  intros W I N. destruct (proj1 (whole_has o k W) I) as [v E]. exists v. split; [exact E|].
  assert (L : sget k (o_attrs (load c (save o))) = Some v).
  { rewrite (loaded_get o c k W). rewrite E. destruct (existsb _ _) eqn:X; [|reflexivity]. exfalso. apply N.
    apply existsb_exists in X as [j [X1 X2]]. apply String.eqb_eq in X2. subst j. unfold blocked in X1. destruct (o_cls o); [destruct X1|exact X1]. }
  assert (K : forall j, In j into_file -> String.eqb k j = false).
  { intros j J. destruct (String.eqb k j) eqn:Q; [|reflexivity]. apply String.eqb_eq in Q. subst. contradiction. }
  unfold open. destruct (o_cls (load c (save o))); [exact L|]. destruct append; cbn [o_attrs]; rewrite !sget_sset;
    rewrite ?K by (cbn; auto); exact L.
Qed.
Print Assumptions C62_values.

Lemma reads_in c f k : In k (reads c f) -> In k (names c).
Proof.
  intro I. assert (F : forallb (fun k => existsb (String.eqb k) (names c)) (reads c f) = true) by (destruct c, f; vm_compute; reflexivity).
  rewrite forallb_forall in F. specialize (F k I). apply existsb_exists in F as [j [F1 F2]]. apply String.eqb_eq in F2. now subst.
Qed.
Lemma all_present {V} (o : obj V) : (forall k, In k (names (o_cls o)) -> has o k = true) -> usable o.
Proof.
  intros H f. unfold call. assert (F : forallb (has o) (reads (o_cls o) f) = true); [|now rewrite F].
  apply forallb_forall. intros k K. apply H. eapply reads_in; eauto.
Qed.
Lemma has_iff {V} (o : obj V) k : has o k = true <-> exists v, sget k (o_attrs o) = Some v.
Proof. unfold has. destruct (sget k (o_attrs o)); split; eauto; try discriminate. intros [v X]. discriminate. Qed.

(** The loaded log can be used iff it is kept in memory, or it was and is in a file and that file is there. *)
Theorem C62_usable_iff V (o : obj V) c append h g t : whole o ->
  usable (open append h g t (load c (save o))) <-> c = Base \/ (c = File /\ o_cls o = File /\ append = true).
Proof.
  intro W. split.
  - intro U. destruct c; [auto|right]. 
    assert (C : o_cls (open append h g t (load File (save o))) = File) by (unfold open; cbn [o_cls load]; destruct append; reflexivity).
    assert (F : forall f k, In k (reads File f) -> exists v, sget k (o_attrs (open append h g t (load File (save o)))) = Some v).
    { intros f k K. specialize (U f). unfold call in U. rewrite C in U. destruct (forallb _ _) eqn:X; [|discriminate].
      rewrite forallb_forall in X. apply has_iff. auto. }
    splits; auto.
    + destruct (F NOptimizers "_o_counter"%string (or_introl eq_refl)) as [v E]. unfold open in E. cbn [o_cls load] in E.
      destruct (o_cls o) eqn:Q; [|reflexivity]. exfalso.
      assert (L : sget "_o_counter" (o_attrs (load File (save o))) = None).
      { rewrite (loaded_get o File _ W). rewrite Q. cbn [blocked existsb].
        destruct (sget "_o_counter" (o_attrs o)) eqn:G; [|reflexivity]. exfalso.
        assert (Z : In "_o_counter"%string (names (o_cls o))) by (apply whole_has; eauto). rewrite Q in Z. revert Z. vm_compute. intuition discriminate. }
      destruct append; cbn [o_attrs] in E; rewrite !sget_sset in E; cbn [String.eqb Ascii.eqb Bool.eqb] in E; rewrite L in E; discriminate.
    + destruct append; [reflexivity|]. exfalso.
      destruct (F HasHistory "_tables"%string (or_introl eq_refl)) as [v E]. unfold open in E. cbn [o_cls load o_attrs] in E.
      rewrite sget_sset in E. cbn [String.eqb Ascii.eqb Bool.eqb] in E.
      assert (L : sget "_tables" (o_attrs (load File (save o))) = None); [|cbn [load o_attrs] in L; rewrite L in E; discriminate].
      rewrite (loaded_get o File _ W). destruct (o_cls o) eqn:Q; [|reflexivity]. cbn [blocked existsb].
      destruct (sget "_tables" (o_attrs o)) eqn:G; [|reflexivity]. exfalso.
      assert (Z : In "_tables"%string (names (o_cls o))) by (apply whole_has; eauto). rewrite Q in Z. revert Z. vm_compute. intuition discriminate.
  - intro H. apply all_present. intros k K. apply has_iff.
    assert (C : o_cls (open append h g t (load c (save o))) = c) by (unfold open; cbn [o_cls load]; destruct c, append; reflexivity).
    rewrite C in K. destruct H as [->|[-> [Q ->]]].
    + assert (I : In k (names (o_cls o))) by (unfold names in *; destruct (o_cls o); [exact K|apply in_or_app; left; exact K]).
      assert (NF : ~ In k into_file).
      { intro Z. assert (F : forallb (fun k => negb (existsb (String.eqb k) into_file)) (names Base) = true) by (vm_compute; reflexivity).
        rewrite forallb_forall in F. specialize (F k K). apply negb_true_iff in F.
        assert (X : existsb (String.eqb k) into_file = true) by (apply existsb_exists; exists k; split; [exact Z|apply String.eqb_refl]). congruence. }
      destruct (C62_values V o Base append h g t k W I NF) as [v [_ E]]. eauto.
    + unfold open. cbn [o_cls load o_attrs]. rewrite !sget_sset.
      destruct (String.eqb k "_tables") eqn:Q1; [eauto|]. destruct (String.eqb k "_groups") eqn:Q2; [eauto|].
      destruct (String.eqb k "pytab_file") eqn:Q3; [eauto|].
      change (fold_left (fun m kv => sset (fst kv) (snd kv) m) (save o) []) with (o_attrs (load File (save o))).
      rewrite (loaded_get o File k W), Q. cbn [blocked existsb]. rewrite Q1, Q2, Q3. cbn [orb]. apply (whole_has o k W). now rewrite Q.
Qed.
Print Assumptions C62_usable_iff.

(** Every log that was constructed is whole. *)
Lemma constructed_whole {V} c (v : string -> V) : whole (construct c v).
Proof.
  unfold whole, construct. cbn [o_attrs o_cls]. unfold dkeys. rewrite map_map. cbn [fst]. rewrite map_id. split; [|tauto].
  assert (X : nodup string_dec (names c) = names c) by (destruct c; vm_compute; reflexivity). rewrite <- X. apply NoDup_nodup.
Qed.
Definition some_log : obj nat := construct File String.length.
Example C62_values_met : whole some_log /\ In "_o_counter"%string (names (o_cls some_log)) /\ ~ In "_o_counter"%string into_file /\
  sget "_o_counter" (o_attrs (open true 1 2 3 (load File (save some_log)))) = Some 10.
Proof. splits; [apply constructed_whole|vm_compute; tauto|vm_compute; intuition discriminate|vm_compute; reflexivity]. Qed.
Example C62_usable_met : whole some_log /\ call (open true 1 2 3 (load File (save some_log))) Flush = Ok tt /\
  call (open false 1 2 3 (load File (save some_log))) Flush = Err AttributeError /\
  call (open false 1 2 3 (load Base (save some_log))) Flush = Ok tt.
Proof. splits; [apply constructed_whole|vm_compute; reflexivity..]. Qed.

(** "otherwise GloMPO will create a new log file" (manager.py 690-693): with a new file the first question for a history and
    the first new optimizer fail. *)
Theorem C62_new_file_refuted : exists (o : obj nat), whole o /\ o_cls o = File /\
  call (open false 1 2 3 (load (class_for 3) (save o))) HasHistory = Err AttributeError /\
  call (open false 1 2 3 (load (class_for 3) (save o))) AddOptimizer = Err AttributeError.
Proof. exists some_log. splits; [apply constructed_whole|vm_compute; reflexivity..]. Qed.
Print Assumptions C62_new_file_refuted.
(** Raising summary_files to 3 while loading a run that had less: also an existing file does not help. *)
Theorem C62_summary_files_refuted : exists (o : obj nat), whole o /\ o_cls o = class_for 2 /\
  call (open true 1 2 3 (load (class_for 3) (save o))) Flush = Err AttributeError /\
  call (open false 1 2 3 (load (class_for 3) (save o))) Flush = Err AttributeError.
Proof. exists (construct Base String.length). splits; [apply constructed_whole|vm_compute; reflexivity..]. Qed.
Print Assumptions C62_summary_files_refuted.
