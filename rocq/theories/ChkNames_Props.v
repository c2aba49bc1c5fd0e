(** * C34 checkpoint names, C35 deleting old checkpoints *)
From Coq Require Import Ascii.
From Verif Require Import Prelude Prelude_Proofs ChkNames_Model ChkNames_Spec ChkNames_Proofs.

Definition noon : clock := mkClock 2026 11 16 12 0 7.
Lemma noon_valid : valid noon.
Proof. unfold valid. cbn. lia. Qed.

Lemma no_mark_chars fmt : existsb (fun c => Ascii.eqb c "?" || Ascii.eqb c "\") (chars fmt) = false -> plain fmt.
Proof.
  intros H c Hc [-> | ->]; apply not_true_iff_false in H; apply H, existsb_exists; eexists; (split; [exact Hc| reflexivity]).
Qed.
(** A test for [counts_once], [counts_never] and [undated]. *)
Fixpoint places (k : code) (s : string) : nat :=
  match strip (key k) s with Some _ => 1 | None => 0 end + match s with EmptyString => 0 | String _ s' => places k s' end.
Lemma places_at k : forall a b, 0 < places k (a ++ key k ++ b).
Proof.
  induction a as [|c a IH]; intro b.
  - cbn [append]. destruct (key k ++ b)%string eqn:E; cbn [places]; rewrite <- E, strip_app; lia.
  - cbn [append places]. specialize (IH b). lia.
Qed.
Lemma places_none k s : places k s = 0 -> ~ occurs (key k) s.
Proof. intros H [a [b ->]]. pose proof (places_at k a b). lia. Qed.
Lemma string_inj c s d t : String c s = String d t -> c = d /\ s = t.
Proof. intros [= -> ->]. auto. Qed.
Lemma places_one s : places KCount s = 1 -> forall a b a' b', s = (a ++ key KCount ++ b)%string -> s = (a' ++ key KCount ++ b')%string -> a = a'.
Proof.
  induction s as [|c s IH]; intros H a b a' b' E E'; [destruct a; discriminate|].
  destruct a as [|d a], a' as [|d' a']; [reflexivity| | |].
  - exfalso. cbn [append] in E'. apply string_inj in E' as [-> E']. cbn [places] in H. rewrite E in H at 1. cbn [append] in H. rewrite strip_app in H.
    pose proof (places_at KCount a' b') as Hp. rewrite <- E' in Hp. lia.
  - exfalso. cbn [append] in E. apply string_inj in E as [-> E]. cbn [places] in H. rewrite E' in H at 1. cbn [append] in H. rewrite strip_app in H.
    pose proof (places_at KCount a b) as Hp. rewrite <- E in Hp. lia.
  - cbn [append] in E, E'. apply string_inj in E as [-> E]. apply string_inj in E' as [<- E']. f_equal. eapply IH; [|exact E| exact E'].
    cbn [places] in H. pose proof (places_at KCount a b) as Hp. rewrite <- E in Hp. lia.
Qed.
Lemma places_some s : places KCount s <> 0 -> occurs (key KCount) s.
Proof.
  induction s as [|c s IH]; intro H; [cbn in H; congruence|]. cbn [places] in H. destruct (strip (key KCount) (String c s)) as [r|] eqn:E.
  - exists "", r. exact (strip_some _ _ _ E).
  - destruct IH as [a [b ->]]; [lia|]. exists (String c a), b. reflexivity.
Qed.
Lemma once_test s : places KCount s = 1 -> counts_once s.
Proof. intro H. split; [apply places_some; lia| apply places_one, H]. Qed.
Lemma never_test s : places KCount s = 0 -> counts_never s.
Proof. apply places_none. Qed.
Lemma undated_test s : forallb (fun k => Nat.eqb (places k s) 0) dated = true -> undated s.
Proof.
  intros H k Hk. apply places_none. rewrite forallb_forall in H. apply Nat.eqb_eq, H. destruct k; cbn; auto 12; congruence.
Qed.

(** ** C34 *)
(** The name is the format with every key replaced by the date or number it stands for, and nothing else changed. *)
Theorem C34_name_follows_format fmt t dir name n : count_of fmt dir = Ok n -> get_name fmt t dir = Ok name -> rendered (spelled t n) fmt name.
Proof.
  intros Hn Hg. eapply rendered_impl; [|exact (get_name_renders _ _ _ _ _ Hn Hg)]. intros k x ->.
  destruct k; cbn [stamps stamp spelled]; eauto 12.
Qed.
Print Assumptions C34_name_follows_format.
Example C34_name_follows_format_met : get_name "a_%(date)-%(time)_%(yr)(%(count))" noon (Some ["a_20261116-115900_26(041).tar.gz"; "b"]) = Ok "a_20261116-120007_26(042)".
Proof. vm_compute. reflexivity. Qed.

(** The number is greater than every number in the directory, and no greater than needed. *)
Theorem C34_count_is_next fmt dir : plain fmt -> counts_once fmt -> exists n, count_of fmt dir = Ok n /\
  let names := match dir with Some l => l | None => [] end in
  (forall x i, In x names -> bears fmt x i -> i < n) /\ (n = 0 \/ exists x i, In x names /\ bears fmt x i /\ n = S i).
Proof. exact (count_spec fmt dir). Qed.
Print Assumptions C34_count_is_next.
Example C34_count_is_next_met : plain "c.%(count)" /\ counts_once "c.%(count)" /\ count_of "c.%(count)" (Some ["c.007"; "cx009"; "c.003.tar.gz"]) = Ok 8.
Proof. splits; [apply no_mark_chars; reflexivity| apply once_test; reflexivity| vm_compute; reflexivity]. Qed.

(** Recognised names are exactly those of the format, possibly with something appended. *)
Theorem C34_recognition fmt x : plain fmt -> counts_once fmt \/ counts_never fmt ->
  exists b, matches_format fmt x = Ok b /\ (b = true <-> exists i, bears fmt x i).
Proof. exact (recognises fmt x). Qed.
Print Assumptions C34_recognition.
Example C34_recognition_met : plain "g_%(date)" /\ counts_never "g_%(date)" /\ matches_format "g_%(date)" "g_20261116.tar.gz" = Ok true /\
  matches_format "g_%(date)" "g_2026111" = Ok false.
Proof. splits; [apply no_mark_chars; reflexivity| apply never_test; reflexivity| vm_compute; reflexivity..]. Qed.

Theorem C34_new_name_is_recognised_partial fmt t dir name n : plain fmt -> counts_once fmt \/ counts_never fmt -> valid t ->
  count_of fmt dir = Ok n -> n < 1000 -> get_name fmt t dir = Ok name -> forall z, matches_format fmt (name ++ z) = Ok true.
Proof.
  intros Hp Hc Hv Hn Hlt Hg z. destruct (recognises fmt (name ++ z)%string Hp Hc) as [b [-> Hb]]. f_equal. apply Hb. exists n. apply bears_app.
  eapply name_bears; eassumption.
Qed.
Print Assumptions C34_new_name_is_recognised_partial.
Example C34_new_name_is_recognised_met : let fmt := "glompo_checkpoint_%(date)_%(time)" in
  plain fmt /\ counts_never fmt /\ valid noon /\ count_of fmt (Some ["x"]) = Ok 0 /\ get_name fmt noon (Some ["x"]) = Ok "glompo_checkpoint_20261116_120007".
Proof. cbv zeta. splits; [apply no_mark_chars; reflexivity| apply never_test; reflexivity| apply noon_valid| vm_compute; reflexivity..]. Qed.

(** With a counter nothing in the directory has the new name, the new name with something appended, or - if the format
    has no dot - the name of the archive made of it.  Missing: formats with ? or a backslash, more than one counter, the
    thousandth checkpoint, archives for formats with dots. *)
Theorem C34_new_name_is_new_partial fmt t names name n : plain fmt -> counts_once fmt -> valid t ->
  count_of fmt (Some names) = Ok n -> n < 1000 -> get_name fmt t (Some names) = Ok name ->
  (forall z, ~ In (name ++ z)%string names) /\ (~ In "."%char (chars fmt) -> ~ In (tar_name name) names).
Proof.
  intros Hp Hc Hv Hn Hlt Hg. assert (Hz : forall z, ~ In (name ++ z)%string names).
  { intros z Hi. destruct (count_spec fmt (Some names) Hp Hc) as [n' [Hn' [H _]]]. rewrite Hn in Hn'. injection Hn' as <-.
    enough (n < n) by lia. apply (H (name ++ z)%string); [exact Hi|]. apply bears_app. eapply name_bears; eassumption. }
  split; [exact Hz|]. intro Hd. rewrite tar_undotted; [apply Hz|]. intro Hi.
  destruct (rendered_chars _ fmt name "."%char (fun k x d (E : x = stamps t n k) Hd => stamps_digits t n k d (eq_ind x (fun y => In d (chars y)) Hd _ E)) (get_name_renders _ _ _ _ _ Hn Hg) Hi) as [H|H]; [discriminate H| tauto].
Qed.
Print Assumptions C34_new_name_is_new_partial.
Example C34_new_name_is_new_met : let fmt := "run_%(count)" in
  plain fmt /\ counts_once fmt /\ valid noon /\ count_of fmt (Some ["run_000.tar.gz"; "run_004.tar.gz"]) = Ok 5 /\
  get_name fmt noon (Some ["run_000.tar.gz"; "run_004.tar.gz"]) = Ok "run_005" /\ ~ In "."%char (chars fmt) /\ tar_name "run_005" = "run_005.tar.gz".
Proof.
  cbv zeta. splits; [apply no_mark_chars; reflexivity| apply once_test; reflexivity| apply noon_valid| vm_compute; reflexivity| vm_compute; reflexivity| cbn; intuition discriminate| reflexivity].
Qed.

(** A question mark is not escaped: the control does not recognise its own names and counts nothing. *)
Theorem C34_question_mark_refuted : exists fmt x, get_name fmt noon (Some []) = Ok x /\ matches_format fmt x = Ok false /\
  get_name fmt noon (Some [x; tar_name x]) = Ok x.
Proof. exists "a?b_%(count)", "a?b_000". vm_compute. auto. Qed.
Print Assumptions C34_question_mark_refuted.
(** After number 999 the number is 1000 for ever. *)
Theorem C34_thousand_refuted : exists fmt dir x, plain fmt /\ counts_once fmt /\ get_name fmt noon (Some dir) = Ok x /\ In x dir /\ In (tar_name x) dir.
Proof.
  exists "ab_%(count)", ["ab_1000"; "ab_1000.tar.gz"; "ab_999.tar.gz"], "ab_1000".
  splits; [apply no_mark_chars; reflexivity| apply once_test; reflexivity| vm_compute; reflexivity| cbn; auto| vm_compute; auto].
Qed.
Print Assumptions C34_thousand_refuted.
(** A dot in the format: the name is new but the archive replaces the last one. *)
Theorem C34_dot_refuted : exists fmt old x, plain fmt /\ counts_once fmt /\ get_name fmt noon (Some []) = Ok old /\
  get_name fmt noon (Some [old]) = Ok x /\ x <> old /\ tar_name x = tar_name old /\ get_name fmt noon (Some [tar_name old]) = Ok old.
Proof.
  exists "run_0.1_%(count)", "run_0.1_000", "run_0.1_001".
  splits; [apply no_mark_chars; reflexivity| apply once_test; reflexivity| vm_compute; reflexivity| vm_compute; reflexivity| discriminate| vm_compute; reflexivity..].
Qed.
Print Assumptions C34_dot_refuted.
(** With two counters the expression has two groups of one name and does not compile: after the first file no name at all. *)
Theorem C34_two_counters_refuted : exists fmt x, get_name fmt noon None = Ok x /\ get_name fmt noon (Some [x]) = Err ValueError.
Proof. exists "%(count)_%(count)", "000_000". vm_compute. auto. Qed.
Print Assumptions C34_two_counters_refuted.

(** ** C35 *)
(** Exactly which entries remain: directories, names not recognised, and those with fewer than keep + 2 names after them. *)
Theorem C35_which_remain fmt keep dir dir' e : NoDup (map fst dir) -> clean_up fmt keep dir = Ok dir' ->
  (In e dir' <-> In e dir /\ (snd e = false \/ matches_format fmt (fst e) = Ok false \/ newer fmt (fst e) (map fst dir) < keep + 2)).
Proof. exact (clean_spec fmt keep dir dir' e). Qed.
Print Assumptions C35_which_remain.
Example C35_which_remain_met :
  clean_up "d_%(day)" 0 [("d_01", true); ("d_02.tar.gz", true); ("keep", true); ("d_03", false); ("d_03.tar.gz", true)] =
  Ok [("keep", true); ("d_03", false); ("d_03.tar.gz", true)].
Proof. vm_compute. reflexivity. Qed.

(** With a counter as only key: the new archive remains, and an earlier one exactly if fewer than [keep] earlier ones have
    a greater number. *)
Theorem C35_most_recent_partial fmt keep dir nm n old dir' : plain fmt -> counts_once fmt -> undated fmt -> NoDup (map fst dir) ->
  In (nm, false) dir -> In ((nm ++ ".tar.gz")%string, true) dir -> bears fmt nm n ->
  NoDup (map fst old) -> NoDup (map snd old) ->
  (forall i x, In (i, x) old -> i < n /\ bears fmt x i /\ In (x, true) dir) ->
  (forall e i, In e dir -> bears fmt (fst e) i -> fst e = nm \/ fst e = (nm ++ ".tar.gz")%string \/ In (i, fst e) old) ->
  clean_up fmt keep dir = Ok dir' ->
  In ((nm ++ ".tar.gz")%string, true) dir' /\
  forall i x, In (i, x) old -> (In (x, true) dir' <-> length (filter (fun p => Nat.ltb i (fst p)) old) < keep).
Proof. exact (recent_rank fmt keep dir nm n old dir'). Qed.
Print Assumptions C35_most_recent_partial.
Definition shelf : list entry :=
  [("r_001.tar.gz", true); ("notes", true); ("r_004", false); ("r_003.tar.gz", true); ("r_004.tar.gz", true); ("r_002.tar.gz", true)].
Example C35_most_recent_met : exists fmt nm n old dir', plain fmt /\ counts_once fmt /\ undated fmt /\ NoDup (map fst shelf) /\
  In (nm, false) shelf /\ In ((nm ++ ".tar.gz")%string, true) shelf /\ bears fmt nm n /\ NoDup (map fst old) /\ NoDup (map snd old) /\
  (forall i x, In (i, x) old -> i < n /\ bears fmt x i /\ In (x, true) shelf) /\
  (forall e i, In e shelf -> bears fmt (fst e) i -> fst e = nm \/ fst e = (nm ++ ".tar.gz")%string \/ In (i, fst e) old) /\
  clean_up fmt 1 shelf = Ok dir' /\ map fst dir' = ["notes"; "r_004"; "r_003.tar.gz"; "r_004.tar.gz"].
Proof.
  exists "r_%(count)", "r_004", 4, [(1, "r_001.tar.gz"); (3, "r_003.tar.gz"); (2, "r_002.tar.gz")], [("notes", true); ("r_004", false); ("r_003.tar.gz", true); ("r_004.tar.gz", true)].
  assert (Hb : forall i z, i < 5 -> bears "r_%(count)" ("r_" ++ padded 3 i ++ z) i).
  { intros i z Hi. split; [lia|]. exists ("r_" ++ padded 3 i ++ "")%string, z. split; [rewrite app_nil_str; reflexivity|].
    apply rend_char; [intros []; discriminate|]. apply rend_char; [intros []; discriminate|].
    apply (rend_key _ KCount (padded 3 i) "" ""); [|constructor]. split; [|auto]. apply number_padded. cbn. lia. }
  assert (Hc : counts_once "r_%(count)") by (apply once_test; reflexivity).
  splits; [apply no_mark_chars; reflexivity| exact Hc| apply undated_test; reflexivity| | | | | | | | |vm_compute; reflexivity|reflexivity].
  - cbn. repeat constructor; cbn; intuition discriminate.
  - cbn. auto.
  - cbn. auto 8.
  - exact (Hb 4 "" ltac:(lia)).
  - cbn. repeat constructor; cbn; intuition discriminate.
  - cbn. repeat constructor; cbn; intuition discriminate.
  - intros i x [[= <- <-]|[[= <- <-]|[[= <- <-]|[]]]]; (split; [lia|]).
    + split; [exact (Hb 1 ".tar.gz" ltac:(lia))| cbn; auto].
    + split; [exact (Hb 3 ".tar.gz" ltac:(lia))| cbn; auto 8].
    + split; [exact (Hb 2 ".tar.gz" ltac:(lia))| cbn; auto 8].
  - intros e i He Hi.
    assert (E : forall j z, j < 5 -> fst e = ("r_" ++ padded 3 j ++ z)%string -> i = j).
    { intros j z Hj E. rewrite E in Hi. eapply bears_unique; [exact Hc| exact Hi| apply Hb, Hj]. }
    destruct He as [<-|[<-|[<-|[<-|[<-|[<-|[]]]]]]]; cbn [fst] in *; auto.
    + rewrite (E 1 ".tar.gz"%string); [cbn; auto| lia| reflexivity].
    + exfalso. destruct (recognises "r_%(count)" "notes" ltac:(apply no_mark_chars; reflexivity) (or_introl Hc)) as [b [E1 E2]].
      vm_compute in E1. injection E1 as <-. destruct E2 as [_ E2]. discriminate E2. eauto.
    + rewrite (E 3 ".tar.gz"%string); [cbn; auto 8| lia| reflexivity].
    + rewrite (E 2 ".tar.gz"%string); [cbn; auto 8| lia| reflexivity].
Qed.

(** Names which merely begin like a checkpoint are counted and deleted. *)
Theorem C35_foreign_file_refuted : exists fmt keep dir dir' x, plain fmt /\ clean_up fmt keep dir = Ok dir' /\ In (x, true) dir /\ ~ In (x, true) dir' /\
  x = "r_001_results.txt".
Proof.
  exists "r_%(count)", 0, [("r_001_results.txt", true); ("r_001.tar.gz", true); ("r_002", false); ("r_002.tar.gz", true)], [("r_002", false); ("r_002.tar.gz", true)], "r_001_results.txt".
  splits; [apply no_mark_chars; reflexivity| vm_compute; reflexivity| cbn; auto| cbn; intuition discriminate| reflexivity].
Qed.
Print Assumptions C35_foreign_file_refuted.
(** A format which does not sort by time: the checkpoint just made is deleted. *)
Theorem C35_new_checkpoint_deleted_refuted : exists fmt t dir dir' name, plain fmt /\ valid t /\ get_name fmt t (Some ["30112025.tar.gz"; "31102025.tar.gz"]) = Ok name /\
  dir = [("30112025.tar.gz", true); ("31102025.tar.gz", true); (name, false); (tar_name name, true)] /\
  clean_up fmt 0 dir = Ok dir' /\ dir' = [("30112025.tar.gz", true); ("31102025.tar.gz", true); (name, false)].
Proof.
  exists "%(day)%(month)%(year)", (mkClock 2026 1 2 12 0 0), [("30112025.tar.gz", true); ("31102025.tar.gz", true); ("02012026", false); ("02012026.tar.gz", true)],
    [("30112025.tar.gz", true); ("31102025.tar.gz", true); ("02012026", false)], "02012026".
  splits; [apply no_mark_chars; reflexivity| unfold valid; cbn; lia| vm_compute; reflexivity..].
Qed.
Print Assumptions C35_new_checkpoint_deleted_refuted.
(** A directory left behind by a run that was killed takes a place: one archive too few is kept. *)
Theorem C35_leftover_counts_refuted : exists fmt keep dir dir', plain fmt /\ counts_once fmt /\ undated fmt /\ clean_up fmt keep dir = Ok dir' /\
  In ("r_002.tar.gz", true) dir /\ ~ In ("r_002.tar.gz", true) dir' /\ keep = 1 /\
  dir = [("r_001.tar.gz", true); ("r_002.tar.gz", true); ("r_003", false); ("r_004", false); ("r_004.tar.gz", true)].
Proof.
  exists "r_%(count)", 1, [("r_001.tar.gz", true); ("r_002.tar.gz", true); ("r_003", false); ("r_004", false); ("r_004.tar.gz", true)],
   [("r_003", false); ("r_004", false); ("r_004.tar.gz", true)].
  splits; [apply no_mark_chars; reflexivity| apply once_test; reflexivity| apply undated_test; reflexivity| vm_compute; reflexivity| cbn; auto| cbn; intuition discriminate| reflexivity..].
Qed.
Print Assumptions C35_leftover_counts_refuted.
