(** * C67-C69: print streams, log files and the working directory *)
From Verif Require Import Prelude_Proofs Streams_Model Streams_Spec Streams_Proofs.

(** ** C67 *)
Theorem C67_streams : forall l, legal 0 xinit l ->
  t_files (fold_left sstep l sinit) = x_files (fold_left expect l xinit) /\ t_console (fold_left sstep l sinit) = x_console (fold_left expect l xinit).
Proof. intros l L. destruct (run_inv l _ _ _ L init_inv) as [n [A B C D E F G]]. auto. Qed.
Print Assumptions C67_streams.

(** The file of a redirected thread holds what the thread printed, whatever all others do meanwhile. *)
Theorem C67_own : forall l0 i p mid, legal 0 xinit (l0 ++ Start i (Some p) :: mid) -> (forall j, home (fold_left expect l0 xinit) j <> Some p) -> Forall (others i p) mid ->
  fget p (t_files (fold_left sstep (l0 ++ Start i (Some p) :: mid) sinit)) = said i mid.
Proof.
  intros l0 i p mid L N O. destruct (C67_streams _ L) as [-> _]. rewrite fold_left_app. cbn [fold_left].
  set (x := fold_left expect l0 xinit) in *. destruct (mid_sole i p mid (expect x (Start i (Some p)))) as [_ E]; auto.
  - intro j. unfold home. cbn. destruct (Nat.eqb_spec j i) as [->|M]; [tauto|]. split; [intro H; now destruct (N j)|congruence].
  - rewrite E. cbn. rewrite fget_fput. now destruct (path_eqb_spec p p).
Qed.
Print Assumptions C67_own.
Definition tr1 : list sevent :=
  [Start 1 None; Wrap; Print 1 "a"; Start 2 (Some (0, 1)); Start 3 (Some (0, 2)); Print 3 "b"; Print 2 "c"; Print 1 "d"; Print 3 "e";
   End 2 true None; Start 2 None; Print 2 "f"; End 3 true (Some ("g", "h")); Wrap; Start 3 (Some (1, 1)); Print 3 "i"; Print 2 "j"]%string.
Example C67_streams_met : legal 0 xinit tr1 /\ fget (0, 2) (t_files (fold_left sstep tr1 sinit)) = ["b"; "e"; "g"]%string /\
  fget (1, 1) (t_files (fold_left sstep tr1 sinit)) = ["i"]%string /\ t_console (fold_left sstep tr1 sinit) = ["a"; "d"; "f"; "h"; "j"]%string.
Proof. splits; [now apply legalb_ok|reflexivity|reflexivity|reflexivity]. Qed.
Definition tr1_pre : list sevent := firstn 4 tr1.
Definition tr1_mid : list sevent := firstn 7 (skipn 5 tr1).
Example C67_own_met : legal 0 xinit (tr1_pre ++ Start 3 (Some (0, 2)) :: tr1_mid) /\ (forall j, home (fold_left expect tr1_pre xinit) j <> Some (0, 2)) /\
  Forall (others 3 (0, 2)) tr1_mid /\ said 3 tr1_mid = ["b"; "e"]%string.
Proof.
  splits; [now apply legalb_ok| | |reflexivity].
  - intro j. unfold home. cbn. destruct (Nat.eqb j 2); [discriminate|]. now destruct (Nat.eqb j 1).
  - repeat constructor; cbn; auto; discriminate.
Qed.

(** A redirected thread may outlive its manager (it is not terminated, only warned about).  When the next manager starts, the file of
    this thread can no longer be closed: whatever is later printed by an unredirected thread with the same ident, by the
    main program even, lands in the old file. *)
Definition redirects (e : sevent) : bool := match e with Start _ (Some _) => true | _ => false end.
Theorem C67_zombie_refuted : exists l i m, redirects (last l Wrap) = false /\ last l Wrap = Start i None /\
  t_console (fold_left sstep (l ++ [Print i m]) sinit) = [] /\ fget (0, 1) (t_files (fold_left sstep (l ++ [Print i m]) sinit)) = [m].
Proof. exists [Wrap; Start 5 (Some (0, 1)); Wrap; End 5 true None; Start 5 None], 5, "hello"%string. splits; vm_compute; reflexivity. Qed.
Print Assumptions C67_zombie_refuted.
(** Every session leaves another layer around the stream of the program. *)
Theorem C67_never_unwrapped : forall l s, length (t_tables (fold_left sstep l s)) = length (t_tables s) + length (filter (fun e => match e with Wrap => true | _ => false end) l).
Proof.
  assert (W : forall i m s, t_tables (write i m s) = t_tables s) by (intros i m s; unfold write; now destruct (target i (t_tables s))).
  assert (R : forall i p s, length (t_tables (register i p s)) = length (t_tables s)) by (intros i p s; unfold register; destruct (t_tables s) eqn:T; cbn; rewrite ?T; reflexivity).
  assert (K : forall i s, length (t_tables (close i s)) = length (t_tables s)).
  { intros i s. unfold close. destruct (t_tables s) as [|t ts] eqn:T; [now rewrite T|]. destruct (nget i t) as [[p b]|]; cbn; rewrite ?T; reflexivity. }
  induction l as [|e l IH]; intro s; cbn [fold_left filter]; [now rewrite Nat.add_0_r|]. rewrite IH.
  assert (E : length (t_tables (sstep s e)) = length (t_tables s) + match e with Wrap => 1 | _ => 0 end).
  { destruct e as [|i [p|]|i m|i r c]; cbn [sstep]; [cbn; lia|now rewrite R, Nat.add_0_r|lia|now rewrite W, Nat.add_0_r|].
    assert (X : forall s', length (t_tables (match c with Some (_, m) => write i m s' | None => s' end)) = length (t_tables s')) by (intro s'; destruct c as [[? ?]|]; [now rewrite W|reflexivity]).
    rewrite X. set (s1 := match c with Some (m, _) => write i m s | None => s end). assert (Y : t_tables s1 = t_tables s) by (unfold s1; destruct c as [[? ?]|]; [now rewrite W|reflexivity]).
    destruct r; rewrite ?K, Y; lia. }
  rewrite E. destruct e; cbn [length]; lia.
Qed.
Print Assumptions C67_never_unwrapped.
Example C67_never_unwrapped_met : length (t_tables (fold_left sstep tr1 sinit)) = 2.
Proof. reflexivity. Qed.

(** ** C68 *)
Theorem C68_split_partial : forall c l s, log_all c l linit = Ok s ->
  (forall i, lfile i s = map snd (from_first (h_level c) (records_of i (l_level c) l))) /\
  g_out s = if propagate c then map snd (filter (fun r => Nat.leb (l_level c) (snd (fst r)) && Nat.leb (h_level c) (snd (fst r))) l) else [].
Proof. intros c l s H. destruct (log_all_ok c l [] _ _ (linit_ok c) H) as [A B C D]. auto. Qed.
Print Assumptions C68_split_partial.
(** With a handler that takes all the logger lets through, nothing is missing. *)
Corollary C68_split : forall c l s i, h_level c <= l_level c -> log_all c l linit = Ok s -> lfile i s = map snd (records_of i (l_level c) l).
Proof.
  intros c l s i Hl H. destruct (C68_split_partial c l s H) as [-> _]. f_equal.
  assert (F : Forall (fun r => h_level c <= fst r) (records_of i (l_level c) l)).
  { apply Forall_forall. intros [v m] X. unfold records_of in X. apply in_flat_map in X as [[[[j|] v'] m'] [_ X]]; [|destruct X]. destruct (Nat.eqb i j && Nat.leb (l_level c) v') eqn:E; [|destruct X].
    destruct X as [X|[]]. injection X as -> ->. apply andb_true_iff in E as [_ E]. apply Nat.leb_le in E. cbn. lia. }
  destruct F as [|[v m] r F _]; [reflexivity|]. cbn in *. apply Nat.leb_le in F. now rewrite F.
Qed.
Print Assumptions C68_split.
Definition DEBUG := 10. Definition INFO := 20.
Definition recs : list (option nat * nat * text) := [(Some 1, 20, "a"); (Some 2, 20, "b"); (Some 1, 10, "c"); (Some 2, 30, "d"); (Some 1, 20, "e"); (Some 1, 5, "f")]%string.
Example C68_split_met : match log_all (mkLC DEBUG DEBUG true) recs linit with Ok s => lfile 1 s = ["a"; "c"; "e"]%string /\ lfile 2 s = ["b"; "d"]%string | Err _ => False end.
Proof. vm_compute. auto. Qed.
Example C68_split_partial_met : match log_all (mkLC DEBUG INFO false) ((Some 1, 10, "lost"%string) :: recs) linit with Ok s => lfile 1 s = ["a"; "c"; "e"]%string /\ g_out s = [] | Err _ => False end.
Proof. vm_compute. auto. Qed.

(** The configuration of the docstring: logger at DEBUG, handler at INFO, "debug records are also in the files". *)
Theorem C68_lost_refuted : exists c l s i, log_all c l linit = Ok s /\ lfile i s <> map snd (records_of i (l_level c) l).
Proof. exists (mkLC DEBUG INFO false), [(Some 1, 10, "first"); (Some 1, 20, "second")]%string, (mkL [1] [(1, ["second"%string])] [1] []), 1. split; [vm_compute; reflexivity|]. vm_compute. discriminate. Qed.
Print Assumptions C68_lost_refuted.
(** The call that logs raises exactly when a record of an optimizer without number reaches the handler. *)
Theorem C68_raises : forall c l s, log_all c l s = Err ValueError <-> exists v m, In (None, v, m) l /\ l_level c <= v /\ h_level c <= v.
Proof. intros. symmetry. apply log_raises. Qed.
Print Assumptions C68_raises.
Theorem C68_alone_refuted : exists c m, log_record c None INFO m linit = Err ValueError.
Proof. exists (mkLC DEBUG INFO false), "started"%string. reflexivity. Qed.
Print Assumptions C68_alone_refuted.

(** ** C69 *)
(** Without overwrite_existing nothing changes, and old results are refused. *)
Theorem C69_refuses : forall restart d, snd (purge restart false d) = d /\
  (fst (purge restart false d) = Err FileExistsError <-> exists n, In n (map fst (d_files d)) /\ old_result restart n) /\
  (fst (purge restart false d) = Ok tt \/ fst (purge restart false d) = Err FileExistsError).
Proof. intros. apply purge_refuses. Qed.
Print Assumptions C69_refuses.
(** With it the old results go and nothing else does. *)
Theorem C69_purge : forall restart d, plain d ->
  exists d', purge restart true d = (Ok tt, d') /\ forall e, In e (d_files d') <-> In e (d_files d) /\ ~ old_result restart (fst e).
Proof. intros restart d P. destruct (purge_ok restart d P) as [d' [A [B _]]]. eauto. Qed.
Print Assumptions C69_purge.
Definition dir1 : dir := mkDir [("input.txt", (false, 9)); ("glompo_log.h5", (false, 1)); ("trajectories_log.png", (false, 1)); ("opt", (true, 9)); ("trajectories.pdf", (false, 9)); ("opt12_parms.png", (false, 1))]%string (Some [(1, 1)]).
Lemma dir1_plain : plain dir1.
Proof.
  split; [cbn; repeat constructor; cbn; intuition discriminate|]. intros n b r H R. cbn in H.
  repeat (destruct H as [H|H]; [injection H as <- <- <-; try reflexivity|]); [|destruct H].
  destruct R as [R|[[m R]|[[m R]|R]]]; try discriminate. now destruct m as [|? ?].
Qed.
Example C69_purge_met : plain dir1 /\ purge false true dir1 = (Ok tt, mkDir [("input.txt", (false, 9)); ("opt", (true, 9)); ("trajectories.pdf", (false, 9))]%string None).
Proof. split; [exact dir1_plain|reflexivity]. Qed.
Example C69_refuses_met : fst (purge true false dir1) = Err FileExistsError /\ fst (purge true false (mkDir [("glompo_log.h5", (false, 1))]%string None)) = Ok tt.
Proof. split; reflexivity. Qed.

(** After a new run each result in the directory is of this run, and files of others are as they were. *)
Lemma plot_result b : result_name (plot_name b).
Proof. destruct b; right; left; [now exists "_log"%string|now exists ""%string]. Qed.
Lemma open_fresh w d d' : plain d -> se_restart w = false -> open_session w d = (Ok tt, d') ->
  plain d' /\ (forall n v, result_name n -> In (n, v) (d_files d') -> n = "glompo_log.h5"%string /\ v = (false, se_run w) /\ 2 < se_summary w) /\
  (2 < se_summary w -> In ("glompo_log.h5"%string, (false, se_run w)) (d_files d')) /\
  (forall n v, ~ result_name n -> In (n, v) (d_files d') <-> In (n, v) (d_files d)) /\
  (se_split w = true -> d_streams d' = Some [] \/ (d_streams d' = d_streams d /\ forall n, In n (map fst (d_files d)) -> ~ result_name n)).
Proof.
  intros P R H. unfold open_session in H. rewrite R in H. cbn [andb] in H.
  assert (Q : exists d1, purge false (se_overwrite w) d = (Ok tt, d1) /\ plain d1 /\ (forall e, In e (d_files d1) <-> In e (d_files d) /\ ~ result_name (fst e)) /\
             (d_streams d1 = None \/ (d_streams d1 = d_streams d /\ forall n, In n (map fst (d_files d)) -> ~ result_name n))).
  { assert (OR : forall n, old_result false n <-> result_name n) by (intro n; unfold old_result; split; [intros [A _]; exact A|intro A; split; [exact A|discriminate]]).
    assert (ST : forall n, In n (map fst (d_files d)) -> result_name n -> to_remove false d = [] -> False).
    { intros n A B C. assert (X : In n (to_remove false d)) by (apply in_remove; split; [exact A|now apply OR]). now rewrite C in X. }
    destruct (se_overwrite w).
    - destruct (purge_ok false d P) as [d1 [A [B [C D]]]]. exists d1. splits; auto.
      + split; auto. intros n b r X Y. apply B in X as [X _]. destruct P as [_ P]. eapply P; eauto.
      + intro e. rewrite B, OR. tauto.
      + rewrite C. destruct (to_remove false d) eqn:T; cbn; [right|now left]. split; auto. intros n A1 A2. now apply (ST n).
    - destruct (purge_refuses false d) as [A [B C]]. destruct (purge false false d) as [r d1] eqn:E. cbn in A, B, C. subst d1.
      assert (F : r = Ok tt). { destruct C as [C|C]; auto. subst r. unfold bind in H. rewrite E in H. discriminate. }
      subst r. exists d. splits; auto.
      + intro e. split; [|tauto]. intro X. split; auto. intro Y. assert (Z : @Ok unit tt = Err FileExistsError) by (apply B; exists (fst e); split; [now apply in_map|now apply OR]). discriminate.
      + right. split; auto. intros n X Y. assert (Z : @Ok unit tt = Err FileExistsError) by (apply B; exists n; split; [auto|now apply OR]). discriminate. }
  destruct Q as [d1 [Q1 [Q2 [Q3 Q4]]]]. unfold bind in H. rewrite Q1 in H.
  set (d2 := if Nat.ltb 2 (se_summary w) then put_file "glompo_log.h5" (se_run w) d1 else d1) in H.
  assert (Z : d_files d' = d_files d2 /\ d_streams d' = if se_split w then Some match d_streams d1 with Some l => l | None => [] end else d_streams d1).
  { injection H as <-. split; [reflexivity|]. cbn. unfold d2. destruct (Nat.ltb 2 (se_summary w)); reflexivity. }
  destruct Z as [Z1 Z2]. clear H.
  assert (P2 : plain d2) by (unfold d2; destruct (Nat.ltb 2 (se_summary w)); [now apply plain_put|exact Q2]).
  splits.
  - destruct P2 as [A B]. split; rewrite Z1; auto.
  - intros n v N X. rewrite Z1 in X. unfold d2 in X. destruct (Nat.ltb_spec 2 (se_summary w)).
    + apply in_put in X; auto. destruct X as [X|[X _]]; [injection X as -> ->; auto|]. apply Q3 in X as [_ X]. now destruct X.
    + apply Q3 in X as [_ X]. now destruct X.
  - intro L. rewrite Z1. unfold d2. destruct (Nat.ltb_spec 2 (se_summary w)); [|lia]. apply in_put; auto.
  - intros n v N. rewrite Z1. unfold d2. destruct (Nat.ltb_spec 2 (se_summary w)).
    + rewrite in_put; auto. split.
      * intros [X|[X _]]; [injection X as -> ->; destruct N; unfold result_name; auto|]. apply Q3 in X as [X _]. exact X.
      * intro X. right. split; [apply Q3; auto|]. cbn. intros ->. apply N. unfold result_name. auto.
    + split; [intro X; apply Q3 in X as [X _]; exact X|]. intro X. apply Q3. auto.
  - intro S. rewrite Z2, S. destruct Q4 as [->|[-> Q4]]; [now left|]. destruct (d_streams d); [right; split; auto|now left].
Qed.
Definition own (w : session) (n : string) : Prop :=
  (n = "glompo_manager_log.yml"%string /\ 0 < se_summary w) \/ (n = se_plot w /\ 1 < se_summary w) \/ (n = "glompo_log.h5"%string /\ 2 < se_summary w).
Theorem C69_session : forall w d d' b, plain d -> se_restart w = false -> se_plot w = plot_name b -> run_session w d = (Ok tt, d') ->
  (forall n v, result_name n -> In (n, v) (d_files d') <-> own w n /\ v = (false, se_run w)) /\
  (forall n v, ~ result_name n -> In (n, v) (d_files d') <-> In (n, v) (d_files d)).
Proof.
  intros w d d' b P R E H. unfold run_session, bind in H. destruct (open_session w d) as [[[]|e] d1] eqn:O; [|discriminate].
  destruct (open_fresh w d d1 P R O) as [P1 [A [B [C _]]]]. injection H as <-. unfold close_session.
  set (d2 := if se_split w then _ else d1).
  assert (D2 : d_files d2 = d_files d1) by (unfold d2; destruct (se_split w); reflexivity).
  assert (P2 : plain d2) by (destruct P1 as [X Y]; split; rewrite D2; auto). clearbody d2.
  set (d3 := if Nat.ltb 0 (se_summary w) then _ else d2).
  assert (P3 : plain d3) by (unfold d3; destruct (Nat.ltb 0 (se_summary w)); [now apply plain_put|exact P2]).
  pose proof (plot_result b) as PR. rewrite <- E in PR.
  assert (NE : se_plot w <> "glompo_manager_log.yml"%string /\ se_plot w <> "glompo_log.h5"%string) by (rewrite E; destruct b; split; discriminate).
  assert (I3 : forall e, In e (d_files d3) <-> (e = ("glompo_manager_log.yml"%string, (false, se_run w)) /\ 0 < se_summary w) \/ (In e (d_files d1) /\ (0 < se_summary w -> fst e <> "glompo_manager_log.yml"%string))).
  { intro e. unfold d3. destruct (Nat.ltb_spec 0 (se_summary w)); [rewrite in_put by auto|]; rewrite D2; intuition lia. }
  assert (I4 : forall e, In e (d_files (if Nat.ltb 1 (se_summary w) then put_file (se_plot w) (se_run w) d3 else d3)) <-> (e = (se_plot w, (false, se_run w)) /\ 1 < se_summary w) \/ (In e (d_files d3) /\ (1 < se_summary w -> fst e <> se_plot w))).
  { intro e. destruct (Nat.ltb_spec 1 (se_summary w)); [rewrite in_put by auto|]; intuition lia. }
  assert (W : forall n v, result_name n -> In (n, v) (d_files d1) <-> n = "glompo_log.h5"%string /\ v = (false, se_run w) /\ 2 < se_summary w).
  { intros n v N. split; [apply A; auto|]. intros [-> [-> L]]. auto. }
  split; intros n v N; rewrite I4, I3; cbn [fst]; unfold own.
  - rewrite (W n v N). destruct NE as [NE1 NE2]. split.
    + intros [[X L]|[[[X L]|[[-> [-> L]] _]] _]]; [injection X as -> ->; auto|injection X as -> ->; auto|auto].
    + intros [[[-> L]|[[-> L]|[-> L]]] ->]; [right; split; [left; auto|intros _; congruence]|left; auto|right; split; [right; split; [auto|intros _; discriminate]|intros _; congruence]].
  - rewrite (C n v N). split.
    + intros [[X L]|[[[X L]|[X _]] _]]; auto; injection X as -> ->; destruct N; auto. unfold result_name. auto.
    + intro X. right. split; [right; split; auto|]; intros _ ->; apply N; auto. unfold result_name. auto.
Qed.
Print Assumptions C69_session.
Example C69_session_met : plain dir1 /\ run_session (mkSe 2 false true 3 true [1; 2] (plot_name false) true) dir1 =
  (Ok tt, mkDir [("input.txt", (false, 9)); ("opt", (true, 9)); ("trajectories.pdf", (false, 9)); ("glompo_log.h5", (false, 2)); ("glompo_manager_log.yml", (false, 2)); ("trajectories.png", (false, 2))]%string (Some [(1, 2); (2, 2)])).
Proof. split; [exact dir1_plain|reflexivity]. Qed.

(** The streams too, if there was any other result of the older run; *)
Theorem C69_streams_partial : forall w d d', plain d -> se_restart w = false -> se_split w = true -> run_session w d = (Ok tt, d') ->
  (exists n, In n (map fst (d_files d)) /\ result_name n) -> exists l, d_streams d' = Some l /\ forall o r, In (o, r) l -> r = se_run w /\ In o (se_opts w).
Proof.
  intros w d d' P R S H [n [N1 N2]]. unfold run_session, bind in H. destruct (open_session w d) as [[[]|e] d1] eqn:O; [|discriminate].
  destruct (open_fresh w d d1 P R O) as [_ [_ [_ [_ T]]]]. specialize (T S). destruct T as [T|[_ T]]; [|now destruct (T n N1)].
  injection H as <-. exists (fold_left (fun l o => nset o (se_run w) l) (se_opts w) []). split.
  - unfold close_session. rewrite S, T. destruct (Nat.ltb 0 (se_summary w)), (Nat.ltb 1 (se_summary w)); reflexivity.
  - assert (G : forall os l o r, In (o, r) (fold_left (fun l o => nset o (se_run w) l) os l) -> (r = se_run w /\ In o os) \/ In (o, r) l).
    { induction os as [|a os IH]; intros l o r X; [now right|]. cbn [fold_left] in X. apply IH in X as [[X Y]|X]; [left; split; [auto|now right]|].
      assert (Y : In (o, r) (nset a (se_run w) l) -> (o, r) = (a, se_run w) \/ In (o, r) l).
      { clear. induction l as [|[k v] l IH]; cbn; [intros [H|[]]; auto|]. destruct (Nat.eqb_spec a k) as [->|N]; cbn; [intros [H|H]; auto|intros [H|H]; auto; apply IH in H as [H|H]; auto]. }
      apply Y in X as [X|X]; [injection X as -> ->; left; split; [reflexivity|now left]|now right]. }
    intros o r X. apply G in X as [X|[]]. exact X.
Qed.
Print Assumptions C69_streams_partial.
(** otherwise (a run with summary_files=0, or one which crashed) streams of optimizers of another run stay beside those of this one. *)
Theorem C69_streams_refuted : exists w d d' o r, plain d /\ se_restart w = false /\ se_split w = true /\ se_overwrite w = true /\ run_session w d = (Ok tt, d') /\
  (exists l, d_streams d' = Some l /\ In (o, r) l) /\ r <> se_run w.
Proof.
  exists (mkSe 2 false true 3 true [1] (plot_name false) true), (mkDir [] (Some [(1, 1); (2, 1)])). eexists. exists 2, 1. splits; [split; [constructor|intros n b r []]|reflexivity|reflexivity|reflexivity|reflexivity| |discriminate].
  eexists. split; [reflexivity|]. vm_compute. auto.
Qed.
Print Assumptions C69_streams_refuted.

(** A restart keeps the log file. *)
Theorem C69_restart : forall w d d' b v, plain d -> se_restart w = true -> se_plot w = plot_name b -> run_session w d = (Ok tt, d') ->
  In ("glompo_log.h5"%string, v) (d_files d) -> In ("glompo_log.h5"%string, v) (d_files d').
Proof.
  intros w d d' b v P R E H I. unfold run_session, bind in H. destruct (open_session w d) as [[[]|e] d1] eqn:O; [|discriminate]. injection H as <-.
  assert (K : plain d1 /\ In ("glompo_log.h5"%string, v) (d_files d1)).
  { unfold open_session, bind in O. rewrite R in O. destruct (purge true (se_overwrite w) d) as [[[]|e] d2] eqn:Q; [|discriminate].
    assert (K : plain d2 /\ In ("glompo_log.h5"%string, v) (d_files d2)).
    { destruct (se_overwrite w).
      - destruct (purge_ok true d P) as [d3 [A [B [_ D]]]]. rewrite A in Q. injection Q as <-. split.
        + split; auto. intros n b' r X Y. apply B in X as [X _]. destruct P as [_ P]. eapply P; eauto.
        + apply B. split; auto. intros [_ X]. now apply X.
      - destruct (purge_refuses true d) as [A _]. rewrite Q in A. cbn in A. subst d2. auto. }
    destruct K as [K1 K2]. assert (D : dmem String.eqb "glompo_log.h5"%string (d_files d2) = true).
    { unfold dmem. destruct (sget_in "glompo_log.h5"%string (d_files d2)) as [u [-> _]]; [|reflexivity]. apply in_map_iff. exists ("glompo_log.h5"%string, v). auto. }
    rewrite D in O. cbn [andb] in O. destruct (negb (se_matches w)); [discriminate|]. injection O as <-. destruct (Nat.ltb 2 (se_summary w)); auto. }
  destruct K as [K1 K2]. unfold close_session. set (d2 := if se_split w then _ else d1).
  assert (D2 : d_files d2 = d_files d1) by (unfold d2; destruct (se_split w); reflexivity).
  assert (P2 : plain d2) by (destruct K1 as [X Y]; split; rewrite D2; auto). rewrite <- D2 in K2. clearbody d2.
  set (d3 := if Nat.ltb 0 (se_summary w) then _ else d2).
  assert (P3 : plain d3 /\ In ("glompo_log.h5"%string, v) (d_files d3)).
  { unfold d3. destruct (Nat.ltb 0 (se_summary w)); [|auto]. split; [now apply plain_put|]. apply in_put; auto. right. split; auto. discriminate. }
  destruct P3 as [P3 P4]. destruct (Nat.ltb 1 (se_summary w)); [|auto]. apply in_put; auto. right. split; auto. rewrite E. destruct b; discriminate.
Qed.
Print Assumptions C69_restart.
Example C69_restart_met : plain dir1 /\ d_files (snd (run_session (mkSe 2 true true 3 true [2] (plot_name true) true) dir1)) =
  [("input.txt", (false, 9)); ("glompo_log.h5", (false, 1)); ("opt", (true, 9)); ("trajectories.pdf", (false, 9)); ("glompo_manager_log.yml", (false, 2)); ("trajectories_log.png", (false, 2))]%string /\
  fst (run_session (mkSe 2 true true 3 true [2] (plot_name true) true) dir1) = Ok tt.
Proof. splits; [exact dir1_plain|reflexivity|reflexivity]. Qed.

(** A run is continued in its own directory: the summary of its last session is an old result. *)
Theorem C69_continue_raises : forall w w' d d', run_session w d = (Ok tt, d') -> 1 <= se_summary w -> se_overwrite w' = false -> run_session w' d' = (Err FileExistsError, d').
Proof.
  intros w w' d d' H L O. unfold run_session, bind in H. destruct (open_session w d) as [[[]|e] d1]; [|discriminate]. injection H as <-.
  assert (I : In "glompo_manager_log.yml"%string (map fst (d_files (close_session w d1)))).
  { unfold close_session. set (d2 := if se_split w then _ else d1). clearbody d2. assert (L' : Nat.ltb 0 (se_summary w) = true) by now apply Nat.ltb_lt. rewrite L'.
    assert (X : forall n (v : bool * nat) l, In n (map fst (sset n v l))).
    { clear. intros n v l. induction l as [|[k u] l IH]; cbn; [now left|]. destruct (String.eqb_spec n k) as [->|N]; cbn; [now left|now right]. }
    assert (Y : forall m n (v : bool * nat) l, In m (map fst l) -> In m (map fst (sset n v l))).
    { clear. intros m n v l. induction l as [|[k u] l IH]; cbn; [intros []|]. intros [E|H]; destruct (String.eqb_spec n k) as [->|N]; cbn; auto. }
    destruct (Nat.ltb 1 (se_summary w)); cbn; [apply Y|]; apply X. }
  set (d2 := close_session w d1) in *. clearbody d2.
  destruct (purge_refuses (se_restart w') d2) as [A [B _]].
  assert (E : fst (purge (se_restart w') false d2) = Err FileExistsError).
  { apply B. eexists. split; [exact I|]. split; [now left|]. intros _. discriminate. }
  unfold run_session, open_session, bind. rewrite O. destruct (purge (se_restart w') false d2) as [r d3]. cbn in A, E. now subst.
Qed.
Print Assumptions C69_continue_raises.
Theorem C69_continue_refuted : exists w w' d, se_restart w' = true /\ se_matches w' = true /\ fst (run_session w (mkDir [] None)) = Ok tt /\ d = snd (run_session w (mkDir [] None)) /\
  fst (run_session w' d) = Err FileExistsError.
Proof.
  exists (mkSe 1 false false 3 true [1] (plot_name false) true), (mkSe 1 true false 3 true [2] (plot_name false) true). eexists. splits; reflexivity.
Qed.
Print Assumptions C69_continue_refuted.
(** A restart beside the log of another run is refused only after the results of that run were deleted. *)
Theorem C69_destroyed_refuted : exists w d d', run_session w d = (Err KeyError, d') /\ In "glompo_manager_log.yml"%string (map fst (d_files d)) /\ ~ In "glompo_manager_log.yml"%string (map fst (d_files d')).
Proof.
  exists (mkSe 2 true true 3 false [1] (plot_name false) false), (mkDir [("glompo_log.h5", (false, 1)); ("glompo_manager_log.yml", (false, 1))]%string None).
  eexists. splits; [reflexivity|vm_compute; auto|]. vm_compute. intuition discriminate.
Qed.
Print Assumptions C69_destroyed_refuted.
(** A directory whose name matches stops the purge midway. *)
Theorem C69_midway_refuted : exists d d', purge false true d = (Err OSError, d') /\ In "glompo_manager_log.yml"%string (map fst (d_files d)) /\ ~ In "glompo_manager_log.yml"%string (map fst (d_files d')) /\
  In "glompo_log.h5"%string (map fst (d_files d')).
Proof.
  exists (mkDir [("glompo_log.h5", (false, 1)); ("trajectories.png", (true, 1)); ("glompo_manager_log.yml", (false, 1))]%string None). eexists. splits; [reflexivity|vm_compute; auto| |vm_compute; auto]. vm_compute. intuition discriminate.
Qed.
Print Assumptions C69_midway_refuted.
