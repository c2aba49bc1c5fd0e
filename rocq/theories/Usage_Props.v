(** * Resource usage: properties *)
From Coq Require Import Lqa Ascii.
From Verif Require Import Prelude Prelude_Proofs Usage_Proofs.
Local Open Scope nat_scope.

(** ** C81 *)
(** After any use in which psutil answers, the three histories hold the readings of the line of the present manager, in order,
    with a NaN in each for every time the run was resumed. *)
Theorem C81_recorded : forall ps l, proper false false l -> all_answered l ->
  let m := now (play l (begin ps)) in let b := book ps (line l [] None) in
  cpu_history m = map (option_map r_cpu) b /\ mem_history m = map (option_map memory) b /\
  load_history m = map (fun o => match o with Some r => (Some (l1 r), Some (l5 r), Some (l15 r)) | None => (None, None, None) end) b.
Proof. intros ps l Hp Ha. destruct (begin_agrees ps l Hp Ha) as (_ & A2 & A3 & A4). cbv zeta. splits; [exact A2| exact A3| exact A4]. Qed.
Print Assumptions C81_recorded.

(** The summary: averages and standard deviations of all readings of the line, whatever the breaks, and the largest and the
    average memory. *)
Theorem C81_statistics : forall ps l s, proper false false l -> all_answered l -> let rs := readings ps l in rs <> [] ->
  summarise (now (play l (begin ps))) = Ok s ->
  (is_average (1 # 200) r_cpu rs (cpu_ave s) /\ is_deviation (1 # 200) r_cpu rs (cpu_std s) /\
   Forall2 (fun f a => is_average (1 # 2000) f rs a) [l1; l5; l15] (load_ave s) /\
   Forall2 (fun f a => is_deviation (1 # 2000) f rs a) [l1; l5; l15] (load_std s))%Q /\
  (exists r, In r rs /\ (forall r', In r' rs -> (memory r' <= memory r)%N) /\ present_memory 10 (Fin (inject_Z (Z.of_N (memory r)))) 2 = Ok (mem_max s)) /\
  (exists q, (q * count rs == sum (fun r => inject_Z (Z.of_N (memory r))) rs)%Q /\ present_memory 10 (Fin q) 2 = Ok (mem_ave s)).
Proof.
  intros ps l s Hp Ha rs Hn H. rewrite (summarise_agrees ps _ _ (begin_agrees ps l Hp Ha)) in H. fold (readings ps l) in H. fold rs in H. clearbody rs.
  destruct rs as [|r0 rs0]; [congruence|]. unfold sum_of in H. set (rs := r0 :: rs0) in *.
  destruct (present_memory 10 (bytes (maxN (map memory rs))) 2) as [mx|] eqn:Ex; [|discriminate]. cbn [rbind] in H.
  destruct (present_memory 10 (Fin (mean (map mem_q rs))) 2) as [ma|] eqn:Em; [|discriminate]. cbn [rbind] in H. injection H as <-. cbn [load_ave load_std mem_ave mem_max cpu_ave cpu_std].
  split; [|split].
  - splits; [exact (average_ok 2 r_cpu rs Hn)| exact (deviation_ok 2 r_cpu rs Hn)| |]; cbn [map]; repeat apply Forall2_cons; try apply Forall2_nil;
      try exact (average_ok 3 _ rs Hn); exact (deviation_ok 3 _ rs Hn).
  - destruct (maxN_spec (map memory rs)) as [M1 M2]; [discriminate|]. apply in_map_iff in M1 as [r [Er Hr]]. exists r. splits; [exact Hr| |rewrite Er; exact Ex].
    intros r' Hr'. rewrite Er. apply M2. apply in_map. exact Hr'.
  - exists (mean (map mem_q rs)). split; [|exact Em]. exact (mean_count mem_q rs Hn).
Qed.
Print Assumptions C81_statistics.

(** The summary can be made: always, unless more than 1024^9 bytes were used. *)
Theorem C81_made : forall ps l, proper false false l -> all_answered l ->
  (forall r, In r (readings ps l) -> (memory r <= 1024 ^ 9)%N) -> exists s, summarise (now (play l (begin ps))) = Ok s.
Proof.
  intros ps l Hp Ha Hm. rewrite (summarise_agrees ps _ _ (begin_agrees ps l Hp Ha)). fold (readings ps l). set (rs := readings ps l) in *. clearbody rs.
  destruct rs as [|r0 rs0]; [eexists; reflexivity|]. unfold sum_of. set (rs := r0 :: rs0) in *.
  assert (Hq : forall r, In r rs -> (mem_q r <= inject_Z (1024 ^ 9))%Q).
  { intros r Hr. unfold mem_q. rewrite <- Zle_Qle. specialize (Hm r Hr). change (1024 ^ 9)%Z with (Z.of_N (1024 ^ 9)). apply N2Z.inj_le. exact Hm. }
  destruct (maxN_spec (map memory rs)) as [M1 _]; [discriminate|]. apply in_map_iff in M1 as [r [Er Hr]].
  destruct (present_memory_small (inject_Z (Z.of_N (maxN (map memory rs))))) as [t1 E1]; [rewrite <- Er; exact (Hq r Hr)|].
  unfold bytes. rewrite E1. cbn [rbind].
  destruct (present_memory_small (mean (map mem_q rs))) as [t2 E2]; [|rewrite E2; cbn [rbind]; eexists; reflexivity].
  pose proof (mean_count mem_q rs ltac:(discriminate)) as Mc. pose proof (sum_le mem_q _ rs Hq) as S. rewrite <- Mc in S. apply Qmult_le_r in S; [exact S| apply count_pos].
Qed.
Print Assumptions C81_made.

(** Without readings there are placeholders; the load then has one number instead of three. *)
Theorem C81_nothing : forall ps l, proper false false l -> all_answered l -> readings ps l = [] ->
  summarise (now (play l (begin ps))) = Ok (mkSum [0%Q] [0%Q] "--" "--" 0%Q 0%Q).
Proof. intros ps l Hp Ha H. rewrite (summarise_agrees ps _ _ (begin_agrees ps l Hp Ha)). fold (readings ps l). rewrite H. reflexivity. Qed.
Print Assumptions C81_nothing.

(** Two readings, a checkpoint, a reading that is lost, and a reading in the resumed run. *)
Definition rd c o k a : reading := mkRead c (Some o) k (a, a, 2 * a)%Q.
Definition story : list event :=
  [Start; Status (rd 50 1000 [Uses 24; Gone; Uses 1024] 1); Status (rd 101 3000 [] 2); Save; Status (rd 7 9000 [Uses 1] 9); Load true; Start;
   Status (rd 99 500 [Gone] (5 # 2))].
Example C81_met : proper false false story /\ all_answered story /\ readings true story = [rd 50 1000 [Uses 24; Gone; Uses 1024] 1; rd 101 3000 [] 2; rd 99 500 [Gone] (5 # 2)] /\
  mem_history (now (play story (begin true))) = [Some 2048%N; Some 3000%N; None; Some 500%N] /\
  match summarise (now (play story (begin true))) with
  | Ok s => (mem_max s, mem_ave s) = ("2.93kB", "1.81kB")%string /\ (cpu_ave s == 8333 # 100 /\ cpu_std s == 2358 # 100)%Q /\ map Qred (load_ave s) = [(1833 # 1000); (1833 # 1000); (3667 # 1000)]%Q
  | Err _ => False end.
Proof.
  splits; try (vm_compute; intuition reflexivity).
  intros r H. unfold story in H. cbn in H. destruct H as [H|[H|[H|[H|[H|[H|[H|[H|[]]]]]]]]]; try discriminate; injection H as <-; (split; [discriminate|]); cbn; intuition discriminate.
Qed.
Example C81_nothing_met : readings false [Start; Status (rd 50 1000 [] 1); Save; Load false] = [] /\
  cpu_history (now (play [Start; Status (rd 50 1000 [] 1); Save; Load false] (begin false))) = [None].
Proof. vm_compute. auto. Qed.

(** A child whose memory may not be read: the status message, and with it the session, ends with an exception, and the reading of the CPU is recorded
    although the other two are not. *)
Theorem C81_denied_refuted : exists l r, proper false false (l ++ [Status r]) /\ (exists w, step (Status r) (play l (begin true)) = (Err RuntimeError, w) /\
  length (cpu_history (now w)) = 1 /\ length (mem_history (now w)) = 0 /\ length (load_history (now w)) = 0).
Proof. exists [Start], (mkRead 50%Q (Some 1000%N) [Uses 5; Denied] (1, 1, 1)%Q). split; [cbn; auto|]. eexists. vm_compute. auto. Qed.
Print Assumptions C81_denied_refuted.

(** In a session the summary file reports what was recorded... *)
Theorem C81_reported : forall m, psutil m = true -> forall l, proper true false l -> all_answered l -> (forall r, ~ In (Load r) l) ->
  forall w, now w = start m -> run_info true (now (play l w)) = match summarise (now (play l w)) with Ok s => Ok (Some s) | Err e => Err e end.
Proof.
  intros m Hm l Hp Ha Hl w Hw.
  assert (G : forall l w sv, psutil (now w) = true -> monitor (now w) = true -> proper true sv l -> all_answered l -> (forall r, ~ In (Load r) l) ->
    psutil (now (play l w)) = true /\ monitor (now (play l w)) = true).
  { clear. induction l as [|e l IH]; intros w sv P1 P2 Hp Ha Hl; [auto|]. assert (Ha' : all_answered l) by (intros r Hr; apply Ha; right; exact Hr).
    assert (Hl' : forall r, ~ In (Load r) l) by (intros r Hr; apply (Hl r); right; exact Hr). cbn [play].
    destruct e as [|r| |b]; cbn [proper] in Hp.
    - apply (IH _ sv); auto; cbn; unfold start; rewrite P1; cbn; auto.
    - destruct Hp as [_ Hp]. cbn [step]. rewrite (sample_ok r _ (Ha r (or_introl eq_refl)) P1 P2). apply (IH _ sv); auto.
    - apply (IH _ true); auto.
    - exfalso. apply (Hl b). left. reflexivity. }
  destruct (G l w false) as [P1 P2]; auto.
  { rewrite Hw. unfold start. rewrite Hm. cbn. exact Hm. }
  { rewrite Hw. unfold start. rewrite Hm. reflexivity. }
  unfold run_info. rewrite P1, P2. cbn. destruct (summarise _); reflexivity.
Qed.
Print Assumptions C81_reported.
(** On a machine that does not tell the frequency of its processor (psutil.cpu_freq() is None) the summary of such a session cannot be
    written at all. *)
Theorem C81_frequency_raises : forall m, psutil m = true -> monitor m = true -> forall s, summarise m = Ok s -> run_info false m = Err AttributeError.
Proof. intros m P M s E. unfold run_info. rewrite P, M. cbn. now rewrite E. Qed.
Print Assumptions C81_frequency_raises.
Example C81_frequency_met : let m := now (play [Status (rd 50 1000 [] 1); Save] (mkW (start (fresh true)) None)) in
  psutil m = true /\ monitor m = true /\ (exists s, summarise m = Ok s) /\ run_info false m = Err AttributeError.
Proof. vm_compute. splits; try reflexivity. eauto. Qed.
Example C81_reported_met : proper true false [Status (rd 50 1000 [] 1); Save] /\
  exists s, run_info true (now (play [Status (rd 50 1000 [] 1); Save] (mkW (start (fresh true)) None))) = Ok (Some s) /\ (cpu_ave s == 50)%Q.
Proof. split; [cbn; auto|]. eexists. split; vm_compute; reflexivity. Qed.
(** ... but a summary written from a loaded checkpoint, the use named in the docstring of write_summary_file, has no run
    information although the readings were loaded. *)
Theorem C81_loaded_refuted : exists l, proper false false l /\ all_answered l /\ readings true l <> [] /\
  run_info true (now (play l (begin true))) = Ok None.
Proof.
  exists [Start; Status (rd 50 1000 [] 1); Save; Load true]. splits; [cbn; auto| |vm_compute; discriminate| vm_compute; reflexivity].
  intros r H. cbn in H. destruct H as [H|[H|[H|[H|[]]]]]; try discriminate. injection H as <-. split; [discriminate| cbn; intuition].
Qed.
Print Assumptions C81_loaded_refuted.

(** ** C82 *)
(** The message does not depend on the order of the dictionary. *)
Theorem C82_order : forall sci elapsed packs packs' max_jobs evals best, NoDup (map p_id packs) -> Permutation packs packs' ->
  message sci elapsed packs max_jobs evals best = message sci elapsed packs' max_jobs evals best.
Proof. intros. unfold message, live. rewrite (by_id_invariant packs packs') by assumption. reflexivity. Qed.
Print Assumptions C82_order.

(** The numbers of optimizers and slots are those of the living ones; each living optimizer with a history has one line with its
    last value, in the order of the numbers. *)
Theorem C82_content : forall sci elapsed packs max_jobs evals best, exists lines,
  message sci elapsed packs max_jobs evals best =
    ("Status: " ++ nl ++ "    Time Elapsed:............. " ++ elapsed ++ nl ++
     "    Optimizers Alive:......... " ++ dec (length (filter p_alive packs)) ++ nl ++
     "    Slots Filled:............. " ++ dec (list_sum (map p_slots (filter p_alive packs))) ++ "/" ++ dec max_jobs ++ nl ++
     "    Function Evaluations:..... " ++ spaced evals ++ nl ++
     "    Current Optimizer f_vals:" ++ nl ++ String.concat "" (map snd lines) ++
     "    Overall f_best:.......... " ++ match best with Some v => sci v | None => "None" end ++ nl)%string /\
  Permutation (map fst lines) (filter (fun p => p_alive p && match p_hist p with [] => false | _ => true end) packs) /\
  StronglySorted (fun p q => p_id p <= p_id q) (map fst lines) /\
  Forall (fun pt => exists h v, p_hist (fst pt) = h ++ [v] /\ exists pre, snd pt = ("        Optimizer " ++ dec (p_id (fst pt)) ++ pre ++ " " ++ sci v ++ nl)%string) lines.
Proof.
  intros sci elapsed packs max_jobs evals best.
  set (shown := fun p => p_alive p && match p_hist p with [] => false | _ => true end).
  set (text := fun p => match opt_line sci p with Some t => t | None => ""%string end).
  exists (map (fun p => (p, text p)) (filter shown (by_id packs))).
  assert (Last : forall p, shown p = true -> exists h v, p_hist p = h ++ [v] /\ last_of (p_hist p) = Some v).
  { intros p Hp. unfold shown in Hp. apply andb_true_iff in Hp as [_ Hp]. destruct (p_hist p) as [|a l]; [discriminate|]. clear Hp. revert a. induction l as [|b l IH]; intro a; [exists [], a; auto|].
    destruct (IH b) as (h & v & E & L). exists (a :: h), v. split; [cbn; f_equal; exact E| exact L]. }
  assert (Lines : present (map (opt_line sci) (by_id packs)) = map text (filter shown (by_id packs))).
  { induction (by_id packs) as [|p l IH]; [reflexivity|]. cbn [map filter]. assert (E : opt_line sci p = if shown p then Some (text p) else None).
    { unfold text. destruct (shown p) eqn:S.
      - destruct (Last p S) as (h & v & _ & L). unfold shown in S. apply andb_true_iff in S as [S _]. unfold opt_line. rewrite S, L. reflexivity.
      - unfold shown in S. unfold opt_line. destruct (p_alive p); [|reflexivity]. cbn in S. destruct (p_hist p); [reflexivity| discriminate]. }
    rewrite E. destruct (shown p); cbn [present map]; rewrite IH; reflexivity. }
  splits.
  - unfold message. rewrite Lines. rewrite map_map. cbn [snd].
    assert (E1 : length (live packs) = length (filter p_alive packs)).
    { unfold live. rewrite map_length. apply Permutation_length, filter_perm, Permutation_sym, by_id_perm. }
    assert (E2 : list_sum (live packs) = list_sum (map p_slots (filter p_alive packs))).
    { unfold live. apply sum_perm, Permutation_map, filter_perm, Permutation_sym, by_id_perm. }
    rewrite E1, E2. reflexivity.
  - rewrite map_map. cbn [fst]. rewrite map_id. apply filter_perm, Permutation_sym, by_id_perm.
  - rewrite map_map. cbn [fst]. rewrite map_id. pose proof (by_id_sorted packs) as S. clear - S. induction S as [|a l S IH F]; [constructor|]. cbn [filter]. destruct (shown a); [|exact IH]. constructor; [exact IH|].
    rewrite Forall_forall in *. intros x Hx. apply filter_In in Hx as [Hx _]. exact (F x Hx).
  - apply Forall_forall. intros pt H. apply in_map_iff in H as [p [<- H]]. apply filter_In in H as [_ H]. cbn [fst snd]. destruct (Last p H) as (h & v & E & L). exists h, v. split; [exact E|].
    unfold text, opt_line. unfold shown in H. apply andb_true_iff in H as [-> _]. rewrite L. unfold pad.
    set (d := dots _). exists d. clearbody d. rewrite !app_assoc_s. reflexivity.
Qed.
Print Assumptions C82_content.

(** The values stand in one column: a minus sign is put before it. *)
Theorem C82_column : forall sci p t, opt_line sci p = Some t -> String.length (dec (p_id p)) <= 11 ->
  exists pre v, t = (pre ++ sci v ++ nl)%string /\ (exists h, p_hist p = h ++ [v]) /\ String.length pre = if nlt v (Fin 0) then 30 else 31.
Proof.
  intros sci p t H Hl. unfold opt_line in H. destruct (p_alive p); [|discriminate]. destruct (last_of (p_hist p)) as [v|] eqn:L; [|discriminate].
  apply (f_equal (fun o => match o with Some x => x | None => t end)) in H. cbv beta iota in H. rewrite <- H. clear H.
  exists ("        " ++ pad (if nlt v (Fin 0) then 21 else 22) ("Optimizer " ++ dec (p_id p)) ++ " ")%string, v. splits.
  - set (d := pad _ _). clearbody d. rewrite !app_assoc_s. reflexivity.
  - revert v L. induction (p_hist p) as [|a l IH]; intros v L; [discriminate|]. destruct l as [|b l]; [injection L as <-; exists []; reflexivity|].
    destruct (IH v L) as [h Eh]. exists (a :: h). cbn. f_equal. exact Eh.
  - rewrite !length_app, pad_length by (rewrite length_app; cbn [String.length]; destruct (nlt v (Fin 0)); lia). cbn [String.length]. destruct (nlt v (Fin 0)); reflexivity.
Qed.
Print Assumptions C82_column.
(** The number of evaluations: its digits, a space before every third from the end. *)
Theorem C82_digits : forall n, let t := list_ascii_of_string (spaced n) in
  filter (fun a => negb (Ascii.eqb a " "%char)) t = list_ascii_of_string (dec n) /\
  forall i a, nth_error (rev t) i = Some a -> (a = " "%char <-> i mod 4 = 3).
Proof.
  intros n t. split; [exact (spaced_digits n)|]. intros i a H. unfold t, spaced in H. rewrite list_ascii_of_string_of_list_ascii, rev_involutive in H.
  assert (D : forallb is_digit (rev (list_ascii_of_string (dec n))) = true) by (rewrite forallb_rev; apply dec_digits_only).
  pose proof (groups_spaces _ D 3 (Nat.le_refl 3) i a H) as G. rewrite Nat.sub_diag, Nat.add_0_r in G. rewrite <- G. unfold is_digit. rewrite negb_false_iff. symmetry. apply Ascii.eqb_eq.
Qed.
Print Assumptions C82_digits.

Definition two : list pack := [mkPack 7 true 2 [Fin 3; Fin (-1)]; mkPack 3 false 4 [Fin 1]; mkPack 5 true 1 [Fin 12]; mkPack 8 true 3 []].
Definition show (v : num) : string := match v with Fin q => if Qle_bool 0 q then "+" else "-" | _ => "?" end.
Example C82_met : NoDup (map p_id two) /\ list_sum (live two) = 6 /\ length (live two) = 3 /\ present (map (opt_line show) (by_id two)) =
  ["        Optimizer 5........... +" ++ nl; "        Optimizer 7.......... -" ++ nl]%string /\ spaced 1234 = "1 234"%string /\ spaced 123 = "123"%string.
Proof. splits; try (vm_compute; reflexivity). repeat constructor; cbn; intuition discriminate. Qed.

(** The estimate of the rows: a twentieth of the last MaxFuncCalls in the order of writing. *)
Theorem C82_rows : forall n c l1 f l2, bases c = l1 ++ Some f :: l2 -> Forall (fun o => o = None) l2 -> f <> 0%Z -> (expected_rows n c == inject_Z f / 20)%Q.
Proof.
  intros n c la f lb E H Hf. unfold expected_rows. rewrite E, fold_left_app. cbn [fold_left]. rewrite fold_none by exact H. cbv zeta.
  destruct (Qeq_bool (inject_Z f / 20) 0) eqn:Q; [|reflexivity]. exfalso. apply Hf. apply Qeq_bool_iff in Q.
  assert (X : (inject_Z f == 0)%Q) by (assert (Y : (inject_Z f == inject_Z f / 20 * 20)%Q) by field; rewrite Y, Q; reflexivity).
  unfold Qeq in X. cbn in X. lia.
Qed.
Print Assumptions C82_rows.
Theorem C82_rows_default : forall n c, Forall (fun o => o = None) (bases c) -> expected_rows n c = inject_Z (150 * Z.of_nat n + 5000).
Proof. intros n c H. unfold expected_rows. rewrite fold_none by exact H. reflexivity. Qed.
Print Assumptions C82_rows_default.
Example C82_rows_met : bases (Both (Base None) (Both (Base (Some 100%Z)) (Base None))) = [None] ++ Some 100%Z :: [None] /\
  (expected_rows 2 (Both (Base None) (Both (Base (Some 100%Z)) (Base None))) == 5)%Q /\ expected_rows 2 (Base None) = 5300%Q.
Proof. vm_compute. auto. Qed.
(** The same two limits in another order give another estimate. *)
Theorem C82_rows_refuted : exists n a b, ~ (expected_rows n (Both a b) == expected_rows n (Both b a))%Q.
Proof. exists 1, (Base (Some 100%Z)), (Base (Some 1000000%Z)). vm_compute. discriminate. Qed.
Print Assumptions C82_rows_refuted.
