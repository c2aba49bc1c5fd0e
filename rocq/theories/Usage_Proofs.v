(** * Resource usage: proofs *)
From Coq Require Import Lqa Qround Ascii DecimalString.
From Verif Require Import Prelude Prelude_Proofs Helpers_Proofs.
From Verif Require Export Usage_Model Usage_Spec.
Local Open Scope nat_scope.

(** ** The histories *)
Lemma kids_mem_ok l : forall m, ~ In Denied l -> kids_mem m l = Ok (m + kids l)%N.
Proof.
  induction l as [|c l IH]; intros m H; cbn [kids_mem kids]; [rewrite N.add_0_r; reflexivity|].
  destruct c; [rewrite IH by (intro; apply H; right; assumption); f_equal; lia| apply IH; intro; apply H; right; assumption| exfalso; apply H; left; reflexivity].
Qed.
Definition load3 (r : reading) : triple := (Some (l1 r), Some (l5 r), Some (l15 r)).
Definition entry (r : reading) (m : mon) : mon := add_load (load3 r) (add_mem (Some (memory r)) (add_cpu (Some (r_cpu r)) m)).
Lemma sample_ok r m : answered r -> psutil m = true -> monitor m = true -> sample r m = (Ok tt, entry r m).
Proof.
  intros [Ho Hk] Hp Hm. unfold sample, bind, gets, entry, load3, l1, l5, l15, memory. rewrite Hp. cbv beta iota. rewrite Hm. unfold modify, ret. destruct (r_own r) as [b|]; [|congruence].
  rewrite kids_mem_ok by assumption. destruct (r_load r) as [[x y] z]. reflexivity.
Qed.

Fixpoint flag (ps : bool) (l : list event) : bool := match l with [] => ps | Load ps' :: l => flag ps' l | _ :: l => flag ps l end.
Lemma flag_app l : forall ps l', flag ps (l ++ l') = flag (flag ps l) l'.
Proof. induction l as [|e l IH]; intros ps l'; [reflexivity|]. destruct e; cbn; apply IH. Qed.
Lemma book_app l : forall ps l', book ps (l ++ l') = book ps l ++ book (flag ps l) l'.
Proof. induction l as [|e l IH]; intros ps l'; [reflexivity|]. destruct e; cbn; try apply IH; [destruct ps; cbn; rewrite IH; reflexivity| rewrite IH; reflexivity]. Qed.
Lemma present_book l : forall ps, present (book ps l) = taken ps l.
Proof. induction l as [|e l IH]; intro ps; [reflexivity|]. destruct e; cbn; try apply IH. destruct ps; cbn; rewrite IH; reflexivity. Qed.

Definition opt_load (o : option reading) : triple := match o with Some r => load3 r | None => nan3 end.
Definition agrees (ps : bool) (l : list event) (m : mon) : Prop :=
  psutil m = flag ps l /\ cpu_history m = map (option_map r_cpu) (book ps l) /\ mem_history m = map (option_map memory) (book ps l) /\
  load_history m = map opt_load (book ps l).

Lemma play_agrees ps l : forall w cur saved running sv, agrees ps cur (now w) ->
  match file w, saved with Some f, Some s => agrees ps s f | None, None => True | _, _ => False end ->
  proper running sv l -> (running = true -> psutil (now w) = true -> monitor (now w) = true) -> (sv = true -> file w <> None) -> all_answered l ->
  agrees ps (line l cur saved) (now (play l w)).
Proof.
  induction l as [|e l IH]; intros w cur saved running sv Ha Hf Hp Hr Hs Hans; [exact Ha|].
  assert (Hans' : all_answered l) by (intros r Hr'; apply Hans; right; exact Hr').
  destruct Ha as (A1 & A2 & A3 & A4).
  destruct e as [|r| |ps']; cbn [line play step snd proper] in *.
  - apply (IH (mkW (start (now w)) (file w)) (cur ++ [Start]) saved true sv); cbn [now file]; auto.
    + unfold agrees. rewrite flag_app, book_app, app_nil_r. cbn [flag]. unfold start. destruct (psutil (now w)) eqn:E; cbn [start_monitor psutil cpu_history mem_history load_history]; rewrite ?E; auto.
    + intros _ H. unfold start in *. destruct (psutil (now w)) eqn:E; [reflexivity|congruence].
  - destruct Hp as [-> Hp]. pose proof (Hans r (or_introl eq_refl)) as Hq.
    destruct (psutil (now w)) eqn:E.
    + rewrite (sample_ok r _ Hq E (Hr eq_refl eq_refl)). cbn [snd].
      apply (IH (mkW (entry r (now w)) (file w)) (cur ++ [Status r]) saved true sv); cbn [now file]; auto.
      unfold agrees. rewrite flag_app, book_app, <- A1. cbn [flag book]. rewrite !map_app. cbn [map option_map opt_load].
      unfold entry. cbn [add_load add_mem add_cpu psutil cpu_history mem_history load_history]. rewrite A2, A3, A4. auto.
    + assert (Es : sample r (now w) = (Ok tt, now w)) by (unfold sample, bind, gets; rewrite E; reflexivity). rewrite Es. cbn [snd].
      apply (IH (mkW (now w) (file w)) (cur ++ [Status r]) saved true sv); cbn [now file]; auto; try congruence.
      unfold agrees. rewrite flag_app, book_app, <- A1. cbn [flag book]. rewrite app_nil_r. splits; assumption.
  - apply (IH (mkW (now w) (Some (now w))) cur (Some cur) running true); cbn [now file]; auto; try congruence; unfold agrees; splits; assumption.
  - destruct Hp as [-> Hp]. specialize (Hs eq_refl). destruct (file w) as [f|] eqn:Ef; [|congruence]. destruct saved as [s|]; [|contradiction].
    cbn [snd]. destruct Hf as (F1 & F2 & F3 & F4).
    apply (IH (mkW (load ps' f) (Some f)) (s ++ [Load ps']) (Some s) false true); cbn [now file]; auto; try congruence.
    + unfold agrees. rewrite flag_app, book_app. cbn [flag book]. rewrite !map_app. unfold load. cbn [add_load add_mem add_cpu psutil cpu_history mem_history load_history map option_map opt_load].
      rewrite F2, F3, F4. auto.
    + unfold agrees. splits; assumption.
Qed.
Lemma begin_agrees ps l : proper false false l -> all_answered l -> agrees ps (line l [] None) (now (play l (begin ps))).
Proof. intros Hp Ha. apply (play_agrees ps l (begin ps) [] None false false); cbn; auto; try congruence. unfold agrees. auto. Qed.

(** ** The statistics *)
Local Open Scope Q_scope.
Lemma present_map {A B} (f : A -> B) (l : list (option A)) : present (map (option_map f) l) = map f (present l).
Proof. induction l as [|[a|] l IH]; cbn; [reflexivity| rewrite IH; reflexivity| exact IH]. Qed.
Lemma ten_pos k : 0 < ten k.
Proof. unfold ten. change 0 with (inject_Z 0). rewrite <- Zlt_Qlt. apply Z.pow_pos_nonneg; lia. Qed.
Lemma round_to_near k q : Qabs (round_to k q - q) <= (1 # 2) / ten k.
Proof.
  unfold round_to. pose proof (ten_pos k) as T. pose proof (round_even_near (q * ten k)) as H. set (z := inject_Z (round_even (q * ten k))) in *. clearbody z.
  apply Qabs_Qle_condition in H. apply Qabs_Qle_condition.
  assert (E : z / ten k - q == (z - q * ten k) / ten k) by (field; lra). rewrite E.
  assert (I : 0 < / ten k) by (apply Qinv_lt_0_compat; exact T). unfold Qdiv. split; nra.
Qed.
Lemma count_pos {A} (a : A) l : 0 < count (a :: l).
Proof. unfold count. change 0 with (inject_Z 0). rewrite <- Zlt_Qlt. cbn [length]. lia. Qed.
Lemma count_map {A B} (f : A -> B) l : count (map f l) = count l.
Proof. unfold count. rewrite map_length. reflexivity. Qed.
Lemma total_map {A} (f : A -> Q) l : total (map f l) = sum f l.
Proof. unfold total, sum. induction l as [|a l IH]; cbn; [reflexivity| rewrite IH; reflexivity]. Qed.
Lemma sum_ext {A} (f g : A -> Q) l : (forall a, f a == g a) -> sum f l == sum g l.
Proof. intro H. unfold sum. induction l as [|a l IH]; cbn; [reflexivity|]. rewrite (H a), IH. reflexivity. Qed.
Lemma mean_count {A} (f : A -> Q) l : l <> [] -> mean (map f l) * count l == sum f l.
Proof. intro H. destruct l as [|a l]; [congruence|]. unfold mean. rewrite total_map, count_map. pose proof (count_pos a l). field. lra. Qed.
Lemma average_ok {A} k (f : A -> Q) l : l <> [] -> is_average ((1 # 2) / ten k) f l (round_to k (mean (map f l))).
Proof.
  intro H. unfold is_average. rewrite <- (mean_count f l H). pose proof (round_to_near k (mean (map f l))) as R.
  destruct l as [|a l]; [congruence|]. pose proof (count_pos a l) as C. set (c := count (a :: l)) in *. clearbody c. set (m := mean (map f (a :: l))) in *. clearbody m.
  set (r := round_to k m) in *. clearbody r. set (t := (1 # 2) / ten k) in *. clearbody t.
  apply Qabs_Qle_condition in R. apply Qabs_Qle_condition. split; nra.
Qed.

(** *** Rounded square roots *)
Lemma nearest_sqrt w : 0 <= w ->
  let n := Z.sqrt (Qfloor w) in let h := inject_Z n + (1 # 2) in
  let z := (match Qcompare w (h * h) with Lt => n | Gt => n + 1 | Eq => if Z.even n then n else n + 1 end)%Z in
  0 <= inject_Z z /\ w <= (inject_Z z + (1 # 2)) * (inject_Z z + (1 # 2)) /\
  ((1 # 2) <= inject_Z z -> (inject_Z z - (1 # 2)) * (inject_Z z - (1 # 2)) <= w).
Proof.
  intros Hw n h.
  assert (F0 : (0 <= Qfloor w)%Z) by (change 0%Z with (Qfloor 0); apply Qfloor_resp_le; exact Hw).
  pose proof (Z.sqrt_spec (Qfloor w) F0) as [S1 S2]. fold n in S1, S2. pose proof (Z.sqrt_nonneg (Qfloor w)) as S0. fold n in S0.
  assert (W1 : inject_Z n * inject_Z n <= w).
  { rewrite <- inject_Z_mult. apply Qle_trans with (inject_Z (Qfloor w)); [rewrite <- Zle_Qle; exact S1| apply Qfloor_le]. }
  assert (W2 : w < (inject_Z n + 1) * (inject_Z n + 1)).
  { apply Qlt_le_trans with (inject_Z (Qfloor w + 1)); [apply Qlt_floor|]. change 1 with (inject_Z 1). rewrite <- inject_Z_plus, <- inject_Z_mult, <- Zle_Qle. lia. }
  assert (P : 0 <= inject_Z n) by (change 0 with (inject_Z 0); rewrite <- Zle_Qle; exact S0).
  assert (E : forall z, z = n \/ z = (n + 1)%Z -> (z = n -> w <= h * h) -> (z = (n + 1)%Z -> h * h <= w) ->
    0 <= inject_Z z /\ w <= (inject_Z z + (1 # 2)) * (inject_Z z + (1 # 2)) /\ ((1 # 2) <= inject_Z z -> (inject_Z z - (1 # 2)) * (inject_Z z - (1 # 2)) <= w)).
  { intros z [->| ->] H1 H2.
    - splits; [exact P| apply H1; reflexivity|]. intro. set (q := inject_Z n) in *. clearbody q. nra.
    - specialize (H2 eq_refl). subst h. rewrite inject_Z_plus. change (inject_Z 1) with 1. set (q := inject_Z n) in *. clearbody q. clear H1. splits; [lra|nra|]. intros _.
      assert (X : q + 1 - (1 # 2) == q + (1 # 2)) by lra. rewrite X. exact H2. }
  intro z. apply E; subst z.
  - destruct (Qcompare w (h * h)); auto. destruct (Z.even n); auto.
  - destruct (Qcompare w (h * h)) eqn:C; intro Hz.
    + apply Qeq_alt in C. lra.
    + apply Qlt_alt in C. lra.
    + lia.
  - destruct (Qcompare w (h * h)) eqn:C; intro Hz.
    + apply Qeq_alt in C. lra.
    + lia.
    + apply Qgt_alt in C. lra.
Qed.
Lemma round_sqrt_near k v : 0 <= v -> let t := (1 # 2) / ten k in let r := round_sqrt k v in
  0 <= r /\ v <= (r + t) * (r + t) /\ (t <= r -> (r - t) * (r - t) <= v).
Proof.
  intros Hv t r. pose proof (ten_pos k) as T. assert (I : 0 < / ten k) by (apply Qinv_lt_0_compat; exact T).
  assert (Hw : 0 <= v * ten k * ten k) by nra.
  pose proof (nearest_sqrt _ Hw) as N. cbv zeta in N. unfold round_sqrt in r. cbv zeta in r.
  match goal with r := inject_Z ?z / _ |- _ => set (z0 := z) in * end. destruct N as (N1 & N2 & N3). set (q := inject_Z z0) in *. clearbody q. clear z0.
  assert (TI : ten k * / ten k == 1) by (apply Qmult_inv_r; lra).
  subst r t. unfold Qdiv. set (i := / ten k) in *. set (T' := ten k) in *. clearbody i T'.
  assert (V : v == (v * T' * T') * (i * i)) by (transitivity (v * (T' * i) * (T' * i)); [rewrite TI; ring| ring]).
  assert (I2 : 0 < i * i) by nra.
  splits.
  - nra.
  - rewrite V. assert (X : (q * i + (1 # 2) * i) * (q * i + (1 # 2) * i) == ((q + (1 # 2)) * (q + (1 # 2))) * (i * i)) by ring. rewrite X.
    apply Qmult_le_compat_r; lra.
  - intro Hr. rewrite V. assert (X : (q * i - (1 # 2) * i) * (q * i - (1 # 2) * i) == ((q - (1 # 2)) * (q - (1 # 2))) * (i * i)) by ring. rewrite X.
    apply Qmult_le_compat_r; [|lra]. apply N3. destruct (Qlt_le_dec q (1 # 2)) as [L|L]; [exfalso; nra| exact L].
Qed.
Lemma sum_sq_nonneg {A} (f : A -> Q) l : 0 <= sum (fun a => f a * f a) l.
Proof. unfold sum. induction l as [|a l IH]; cbn; [lra|]. nra. Qed.
Lemma deviation_ok {A} k (f : A -> Q) l : l <> [] -> is_deviation ((1 # 2) / ten k) f l (round_sqrt k (variance (map f l))).
Proof.
  intro H. assert (C : 0 < count l) by (destruct l; [congruence| apply count_pos]).
  set (mu := mean (map f l)). assert (Emu : mu * count l == sum f l) by (apply mean_count; exact H).
  assert (Ev : variance (map f l) * count l == sum (fun a => (f a - mu) * (f a - mu)) l).
  { unfold variance. rewrite map_map. exact (mean_count (fun a => (f a - mu) * (f a - mu)) l H). }
  assert (Hv : 0 <= variance (map f l)).
  { pose proof (sum_sq_nonneg (fun a => f a - mu) l) as S. cbv beta in S. rewrite <- Ev in S. set (v := variance (map f l)) in *. clearbody v. set (c := count l) in *. clearbody c.
    destruct (Qlt_le_dec v 0) as [L|L]; [exfalso; nra| exact L]. }
  pose proof (round_sqrt_near k _ Hv) as R. cbv zeta in R. destruct R as (R1 & R2 & R3). split; [exact R1|].
  intros m Hm v.
  assert (Em : m == mu).
  { assert (X : m * count l == mu * count l) by lra. apply Qmult_inj_r in X; [exact X| lra]. }
  assert (Ev' : v == variance (map f l) * count l).
  { rewrite Ev. apply sum_ext. intro a. rewrite Em. reflexivity. }
  clearbody v. set (V := variance (map f l)) in *. set (r := round_sqrt k V) in *. clearbody V r. set (t := (1 # 2) / ten k) in *. clearbody t.
  rewrite Ev'. split; [apply Qmult_le_compat_r; lra|]. intro Ht. apply Qmult_le_compat_r; [apply R3; exact Ht| lra].
Qed.

(** *** The summary *)
Lemma map_first l : map first (map opt_load l) = map (option_map l1) l.
Proof. rewrite map_map. apply map_ext. intros [r|]; reflexivity. Qed.
Lemma map_second l : map second (map opt_load l) = map (option_map l5) l.
Proof. rewrite map_map. apply map_ext. intros [r|]; reflexivity. Qed.
Lemma map_third l : map third (map opt_load l) = map (option_map l15) l.
Proof. rewrite map_map. apply map_ext. intros [r|]; reflexivity. Qed.
Lemma present_app {A} (l l' : list (option A)) : present (l ++ l') = present l ++ present l'.
Proof. induction l as [|[a|] l IH]; cbn; [reflexivity| rewrite IH; reflexivity| exact IH]. Qed.
Lemma nanless_map {A B} (f : A -> B) l : nanless (map (option_map f) l) = nanless l.
Proof. unfold nanless. rewrite present_map. destruct (present l); reflexivity. Qed.
Lemma nanless_book ps l : nanless (book ps l) = match taken ps l with [] => false | _ => true end.
Proof. unfold nanless. rewrite present_book. reflexivity. Qed.

Definition mem_q (r : reading) : Q := inject_Z (Z.of_N (memory r)).
Definition sum_of (rs : list reading) : res summary :=
  match rs with
  | [] => Ok (mkSum [0] [0] "--" "--" 0 0)
  | _ =>
    rbind (present_memory 10 (bytes (maxN (map memory rs))) 2) (fun mx =>
    rbind (present_memory 10 (Fin (mean (map mem_q rs))) 2) (fun ma =>
    Ok (mkSum (map (fun f => round_to 3 (mean (map f rs))) [l1; l5; l15]) (map (fun f => round_sqrt 3 (variance (map f rs))) [l1; l5; l15]) ma mx
              (round_to 2 (mean (map r_cpu rs))) (round_sqrt 2 (variance (map r_cpu rs))))))
  end.
Lemma summarise_agrees ps l m : agrees ps l m -> summarise m = sum_of (taken ps l).
Proof.
  intros (_ & A2 & A3 & A4). unfold summarise. rewrite A2, A3, A4. cbv zeta. rewrite map_first, map_second, map_third, !present_map, !nanless_map, !nanless_book, !present_book.
  unfold nanless at 1 2. cbn [concat map]. rewrite !present_app, !present_map, !present_book. cbn [present]. rewrite app_nil_r.
  rewrite map_map. destruct (taken ps l) as [|r rs]; [reflexivity|]. cbn [map app sum_of]. reflexivity.
Qed.
Lemma maxN_spec l : l <> [] -> In (maxN l) l /\ forall b, In b l -> (b <= maxN l)%N.
Proof.
  induction l as [|a l IH]; [congruence|]. intros _. cbn [maxN fold_right]. fold (maxN l). destruct l as [|b l].
  - cbn. split; [left; lia|]. intros c [->|[]]. lia.
  - destruct (IH ltac:(discriminate)) as [I1 I2]. split.
    + destruct (N.max_spec a (maxN (b :: l))) as [[_ ->]|[_ ->]]; [right; exact I1| left; reflexivity].
    + intros c [->|Hc]; [lia|]. specialize (I2 _ Hc). lia.
Qed.
Lemma present_memory_small q : q <= inject_Z (1024 ^ 9) -> exists t, present_memory 10 (Fin q) 2 = Ok t.
Proof.
  intros H. unfold present_memory.
  assert (Hok : is_ok (scale 10 (Fin q) 0) = true) by (apply (scale_ends 9); [fold (kib 9) in H; pose proof (kib_pos 9); change (inject_Z (1024 ^ 9)) with (kib 9) in H; lra| lia]).
  destruct (scale 10 (Fin q) 0) as [[b u]|e] eqn:E; [|discriminate].
  apply scale_spec in E as [k [q' [-> [-> [H1 [H2 H3]]]]]]. cbn [Nat.add].
  destruct (nth_error suffixes k) as [s|] eqn:Es; [eexists; reflexivity|]. exfalso. apply nth_error_None in Es. change (length suffixes) with 9%nat in Es.
  assert (K : (kib 9 <= kib k)%Q) by (unfold kib; rewrite <- Zle_Qle; apply Z.pow_le_mono_r; lia). change (inject_Z (1024 ^ 9)) with (kib 9) in H.
  assert (P : (1 < q')%Q) by (apply H3; lia). pose proof (kib_pos k) as Pk. set (a := kib 9) in *. set (c := kib k) in *. clearbody a c. assert (0 < (q' - 1) * c) by (apply Qmult_lt_0_compat; lra). lra.
Qed.
Lemma sum_le {A} (f : A -> Q) b l : (forall a, In a l -> f a <= b) -> sum f l <= b * count l.
Proof.
  intro H. unfold sum, count. induction l as [|a l IH]; cbn [fold_right length]; [change (inject_Z (Z.of_nat 0)) with 0; lra|].
  rewrite Nat2Z.inj_succ. unfold Z.succ. rewrite inject_Z_plus. change (inject_Z 1) with 1. pose proof (H a (or_introl eq_refl)). specialize (IH (fun x Hx => H x (or_intror Hx))).
  set (s := fold_right (fun a s => f a + s) 0 l) in *. set (c := inject_Z (Z.of_nat (length l))) in *. clearbody s c. lra.
Qed.

(** ** The message *)
Local Open Scope nat_scope.
Lemma insert_perm p l : Permutation (p :: l) (insert p l).
Proof.
  induction l as [|q l IH]; cbn [insert]; [reflexivity|]. destruct (Nat.leb (p_id p) (p_id q)); [reflexivity|].
  transitivity (q :: p :: l); [constructor| constructor; exact IH].
Qed.
Lemma by_id_perm l : Permutation l (by_id l).
Proof. induction l as [|p l IH]; [constructor|]. cbn [by_id fold_right]. fold (by_id l). transitivity (p :: by_id l); [constructor; exact IH| apply insert_perm]. Qed.
Lemma filter_perm {A} (f : A -> bool) l l' : Permutation l l' -> Permutation (filter f l) (filter f l').
Proof.
  induction 1 as [|x l l' H IH|x y l|l l' l'' H IH H' IH']; cbn [filter]; [constructor| | |transitivity (filter f l'); assumption].
  - destruct (f x); [constructor|]; exact IH.
  - destruct (f x), (f y); auto using Permutation_refl, perm_swap.
Qed.
Lemma sum_perm l l' : Permutation l l' -> list_sum l = list_sum l'.
Proof. unfold list_sum. induction 1; cbn [fold_right]; lia. Qed.
Definition le_id (p q : pack) : Prop := p_id p <= p_id q.
Lemma insert_sorted p l : StronglySorted le_id l -> StronglySorted le_id (insert p l).
Proof.
  induction l as [|q l IH]; intro H; cbn [insert]; [repeat constructor|]. inversion H; subst. destruct (Nat.leb (p_id p) (p_id q)) eqn:E.
  - apply Nat.leb_le in E. constructor; [assumption|]. constructor; [exact E|]. eapply Forall_impl; [|eassumption]. unfold le_id. intros. lia.
  - apply Nat.leb_gt in E. constructor; [apply IH; assumption|]. eapply Permutation_Forall; [apply insert_perm|]. constructor; [unfold le_id; lia| assumption].
Qed.
Lemma by_id_sorted l : StronglySorted le_id (by_id l).
Proof. induction l as [|p l IH]; [constructor|]. cbn. apply insert_sorted. exact IH. Qed.
Lemma sorted_unique l : forall l', StronglySorted le_id l -> StronglySorted le_id l' -> Permutation l l' -> NoDup (map p_id l) -> l = l'.
Proof.
  induction l as [|a l IH]; intros l' H H' P N; [apply Permutation_nil in P; congruence|].
  destruct l' as [|b l']; [apply Permutation_sym, Permutation_nil in P; discriminate|].
  inversion H; subst. inversion H'; subst. inversion N; subst.
  assert (E : a = b).
  { assert (Ib : In b (a :: l)) by (eapply Permutation_in; [apply Permutation_sym; exact P| left; reflexivity]).
    assert (Ia : In a (b :: l')) by (eapply Permutation_in; [exact P| left; reflexivity]).
    destruct Ib as [|Ib]; [assumption|]. destruct Ia as [|Ia]; [congruence|]. rewrite Forall_forall in *.
    match goal with H : forall x, In x l -> le_id a x |- _ => pose proof (H b Ib) as L1 end.
    match goal with H : forall x, In x l' -> le_id b x |- _ => pose proof (H a Ia) as L2 end.
    unfold le_id in *. assert (p_id a = p_id b) by lia. exfalso.
    match goal with H : ~ In (p_id a) _ |- _ => apply H end. rewrite H0. apply in_map. exact Ib. }
  subst b. f_equal. apply IH; auto. eapply Permutation_cons_inv. exact P.
Qed.
Lemma by_id_invariant l l' : NoDup (map p_id l) -> Permutation l l' -> by_id l = by_id l'.
Proof.
  intros N P. apply sorted_unique; try apply by_id_sorted.
  - transitivity l; [apply Permutation_sym, by_id_perm|]. transitivity l'; [exact P| apply by_id_perm].
  - eapply Permutation_NoDup; [apply Permutation_map, by_id_perm| exact N].
Qed.

Lemma dots_length n : String.length (dots n) = n.
Proof. induction n as [|n IH]; cbn; [reflexivity| f_equal; exact IH]. Qed.
Lemma length_app s t : String.length (s ++ t) = String.length s + String.length t.
Proof. induction s as [|c s IH]; cbn; [reflexivity| f_equal; exact IH]. Qed.
Lemma pad_length w s : String.length s <= w -> String.length (pad w s) = w.
Proof. intro H. unfold pad. rewrite length_app, dots_length. lia. Qed.
Lemma app_assoc_s a b c : ((a ++ b) ++ c = a ++ b ++ c)%string.
Proof. induction a as [|x a IH]; cbn; [reflexivity| f_equal; exact IH]. Qed.

(** *** Digits in groups *)
Definition is_digit (a : ascii) : bool := negb (Ascii.eqb a " "%char).
Lemma groups_digits l : forallb is_digit l = true -> forall k, filter is_digit (groups l k) = l.
Proof.
  induction l as [|a l IH]; intros H k; [reflexivity|]. cbn [forallb] in H. apply andb_true_iff in H as [Ha Hl]. destruct k; cbn [groups filter]; rewrite ?Ha; [change (is_digit " "%char) with false; cbv iota|]; rewrite IH by exact Hl; reflexivity.
Qed.
Lemma uint_digits d : forallb is_digit (list_ascii_of_string (NilEmpty.string_of_uint d)) = true.
Proof. induction d; cbn in *; auto. Qed.
Lemma dec_digits_only n : forallb is_digit (list_ascii_of_string (dec n)) = true.
Proof.
  unfold dec. generalize (Nat.to_uint n) as d. intro d. unfold NilZero.string_of_uint. destruct d; try (exact (uint_digits _)). reflexivity.
Qed.
Lemma forallb_rev {A} (f : A -> bool) l : forallb f (rev l) = forallb f l.
Proof. induction l as [|a l IH]; [reflexivity|]. cbn. rewrite forallb_app, IH. cbn. destruct (f a), (forallb f l); reflexivity. Qed.
Lemma filter_rev {A} (f : A -> bool) l : filter f (rev l) = rev (filter f l).
Proof. induction l as [|a l IH]; [reflexivity|]. cbn. rewrite filter_app, IH. cbn. destruct (f a); [reflexivity| rewrite app_nil_r; reflexivity]. Qed.
Lemma spaced_digits n : filter is_digit (list_ascii_of_string (spaced n)) = list_ascii_of_string (dec n).
Proof.
  unfold spaced. rewrite list_ascii_of_string_of_list_ascii, filter_rev, groups_digits by (rewrite forallb_rev; apply dec_digits_only). apply rev_involutive.
Qed.
(** A space precedes exactly the digits at distance 3, 6, ... from the end: position i of the reversed text is a space iff i mod 4 = 3. *)
Lemma groups_spaces l : forallb is_digit l = true -> forall k, k <= 3 -> forall i a, nth_error (groups l k) i = Some a ->
  (is_digit a = false <-> (i + (3 - k)) mod 4 = 3).
Proof.
  induction l as [|c l IH]; intros H k Hk i a Hi; [destruct i; discriminate|]. cbn [forallb] in H. apply andb_true_iff in H as [Ha Hl]. destruct k; cbn [groups] in Hi.
  - destruct i as [|[|i]]; cbn [nth_error] in Hi.
    + injection Hi as <-. split; reflexivity.
    + injection Hi as <-. rewrite Ha. split; [discriminate| cbn; discriminate].
    + rewrite (IH Hl 2 ltac:(lia) i a Hi). replace (S (S i) + (3 - 0)) with (i + (3 - 2) + 1 * 4) by lia. rewrite Nat.mod_add by lia. reflexivity.
  - destruct i as [|i]; cbn [nth_error] in Hi.
    + injection Hi as <-. rewrite Ha. split; [discriminate|]. assert (k = 0 \/ k = 1 \/ k = 2) as [->|[->| ->]] by lia; cbn; discriminate.
    + rewrite (IH Hl k ltac:(lia) i a Hi). replace (S i + (3 - S k)) with (i + (3 - k)) by lia. reflexivity.
Qed.

(** ** Expected rows *)
Lemma fold_none (l : list (option Z)) : Forall (fun o => o = None) l -> forall acc,
  fold_left (fun acc o => match o with Some f => inject_Z f / 20 | None => acc end)%Q l acc = acc.
Proof. induction 1 as [|o l -> H IH]; intro acc; [reflexivity|]. cbn. apply IH. Qed.
