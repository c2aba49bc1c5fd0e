(** * Lemmas for C67-C69 *)
From Verif Require Import Prelude_Proofs Streams_Model Streams_Spec.

(** ** C67 *)
(** All entries of a table are closed. *)
Definition all_closed (t : table) : Prop := forall i p b, nget i t = Some (p, b) -> b = true.
Record inv (s : streams) (x : expected) (managers : nat) : Prop := {
  i_count : length (t_tables s) = managers;
  i_below : Forall all_closed (tl (t_tables s));
  i_target : forall i, target i (t_tables s) = home x i;
  i_top : forall i p, home x i = Some p -> exists t ts, t_tables s = t :: ts /\ nget i t = Some (p, false);
  i_files : t_files s = x_files x;
  i_console : t_console s = x_console x;
  i_nodup : NoDup (map fst (x_live x)) }.

Lemma target_closed i ts : Forall all_closed ts -> target i ts = None.
Proof.
  induction 1 as [|t ts H _ IH]; [reflexivity|]. cbn. destruct (nget i t) as [[p [|]]|] eqn:E; auto. apply H in E. discriminate.
Qed.
Lemma nget_nset {V} i j (v : V) l : nget i (nset j v l) = if Nat.eqb i j then Some v else nget i l.
Proof.
  induction l as [|[k w] l IH]; cbn.
  - destruct (Nat.eqb_spec i j); reflexivity.
  - destruct (Nat.eqb_spec j k) as [->|N]; cbn.
    + destruct (Nat.eqb_spec i k); reflexivity.
    + destruct (Nat.eqb_spec i k) as [->|M].
      * destruct (Nat.eqb_spec k j); [congruence|reflexivity].
      * exact IH.
Qed.
Lemma nget_filter {V} i j (l : list (nat * V)) : nget j (filter (fun e => negb (Nat.eqb i (fst e))) l) = if Nat.eqb i j then None else nget j l.
Proof.
  induction l as [|[k w] l IH]; cbn; [now destruct (Nat.eqb i j)|]. destruct (Nat.eqb_spec i k) as [->|N]; cbn.
  - rewrite IH. destruct (Nat.eqb_spec k j) as [->|M]; [reflexivity|]. destruct (Nat.eqb_spec j k); [congruence|reflexivity].
  - destruct (Nat.eqb_spec j k) as [->|M]; [|exact IH]. destruct (Nat.eqb_spec i k); [congruence|reflexivity].
Qed.
Lemma nget_in {V} i (l : list (nat * V)) v : nget i l = Some v -> In (i, v) l.
Proof. induction l as [|[k w] l IH]; cbn; [discriminate|]. destruct (Nat.eqb_spec i k) as [->|N]; [intro H; injection H as ->; now left|auto]. Qed.
Lemma nget_none {V} i (l : list (nat * V)) : nget i l = None -> ~ In i (map fst l).
Proof. induction l as [|[k w] l IH]; cbn; [auto|]. destruct (Nat.eqb_spec i k) as [->|N]; [discriminate|]. intros H [E|E]; [congruence|now apply IH]. Qed.

Lemma write_inv s x n i m : inv s x n -> inv (write i m s) (says i m x) n.
Proof.
  intros [A B C D E F G]. unfold write, says. rewrite <- C. destruct (target i (t_tables s)) as [p|] eqn:T; constructor; cbn; auto; congruence.
Qed.
Lemma end_inv s1 x1 n i p : inv s1 x1 n -> nget i (x_live x1) = Some p ->
  inv (if match p with Some _ => true | None => false end then close i s1 else s1)
      (mkX (filter (fun e => negb (Nat.eqb i (fst e))) (x_live x1)) (x_files x1) (x_console x1)) n.
Proof.
  intros [A B C D E F G] L1'.
  assert (H : forall j, home (mkX (filter (fun e => negb (Nat.eqb i (fst e))) (x_live x1)) (x_files x1) (x_console x1)) j = if Nat.eqb i j then None else home x1 j).
  { intro j. unfold home. cbn [x_live]. rewrite nget_filter. now destruct (Nat.eqb i j). }
  assert (G' : NoDup (map fst (filter (fun e => negb (Nat.eqb i (fst e))) (x_live x1)))).
  { clear - G. induction (x_live x1) as [|[k w] l IH]; cbn; [constructor|]. inversion G; subst. destruct (Nat.eqb i k); cbn; [auto|]. constructor; auto.
    intro X. apply H1. apply in_map_iff in X as [y [Y1 Y2]]. apply filter_In in Y2 as [Y2 _]. apply in_map_iff. eauto. }
  destruct p as [p|].
  - assert (Hi : home x1 i = Some p) by (unfold home; now rewrite L1').
    destruct (D i p Hi) as [t [ts [D1 D2]]]. unfold close. rewrite D1, D2.
    constructor; cbn [t_tables t_files t_console x_live x_files x_console tl length]; auto.
    + now rewrite D1 in A.
    + now rewrite D1 in B.
    + intro j. rewrite H. cbn [target]. rewrite nget_nset, (Nat.eqb_sym i j). specialize (C j). rewrite D1 in C, B. cbn [target tl] in *.
      destruct (Nat.eqb_spec j i) as [->|N]; [now apply target_closed|exact C].
    + intros j q. rewrite H, (Nat.eqb_sym i j). destruct (Nat.eqb_spec j i) as [->|N]; [discriminate|]. intro Hq. destruct (D j q Hq) as [t' [ts' [D3 D4]]].
      rewrite D1 in D3. injection D3 as <- <-. do 2 eexists. split; [reflexivity|]. rewrite nget_nset. destruct (Nat.eqb_spec j i); [congruence|exact D4].
  - constructor; cbn [t_tables t_files t_console x_live x_files x_console]; auto.
    + intro j. rewrite H, C. destruct (Nat.eqb_spec i j) as [->|N]; [|reflexivity]. unfold home. now rewrite L1'.
    + intros j q. rewrite H. destruct (Nat.eqb_spec i j) as [->|N]; [discriminate|apply D].
Qed.
Lemma step_inv s x n e l : legal n x (e :: l) -> inv s x n -> inv (sstep s e) (expect x e) (match e with Wrap => S n | _ => n end).
Proof.
  intros [L _] I. destruct e as [|i p|i m|i r c]; cbn [sstep expect].
  - destruct I as [A B C D E F G].
    assert (N : forall i, home x i = None).
    { intro i. unfold home. destruct (nget i (x_live x)) as [[p|]|] eqn:H; auto. apply nget_in in H. unfold redirected_running in L.
      assert (X : existsb (fun e => match snd e with Some _ => true | None => false end) (x_live x) = true) by (apply existsb_exists; exists (i, Some p); auto). congruence. }
    constructor; cbn; auto.
    + destruct (t_tables s) as [|t ts] eqn:T; [constructor|]. constructor; [|exact B].
      intros i p b H. destruct b; auto. specialize (C i). rewrite N in C. cbn in C. rewrite H in C. discriminate.
    + intros i p H. now rewrite N in H.
  - destruct L as [L1 L2]. destruct I as [A B C D E F G].
    assert (H : forall j, home (mkX ((i, p) :: x_live x) (x_files x) (x_console x)) j = if Nat.eqb j i then p else home x j).
    { intro j. unfold home. cbn. destruct (Nat.eqb_spec j i) as [->|N]; [now destruct p|reflexivity]. }
    assert (G' : NoDup (map fst ((i, p) :: x_live x))) by (cbn; constructor; [now apply nget_none|exact G]).
    destruct p as [p|].
    + destruct L2 as [L2|L2]; [discriminate|]. unfold register. destruct (t_tables s) as [|t ts] eqn:T; [cbn in A; congruence|].
      constructor; cbn [t_tables t_files t_console x_live x_files x_console]; auto.
      * intro j. unfold home at 1. cbn [x_live nget dget]. cbn [target]. rewrite nget_nset. specialize (C j). cbn [target] in C.
        cbn. destruct (Nat.eqb_spec j i) as [->|N]; [reflexivity|]. exact C.
      * intros j q. unfold home. cbn. destruct (Nat.eqb_spec j i) as [->|N].
        -- intro Hq. injection Hq as ->. do 2 eexists. split; [reflexivity|]. rewrite nget_nset. now rewrite Nat.eqb_refl.
        -- intro Hq. destruct (D j q Hq) as [t' [ts' [D1 D2]]]. injection D1 as <- <-. do 2 eexists. split; [reflexivity|]. rewrite nget_nset. destruct (Nat.eqb_spec j i); [congruence|exact D2].
      * now rewrite E.
    + constructor; auto; intro j; rewrite H.
      * rewrite C. destruct (Nat.eqb_spec j i) as [->|N]; [|reflexivity]. unfold home. now rewrite L1.
      * intro q. destruct (Nat.eqb_spec j i) as [->|N]; [discriminate|]. apply D.
  - now apply write_inv.
  - destruct L as [p [L1 L2]].
    assert (W : exists s1 x1, s1 = match c with Some (m, _) => write i m s | None => s end /\ x1 = match c with Some (m, _) => says i m x | None => x end /\ inv s1 x1 n /\ x_live x1 = x_live x).
    { do 2 eexists. splits; try reflexivity; destruct c as [[m m']|]; auto; [now apply write_inv|]. unfold says. now destruct (home x i). }
    destruct W as [s1 [x1 [E1 [E2 [I1 V]]]]]. rewrite <- E1, <- E2. clear E1 E2.
    assert (L1' : nget i (x_live x1) = Some p) by congruence.
    set (x2 := mkX (filter (fun e => negb (Nat.eqb i (fst e))) (x_live x1)) (x_files x1) (x_console x1)).
    set (s2 := if r then close i s1 else s1).
    assert (J : inv s2 x2 n).
    { subst s2 r. now apply end_inv. }
    assert (Hi : home x2 i = None) by (unfold home, x2; cbn [x_live]; rewrite nget_filter, Nat.eqb_refl; reflexivity).
    destruct c as [[m m']|].
    + pose proof (write_inv _ _ _ i m' J) as K. unfold says in K. rewrite Hi in K. exact K.
    + destruct J as [A B C D E F G]. constructor; cbn; rewrite ?app_nil_r; auto.
Qed.
Lemma run_inv l : forall s x n, legal n x l -> inv s x n -> exists n', inv (fold_left sstep l s) (fold_left expect l x) n'.
Proof.
  induction l as [|e l IH]; intros s x n L I; [eauto|]. cbn. pose proof (step_inv _ _ _ _ _ L I) as J. destruct L as [_ L]. eapply IH; eauto.
Qed.
Lemma init_inv : inv sinit xinit 0.
Proof. constructor; cbn; auto; try discriminate. constructor. Qed.

(** The file of one thread during its life. *)
Lemma path_eqb_spec p q : reflect (p = q) (path_eqb p q).
Proof.
  destruct p as [a b], q as [c d]. unfold path_eqb. cbn. destruct (Nat.eqb_spec a c), (Nat.eqb_spec b d); cbn; constructor; congruence.
Qed.
Lemma fget_fput p q t l : fget p (fput q t l) = if path_eqb p q then t else fget p l.
Proof.
  unfold fget, fput. induction l as [|[k w] l IH]; cbn.
  - now destruct (path_eqb_spec p q).
  - destruct (path_eqb_spec q k) as [->|N]; cbn.
    + now destruct (path_eqb_spec p k).
    + destruct (path_eqb_spec p k) as [->|M]; [|exact IH]. destruct (path_eqb_spec k q); [congruence|reflexivity].
Qed.
Definition sole (i : nat) (p : path) (x : expected) : Prop := forall j, home x j = Some p <-> j = i.
Lemma says_sole i p x j m : sole i p x -> sole i p (says j m x) /\ fget p (x_files (says j m x)) = fget p (x_files x) ++ (if Nat.eqb i j then [m] else []).
Proof.
  intro S. unfold says. destruct (home x j) as [q|] eqn:H; split; try exact S; cbn.
  - rewrite fget_fput. destruct (path_eqb_spec p q) as [->|N].
    + apply S in H. subst. now rewrite Nat.eqb_refl.
    + destruct (Nat.eqb_spec i j) as [->|M]; [|now rewrite app_nil_r]. assert (home x j = Some p) by now apply S. congruence.
  - destruct (Nat.eqb_spec i j) as [->|M]; [|now rewrite app_nil_r]. assert (home x j = Some p) by now apply S. congruence.
Qed.
Lemma sole_same i p x x' : sole i p x -> (forall j, home x' j = home x j) -> sole i p x'.
Proof. intros S E j. rewrite E. apply S. Qed.
Lemma mid_sole i p l : forall x, sole i p x -> Forall (others i p) l ->
  sole i p (fold_left expect l x) /\ fget p (x_files (fold_left expect l x)) = fget p (x_files x) ++ said i l.
Proof.
  induction l as [|e l IH]; intros x S F; [cbn; now rewrite app_nil_r|]. inversion F; subst. rename H1 into O, H2 into F'. cbn [fold_left].
  change (said i (e :: l)) with ((match e with Print j m => if Nat.eqb i j then [m] else [] | _ => [] end) ++ said i l). rewrite app_assoc.
  assert (K : sole i p (expect x e) /\ fget p (x_files (expect x e)) = fget p (x_files x) ++ match e with Print j m => if Nat.eqb i j then [m] else [] | _ => [] end).
  { destruct e as [|j q|j m|j r c]; cbn [expect others] in *.
    - now rewrite app_nil_r.
    - destruct O as [O1 O2]. split.
      + intro k. unfold home. cbn. destruct (Nat.eqb_spec k j) as [->|N].
        * split; [destruct q; congruence|congruence].
        * apply S.
      + cbn. rewrite app_nil_r. destruct q as [q|]; auto. rewrite fget_fput. destruct (path_eqb_spec p q); congruence.
    - now apply says_sole.
    - rewrite app_nil_r. set (x1 := match c with Some (m, _) => says j m x | None => x end).
      assert (K : sole i p x1 /\ fget p (x_files x1) = fget p (x_files x)).
      { subst x1. destruct c as [[m m']|]; auto. destruct (says_sole i p x j m S) as [K1 K2]. split; auto. rewrite K2. destruct (Nat.eqb_spec i j); [congruence|apply app_nil_r]. }
      destruct K as [K1 K2]. split; [|exact K2]. intro k. unfold home. cbn [x_live]. rewrite nget_filter. destruct (Nat.eqb_spec j k) as [->|N]; [|apply K1].
      split; [discriminate|congruence]. }
  destruct K as [K1 K2]. destruct (IH _ K1 F') as [J1 J2]. split; auto. now rewrite J2, K2.
Qed.

(** A computable form for the examples. *)
Fixpoint legalb (managers : nat) (x : expected) (l : list sevent) : bool :=
  match l with
  | [] => true
  | e :: l =>
    match e with
    | Wrap => negb (redirected_running x)
    | Start i p => match nget i (x_live x) with None => match p with None => true | Some _ => negb (Nat.eqb managers 0) end | Some _ => false end
    | Print _ _ => true
    | End i r _ => match nget i (x_live x) with Some p => Bool.eqb r (match p with Some _ => true | None => false end) | None => false end
    end && legalb (match e with Wrap => S managers | _ => managers end) (expect x e) l
  end.
Lemma legalb_ok l : forall n x, legalb n x l = true -> legal n x l.
Proof.
  induction l as [|e l IH]; intros n x H; [exact I|]. cbn [legalb legal] in *. apply andb_true_iff in H as [H K]. split; [|now apply IH].
  destruct e as [|i p|i m|i r c]; auto.
  - now apply negb_true_iff in H.
  - destruct (nget i (x_live x)); [discriminate|]. split; auto. destruct p; [right|now left]. apply negb_true_iff, Nat.eqb_neq in H. exact H.
  - destruct (nget i (x_live x)) as [p|]; [|discriminate]. exists p. split; auto. now apply Bool.eqb_prop in H.
Qed.

(** ** C68 *)
Definition hits (lv : nat) (l : list (nat * text)) : bool := existsb (fun r => Nat.leb lv (fst r)) l.
Lemma from_first_app lv a b : from_first lv (a ++ b) = if hits lv a then from_first lv a ++ b else from_first lv b.
Proof.
  induction a as [|[v m] a IH]; [reflexivity|]. cbn. destruct (Nat.leb lv v) eqn:E; cbn; [reflexivity|]. exact IH.
Qed.
Lemma hits_app lv a b : hits lv (a ++ b) = hits lv a || hits lv b.
Proof. apply existsb_app. Qed.
Lemma hits_none lv a : hits lv a = false -> from_first lv a = [].
Proof. induction a as [|[v m] a IH]; [reflexivity|]. cbn. destruct (Nat.leb lv v); [discriminate|exact IH]. Qed.
Lemma records_app i ll a b : records_of i ll (a ++ b) = records_of i ll a ++ records_of i ll b.
Proof. apply flat_map_app. Qed.
Record lok (c : lconf) (l : list (option nat * nat * text)) (s : logs) : Prop := {
  k_open : forall i, nmem i (g_opened s) = hits (h_level c) (records_of i (l_level c) l);
  k_hand : forall i, nmem i (g_handlers s) = hits (h_level c) (records_of i (l_level c) l);
  k_file : forall i, lfile i s = map snd (from_first (h_level c) (records_of i (l_level c) l));
  k_out : g_out s = if propagate c then map snd (filter (fun r => Nat.leb (l_level c) (snd (fst r)) && Nat.leb (h_level c) (snd (fst r))) l) else [] }.
Lemma lfile_nset i j t s o f h : lfile i (mkL o (nset j t (g_files s)) h f) = if Nat.eqb i j then t else lfile i s.
Proof. unfold lfile. cbn. rewrite nget_nset. now destruct (Nat.eqb i j). Qed.
Lemma filter_snoc {A} (f : A -> bool) l x : filter f (l ++ [x]) = filter f l ++ if f x then [x] else [].
Proof. rewrite filter_app. cbn. now destruct (f x). Qed.
Lemma log_step c l s n v m s' : lok c l s -> log_record c n v m s = Ok s' -> lok c (l ++ [(n, v, m)]) s'.
Proof.
  intros [A B C D] H. unfold log_record in H.
  assert (R : forall i, records_of i (l_level c) (l ++ [(n, v, m)]) = records_of i (l_level c) l ++ match n with Some j => if Nat.eqb i j && Nat.leb (l_level c) v then [(v, m)] else [] | None => [] end).
  { intro i. rewrite records_app. f_equal. cbn. destruct n; [apply app_nil_r|reflexivity]. }
  assert (U : (if propagate c then map snd (filter (fun r => Nat.leb (l_level c) (snd (fst r)) && Nat.leb (h_level c) (snd (fst r))) (l ++ [(n, v, m)])) else [])
            = g_out s ++ if propagate c && (Nat.leb (l_level c) v && Nat.leb (h_level c) v) then [m] else []).
  { rewrite D. destruct (propagate c); [|reflexivity]. rewrite filter_snoc, map_app. cbn [fst snd andb]. f_equal. now destruct (Nat.leb (l_level c) v && Nat.leb (h_level c) v). }
  destruct (Nat.ltb v (l_level c)) eqn:L.
  - injection H as <-. apply Nat.ltb_lt in L. assert (L' : Nat.leb (l_level c) v = false) by (apply Nat.leb_gt; lia). rewrite L' in *.
    assert (R' : forall i, records_of i (l_level c) (l ++ [(n, v, m)]) = records_of i (l_level c) l).
    { intro i. rewrite R. destruct n as [j|]; [rewrite andb_false_r|]; apply app_nil_r. }
    constructor; try (intro i; rewrite R'; auto). rewrite U, andb_false_r. now rewrite app_nil_r.
  - apply Nat.ltb_ge in L. assert (L' : Nat.leb (l_level c) v = true) by now apply Nat.leb_le. rewrite L' in *. cbn [andb] in U.
    destruct n as [j|].
    + assert (R' : forall i, records_of i (l_level c) (l ++ [(Some j, v, m)]) = records_of i (l_level c) l ++ if Nat.eqb i j then [(v, m)] else []).
      { intro i. rewrite R. now destruct (Nat.eqb i j). }
      set (s1 := if nmem j (g_handlers s) then _ else s) in H.
      assert (S1 : forall i, lfile i s1 = lfile i s ++ if Nat.eqb i j && nmem j (g_handlers s) then [m] else []).
      { intro i. unfold s1. destruct (nmem j (g_handlers s)); [rewrite lfile_nset|]; destruct (Nat.eqb_spec i j) as [->|N]; cbn; rewrite ?app_nil_r; reflexivity. }
      assert (S2 : g_opened s1 = g_opened s /\ g_handlers s1 = g_handlers s /\ g_out s1 = g_out s) by (unfold s1; destruct (nmem j (g_handlers s)); auto).
      destruct S2 as [S2 [S3 S4]]. clearbody s1.
      destruct (Nat.ltb v (h_level c)) eqn:LH.
      * injection H as <-. apply Nat.ltb_lt in LH. assert (LH' : Nat.leb (h_level c) v = false) by (apply Nat.leb_gt; lia).
        assert (X : forall i, hits (h_level c) (if Nat.eqb i j then [(v, m)] else []) = false) by (intro i; destruct (Nat.eqb i j); cbn; now rewrite ?LH').
        constructor.
        -- intro i. now rewrite S2, R', hits_app, X, orb_false_r.
        -- intro i. now rewrite S3, R', hits_app, X, orb_false_r.
        -- intro i. rewrite S1, C, R', from_first_app, B. destruct (Nat.eqb_spec i j) as [->|N]; cbn [andb]; destruct (hits (h_level c) _) eqn:Q; rewrite ?map_app; auto.
           ++ rewrite (hits_none _ _ Q). cbn. now rewrite LH'.
           ++ now rewrite app_nil_r, (hits_none _ _ Q).
        -- now rewrite U, S4, LH', andb_false_r, app_nil_r.
      * apply Nat.ltb_ge in LH. assert (LH' : Nat.leb (h_level c) v = true) by now apply Nat.leb_le. rewrite LH', andb_true_r in U.
        unfold filter_record in H. rewrite S2 in H.
        set (s2 := if nmem j (g_opened s) then s1 else _) in H.
        assert (T : forall i, nmem i (g_opened s2) = nmem i (g_opened s) || Nat.eqb i j).
        { intro i. unfold s2. destruct (nmem j (g_opened s)) eqn:Q; cbn.
          - rewrite S2. destruct (Nat.eqb_spec i j) as [->|N]; [now rewrite Q|now rewrite orb_false_r].
          - rewrite orb_comm. reflexivity. }
        assert (T2 : forall i, nmem i (g_handlers s2) = nmem i (g_handlers s) || Nat.eqb i j).
        { intro i. unfold s2. destruct (nmem j (g_opened s)) eqn:Q; cbn; rewrite S3.
          - destruct (Nat.eqb_spec i j) as [->|N]; [|now rewrite orb_false_r]. rewrite B, <- A, Q. reflexivity.
          - rewrite orb_comm. reflexivity. }
        assert (T3 : forall i, lfile i s2 = lfile i s ++ if Nat.eqb i j then [m] else []).
        { intro i. unfold s2. destruct (nmem j (g_opened s)) eqn:Q.
          - rewrite S1, B, <- A, Q, andb_true_r. reflexivity.
          - rewrite lfile_nset, S1, B, <- A, Q, andb_false_r, app_nil_r. destruct (Nat.eqb_spec i j) as [->|N]; [|now rewrite app_nil_r].
            rewrite C. rewrite A in Q. now rewrite (hits_none _ _ Q). }
        assert (T4 : g_out s2 = g_out s) by (unfold s2; destruct (nmem j (g_opened s)); cbn; auto). clearbody s2.
        assert (K : forall o, lok c (l ++ [(Some j, v, m)]) (mkL (g_opened s2) (g_files s2) (g_handlers s2) o) \/ o <> g_out s ++ (if propagate c then [m] else [])).
        { intro o. destruct (list_eq_dec string_dec o (g_out s ++ if propagate c then [m] else [])) as [->|N]; [left|now right]. constructor; cbn [g_opened g_handlers g_out].
          - intro i. rewrite T, R', hits_app, A. f_equal. destruct (Nat.eqb i j); cbn; now rewrite ?LH'.
          - intro i. rewrite T2, R', hits_app, B. f_equal. destruct (Nat.eqb i j); cbn; now rewrite ?LH'.
          - intro i. change (lfile i s2 = map snd (from_first (h_level c) (records_of i (l_level c) (l ++ [(Some j, v, m)])))). rewrite T3, C, R', from_first_app.
            destruct (hits _ _) eqn:Q; [rewrite map_app; now destruct (Nat.eqb i j)|]. rewrite (hits_none _ _ Q). destruct (Nat.eqb i j); cbn; [|reflexivity]. now rewrite LH'.
          - now rewrite U. }
        destruct (propagate c) eqn:P; injection H as <-.
        -- rewrite T4. destruct (K (g_out s ++ [m])) as [K1|K1]; [exact K1|congruence].
        -- destruct (K (g_out s2)) as [K1|K1]; [now destruct s2|]. rewrite T4, app_nil_r in K1. congruence.
    + assert (R' : forall i, records_of i (l_level c) (l ++ [(None, v, m)]) = records_of i (l_level c) l) by (intro i; now rewrite R, app_nil_r).
      destruct (Nat.ltb v (h_level c)) eqn:LH; [|discriminate]. injection H as <-. apply Nat.ltb_lt in LH.
      assert (LH' : Nat.leb (h_level c) v = false) by (apply Nat.leb_gt; lia).
      constructor; try (intro i; rewrite R'; auto). rewrite U, LH', andb_false_r. now rewrite app_nil_r.
Qed.
Lemma log_all_ok c l : forall l0 s s', lok c l0 s -> log_all c l s = Ok s' -> lok c (l0 ++ l) s'.
Proof.
  induction l as [|[[n v] m] l IH]; intros l0 s s' I H; cbn in H; [injection H as <-; now rewrite app_nil_r|].
  destruct (log_record c n v m s) as [s1|] eqn:E; [|discriminate]. apply (log_step _ _ _ _ _ _ _ I) in E. specialize (IH _ _ _ E H). now rewrite <- app_assoc in IH.
Qed.
Lemma linit_ok c : lok c [] linit.
Proof. constructor; try reflexivity. cbn. now destruct (propagate c). Qed.
Lemma log_none c n v m s e : log_record c n v m s = Err e -> n = None /\ e = ValueError /\ l_level c <= v /\ h_level c <= v.
Proof.
  unfold log_record. destruct (Nat.ltb v (l_level c)) eqn:L; [discriminate|]. apply Nat.ltb_ge in L.
  destruct (Nat.ltb v (h_level c)) eqn:LH; [discriminate|]. apply Nat.ltb_ge in LH. destruct n; cbn; [discriminate|]. intro H. injection H as <-. auto.
Qed.
Lemma log_raises c l : forall s, (exists v m, In (None, v, m) l /\ l_level c <= v /\ h_level c <= v) <-> log_all c l s = Err ValueError.
Proof.
  induction l as [|[[n v] m] l IH]; intro s; cbn [log_all].
  - split; [intros [v [m [[] _]]]|discriminate].
  - destruct (log_record c n v m s) as [s1|e] eqn:E.
    + rewrite <- IH. split; intros [v' [m' [H1 H2]]]; exists v', m'; split; auto.
      * destruct H1 as [H1|H1]; [|exact H1]. injection H1 as -> -> ->. exfalso. unfold log_record in E.
        destruct (Nat.ltb_spec v' (l_level c)); [lia|]. destruct (Nat.ltb_spec v' (h_level c)); [lia|]. discriminate.
      * now right.
    + apply log_none in E as [-> [-> H]]. split; [reflexivity|]. intros _. exists v, m. split; [now left|exact H].
Qed.

(** ** C69 *)
Lemma ends_with_spec suf s : ends_with suf s = true <-> exists m, s = (m ++ suf)%string.
Proof.
  induction s as [|a s IH]; cbn [ends_with]; rewrite orb_true_iff, String.eqb_eq.
  - split; [intros [<-|H]; [now exists EmptyString|discriminate]|]. intros [[|b m] H]; [now left|discriminate].
  - split.
    + intros [H|H]; [now exists EmptyString|]. apply IH in H as [m ->]. now exists (String a m).
    + intros [[|b m] H]; [now left|]. injection H as -> H. right. apply IH. eauto.
Qed.
Lemma glob_spec pre suf s : glob pre suf s = true <-> exists m, s = (pre ++ m ++ suf)%string.
Proof.
  revert s. induction pre as [|a p IH]; intro s; cbn [glob].
  - apply ends_with_spec.
  - destruct s as [|b r]; [split; [discriminate|intros [m H]; discriminate]|]. rewrite andb_true_iff, Ascii.eqb_eq, IH. split.
    + intros [-> [m ->]]. now exists m.
    + intros [m H]. injection H as -> ->. eauto.
Qed.
Lemma in_remove restart d n : In n (to_remove restart d) <-> In n (map fst (d_files d)) /\ old_result restart n.
Proof.
  unfold to_remove, patterns, old_result, result_name. rewrite flat_map_app. cbn [flat_map]. rewrite app_nil_r, !in_app_iff, !filter_In, !glob_spec, String.eqb_eq.
  destruct restart; cbn [flat_map]; rewrite ?app_nil_r, ?filter_In, ?String.eqb_eq.
  - split.
    + intros [[[H <-]|[[H E]|[H E]]]|[]]; splits; auto; intros _; [discriminate| |]; destruct E as [m ->]; discriminate.
    + intros [H [[->|[E|[E| ->]]] K]]; auto 10. now destruct (K eq_refl).
  - split.
    + intros [[[H <-] | [[H E] | [H E]]] | [H <-]]; splits; auto; discriminate.
    + intros [H [[->|[E|[E| ->]]] K]]; auto 10.
Qed.
Lemma nodup_filter {A} (f : A -> bool) l : NoDup l -> NoDup (filter f l).
Proof. apply NoDup_filter. Qed.
Lemma nodup_app {A} (a b : list A) : NoDup a -> NoDup b -> (forall x, In x a -> In x b -> False) -> NoDup (a ++ b).
Proof.
  induction a as [|x a IH]; intros H K D; [exact K|]. inversion H; subst. cbn. constructor.
  - rewrite in_app_iff. intros [Y|Y]; [auto|]. apply (D x); cbn; auto.
  - apply IH; auto. intros y Y. apply D. now right.
Qed.
Lemma remove_nodup restart d : NoDup (map fst (d_files d)) -> NoDup (to_remove restart d).
Proof.
  intro N. unfold to_remove, patterns. set (l := map fst (d_files d)) in *.
  rewrite flat_map_app. cbn [flat_map]. rewrite app_nil_r.
  assert (F : forall f, NoDup (filter f l)) by (intro f; now apply NoDup_filter).
  apply nodup_app.
  - apply nodup_app; auto; [apply nodup_app; auto|].
    + intros x X Y. apply filter_In in X as [_ X], Y as [_ Y]. apply glob_spec in X as [m ->]. apply glob_spec in Y as [m' Y]. discriminate.
    + intros x X Y. apply filter_In in X as [_ X]. apply String.eqb_eq in X as <-. rewrite in_app_iff, !filter_In, !glob_spec in Y. destruct Y as [[_ [m Y]]|[_ [m Y]]]; discriminate.
  - destruct restart; cbn [flat_map]; [constructor|]. rewrite app_nil_r. auto.
  - intros x X Y. destruct restart; cbn [flat_map] in Y; [exact Y|]. rewrite app_nil_r in Y. apply filter_In in Y as [_ Y]. apply String.eqb_eq in Y as <-.
    rewrite !in_app_iff, !filter_In, !glob_spec in X. destruct X as [[_ X]|[[_ [m X]]|[_ [m X]]]]; discriminate.
Qed.
Lemma sget_in {V} n (l : list (string * V)) : In n (map fst l) -> exists v, sget n l = Some v /\ In (n, v) l.
Proof.
  induction l as [|[k w] l IH]; [intros []|]. intro H. destruct (String.eqb_spec n k) as [->|N].
  - exists w. cbn. rewrite String.eqb_refl. auto.
  - destruct H as [H|H]; [cbn in H; congruence|]. destruct (IH H) as [v [V1 V2]]. exists v. cbn. destruct (String.eqb_spec n k); [congruence|]. auto.
Qed.
Lemma in_drop n e l : In e (drop_file n l) <-> In e l /\ fst e <> n.
Proof. unfold drop_file. rewrite filter_In, negb_true_iff, String.eqb_neq. split; intros [A B]; auto. Qed.
Lemma unlink_ok ns : forall l, NoDup ns -> (forall n, In n ns -> exists v r, sget n l = Some v /\ v = (false, r)) ->
  exists l', unlink_all ns l = (Ok tt, l') /\ forall e, In e l' <-> In e l /\ ~ In (fst e) ns.
Proof.
  induction ns as [|n ns IH]; intros l N H; cbn [unlink_all].
  - exists l. split; [reflexivity|]. intro e. cbn. tauto.
  - inversion N; subst. destruct (H n (or_introl eq_refl)) as [v [r [E ->]]]. rewrite E.
    destruct (IH (drop_file n l)) as [l' [E' K]]; auto.
    { intros k Hk. destruct (H k (or_intror Hk)) as [v [r' [E1 ->]]]. exists (false, r'), r'. split; auto.
      assert (NE : k <> n) by (intro; subst; auto). clear - E1 NE. induction l as [|[x w] l IH]; [discriminate|]. cbn in *.
      destruct (String.eqb_spec n x) as [->|M]; cbn.
      - destruct (String.eqb_spec k x); [congruence|]. auto.
      - destruct (String.eqb_spec k x); auto. }
    exists l'. split; auto. intro e. rewrite K, in_drop. cbn. split; [intros [[A B] C]; split; auto; intros [D|D]; auto|intros [A B]; splits; auto].
Qed.
Lemma purge_ok restart d : plain d ->
  exists d', purge restart true d = (Ok tt, d') /\ (forall e, In e (d_files d') <-> In e (d_files d) /\ ~ old_result restart (fst e)) /\
    (d_streams d' = if existsb (fun _ => true) (to_remove restart d) then None else d_streams d) /\ NoDup (map fst (d_files d')).
Proof.
  intros [N P]. destruct (to_remove restart d) as [|n0 ns0] eqn:T.
  - exists d. unfold purge. rewrite T. splits; auto. intros [n v]. cbn. split; [|tauto]. intro H. split; auto. intro O.
    assert (X : In n (to_remove restart d)) by (apply in_remove; split; auto; apply in_map_iff; exists (n, v); auto). rewrite T in X. exact X.
  - unfold purge. rewrite T. rewrite <- T. destruct (unlink_ok (to_remove restart d) (d_files d)) as [l' [E K]].
    + now apply remove_nodup.
    + intros n H. apply in_remove in H as [H1 [H2 _]]. destruct (sget_in _ _ H1) as [[b r] [V1 V2]]. exists (b, r), r. split; auto. now rewrite (P _ _ _ V2 H2).
    + rewrite E. exists (mkDir l' None). splits; auto; cbn [d_files d_streams].
      * intro e. rewrite K, in_remove. split; intros [A B]; split; auto; intro C; apply B; [|apply C]. split; [|exact C]. now apply in_map.
      * now rewrite T.
      * assert (X : forall ns l l', unlink_all ns l = (Ok tt, l') -> NoDup (map fst l) -> NoDup (map fst l')).
        { clear. induction ns as [|n ns IH]; intros l l' H ND; cbn in H; [injection H as <-; exact ND|]. destruct (sget n l) as [[[|] r]|]; try discriminate.
          eapply IH; [exact H|]. clear - ND. unfold drop_file. induction l as [|[x w] l IH]; cbn; [constructor|]. inversion ND; subst. destruct (String.eqb n x); cbn; [auto|]. constructor; auto.
          intro Y. apply H1. apply in_map_iff in Y as [y [Y1 Y2]]. apply filter_In in Y2 as [Y2 _]. apply in_map_iff. eauto. }
        eapply X; eauto.
Qed.
Lemma purge_refuses restart d : snd (purge restart false d) = d /\
  (fst (purge restart false d) = Err FileExistsError <-> exists n, In n (map fst (d_files d)) /\ old_result restart n) /\
  (fst (purge restart false d) = Ok tt \/ fst (purge restart false d) = Err FileExistsError).
Proof.
  unfold purge. destruct (to_remove restart d) as [|n ns] eqn:T; cbn; splits; auto.
  - split; [discriminate|]. intros [n H]. apply in_remove in H. rewrite T in H. destruct H.
  - split; auto. intros _. exists n. apply in_remove. rewrite T. now left.
Qed.
Lemma in_sset {V} n (v : V) l e : NoDup (map fst l) -> In e (sset n v l) <-> e = (n, v) \/ (In e l /\ fst e <> n).
Proof.
  induction l as [|[k w] l IH]; intro ND; cbn.
  - split; [intros [<-|[]]; auto|intros [->|[[] _]]; auto].
  - inversion ND; subst. destruct (String.eqb_spec n k) as [->|N]; cbn.
    + split.
      * intros [<-|H]; auto. right. split; auto. intro E. apply H1. rewrite <- E. now apply in_map.
      * intros [->|[[<-|H] K]]; auto. now destruct K.
    + rewrite (IH H2). split.
      * intros [<-|[->|[H K]]]; [right; split; [now left|cbn; congruence]|now left|right; split; [now right|exact K]].
      * intros [->|[[<-|H] K]]; auto.
Qed.
Lemma nodup_sset {V} n (v : V) l : NoDup (map fst l) -> NoDup (map fst (sset n v l)).
Proof.
  induction l as [|[k w] l IH]; intro ND; cbn; [repeat constructor; intros []|]. inversion ND; subst. destruct (String.eqb_spec n k) as [->|N]; cbn; [now constructor|].
  constructor; auto. intro H. apply in_map_iff in H as [e [E1 E2]]. apply in_sset in E2; auto. destruct E2 as [->|[E2 E3]]; [cbn in E1; congruence|]. apply H1. rewrite <- E1. now apply in_map.
Qed.
Lemma plain_put n r d : plain d -> plain (put_file n r d).
Proof.
  intros [A B]. split; cbn; [now apply nodup_sset|]. intros k b q H. apply in_sset in H; auto. destruct H as [H|[H _]]; [injection H as -> -> ->; auto|]. eapply B; eauto.
Qed.
Lemma in_put n r d e : plain d -> In e (d_files (put_file n r d)) <-> e = (n, (false, r)) \/ (In e (d_files d) /\ fst e <> n).
Proof. intros [A _]. now apply in_sset. Qed.
