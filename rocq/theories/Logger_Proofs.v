(** * Proofs about the in-memory log *)
From Verif Require Import Prelude Prelude_Proofs Logger_Model Logger_Spec.
From Coq Require Import Sorting.

Lemma nth_error_set_nth_same {A} n (a b : A) l : nth_error l n = Some b -> nth_error (set_nth n a l) n = Some a.
Proof. revert l; induction n; destruct l; cbn; try discriminate; auto. Qed.

Lemma nth_error_set_nth_other {A} n m (a : A) l : n <> m -> nth_error (set_nth n a l) m = nth_error l m.
Proof.
  revert m l; induction n; destruct m, l; cbn; try reflexivity; try congruence; intro H.
  - apply IHn. congruence.
Qed.

Lemma length_set_nth {A} n (a : A) l : length (set_nth n a l) = length l.
Proof. revert l; induction n; destruct l; cbn; auto. Qed.

Lemma nth_error_Some_lt {A} (l : list A) n a : nth_error l n = Some a -> n < length l.
Proof. intro H. apply nth_error_Some. congruence. Qed.

Lemma nth_error_snoc {A} (l : list A) a : nth_error (l ++ [a]) (length l) = Some a.
Proof. rewrite nth_error_app2, Nat.sub_diag; [reflexivity| lia]. Qed.

(** ** first_best under extension *)
Lemma first_best_skip h r sel o x fx c :
  first_best h sel o x fx c -> sel r = false \/ nlt (ir_fx r) fx = false ->
  first_best (h ++ [r]) sel o x fx c.
Proof.
  intros [[-> [-> [-> Hall]]]|[r0 [Hc [Hn [Hs [Ho [Hx [Hf [Hi [Hmin Hfirst]]]]]]]]]] Hr.
  - left. repeat split; auto. intros r' Hin Hsel. apply in_app_iff in Hin as [Hin|[<-|[]]]; [auto|].
    destruct Hr; congruence.
  - right. exists r0. pose proof (nth_error_Some_lt _ _ _ Hn) as Hlt.
    rewrite nth_error_app1 by assumption. repeat split; auto.
    + intros r' Hin Hsel. apply in_app_iff in Hin as [Hin|[<-|[]]]; [auto|]. destruct Hr; congruence.
    + intros j r' Hj Hjn Hsel. rewrite nth_error_app1 in Hjn by lia. eauto.
Qed.

Lemma first_best_take h r sel o x fx c :
  first_best h sel o x fx c -> sel r = true -> nlt (ir_fx r) fx = true ->
  first_best (h ++ [r]) sel (ir_opt r) (ir_x r) (ir_fx r) (S (length h)).
Proof.
  intros Hb Hs Hlt. right. exists r. cbn [Nat.sub]. rewrite Nat.sub_0_r, nth_error_snoc.
  assert (Hold : forall r', In r' h -> sel r' = true -> nle (ir_fx r') (ir_fx r) = false).
  { intros r' Hin Hsel. destruct Hb as [[-> [_ [_ Hall]]]|[r0 [_ [_ [_ [_ [_ [_ [_ [Hmin _]]]]]]]]]].
    - specialize (Hall r' Hin Hsel). clear -Hall Hlt. destruct r', r; cbn in *. numsolve.
    - specialize (Hmin r' Hin Hsel). clear -Hmin Hlt. destruct r', r; cbn in *. numsolve. }
  repeat split; auto; try lia.
  - destruct Hb as [[-> _]|[r0 [_ [_ [_ [_ [_ [_ [Hi _]]]]]]]]]; [exact Hlt|].
    eapply nlt_trans; eassumption.
  - intros r' Hin Hsel. apply in_app_iff in Hin as [Hin|[<-|[]]]; [|apply nlt_irrefl].
    specialize (Hold r' Hin Hsel). destruct (nlt (ir_fx r') (ir_fx r)) eqn:E; [|reflexivity].
    apply nlt_nle in E. congruence.
  - intros j r' Hj Hjn Hsel. rewrite nth_error_app1 in Hjn by lia. apply nth_error_In in Hjn. auto.
Qed.

Lemma first_best_le_sel h sel sel' o x fx c o' x' fx' c' :
  first_best h sel o x fx c -> first_best h sel' o' x' fx' c' ->
  (forall r, sel' r = true -> sel r = true) -> nlt fx' fx = false.
Proof.
  intros Hb [[-> _]|[r' [_ [Hn [Hs' [_ [_ [<- [_ _]]]]]]]]] Hsub.
  - destruct fx; reflexivity.
  - apply nth_error_In in Hn. destruct Hb as [[-> [_ [_ Hall]]]|[r [_ [_ [_ [_ [_ [_ [_ [Hmin _]]]]]]]]]]; auto.
Qed.

Lemma first_best_not_nan h sel o x fx c : first_best h sel o x fx c -> nnan fx = false.
Proof.
  intros [[-> _]|[r [_ [_ [_ [_ [_ [_ [Hi _]]]]]]]]]; [reflexivity|]. eapply nlt_nan_l, Hi.
Qed.

(** ** Largest finite value *)
Lemma max_finite_step l m v :
  max_finite l m -> max_finite (l ++ [v]) (if nlt m v && nfinite v then v else m).
Proof.
  intros [[-> Hall]|[Hf [Hin Hall]]].
  - destruct v as [| |q|]; cbn.
    1,2,4: left; split; [reflexivity|]; intros w Hw; apply in_app_iff in Hw as [Hw|[<-|[]]]; [auto|reflexivity].
    right. split; [reflexivity|]. split.
    + exists (Fin q). split; [apply in_app_iff; right; left; reflexivity| reflexivity].
    + intros w Hw Hfw. apply in_app_iff in Hw as [Hw|[<-|[]]].
      * rewrite Hall in Hfw by assumption. discriminate.
      * apply nle_refl. reflexivity.
  - destruct (nlt m v && nfinite v) eqn:E; right.
    + apply andb_true_iff in E as [Hlt Hfv]. split; [exact Hfv|]. split.
      * exists v. split; [apply in_app_iff; right; left; reflexivity| reflexivity].
      * intros w Hw Hfw. apply in_app_iff in Hw as [Hw|[<-|[]]].
        -- apply nlt_nle. eapply nle_nlt_trans; eauto.
        -- apply nle_refl. destruct v; try discriminate; reflexivity.
    + split; [exact Hf|]. split.
      * destruct Hin as [w [Hw He]]. exists w. split; [apply in_app_iff; left; exact Hw| exact He].
      * intros w Hw Hfw. apply in_app_iff in Hw as [Hw|[<-|[]]]; [auto|].
        rewrite Hfw, andb_true_r in E. apply nlt_false_nle; [destruct m; try discriminate; reflexivity|
           destruct v; try discriminate; reflexivity| exact E].
Qed.

(** ** The invariant *)
Record Inv (reg : list (nat * string)) (h : list iterres) (s : logger) : Prop := mkInv {
  I_count : l_count s = length h;
  I_reg : forall i ty, In (i, ty) reg -> i <> 0 /\ exists a b, nget i (l_bests s) = Some a /\
      nth_error (l_heap s) a = Some b /\ b_opt b = i /\ b_type b = ty /\
      first_best h (fun r => Nat.eqb (ir_opt r) i) i (b_x b) (b_fx b) (b_call b);
  I_inj : forall i j a, nget i (l_bests s) = Some a -> nget j (l_bests s) = Some a -> i = j;
  I_low : forall i a, nget i (l_bests s) = Some a -> a < length (l_heap s) /\ a <> 1;
  I_one : 1 < length (l_heap s);
  I_best : exists b, nth_error (l_heap s) (l_best s) = Some b /\
      ((l_best s = 1 /\ b = no_best) \/ exists i ty, In (i, ty) reg /\ nget i (l_bests s) = Some (l_best s) /\ 0 < b_call b) /\
      first_best h (fun _ => true) (b_opt b) (b_x b) (b_fx b) (b_call b);
  I_max : max_finite (map ir_fx h) (l_max s);
  I_src : forall r, In r h -> In (ir_opt r) (map fst reg);
  I_keys : forall i, i <> 0 -> nmemd i (l_bests s) = true -> In i (map fst reg) }.

Definition same_core (s t : logger) : Prop :=
  l_count s = l_count t /\ l_heap s = l_heap t /\ l_bests s = l_bests t /\ l_best s = l_best t /\ l_max s = l_max t.

Lemma Inv_core reg h s t : same_core s t -> Inv reg h s -> Inv reg h t.
Proof.
  intros [H1 [H2 [H3 [H4 H5]]]] []. split; rewrite <- ?H1, <- ?H2, <- ?H3, <- ?H4, <- ?H5; assumption.
Qed.

Lemma same_core_store s d : same_core s (set_store d s).
Proof. repeat split. Qed.

Lemma same_core_refl s : same_core s s.
Proof. repeat split. Qed.

Lemma core_add_hist i hd s : same_core s (snd (add_iter_history i hd s)).
Proof. unfold add_iter_history. destruct (nget i (l_store s)); apply same_core_refl || apply same_core_store. Qed.

Lemma core_clear i s : same_core s (snd (clear_cache i s)).
Proof.
  unfold clear_cache. destruct (l_traj s); [apply same_core_refl|].
  destruct i as [[|k]|]; try apply same_core_store.
  destruct (nmemd (S k) (l_store s)); [apply same_core_store| apply same_core_refl].
Qed.

Lemma core_meta i k v s : same_core s (snd (put_metadata i k v s)).
Proof. unfold put_metadata. destruct (nget i (l_store s)); apply same_core_refl || apply same_core_store. Qed.

Lemma core_msg i m s : same_core s (snd (put_message i m s)).
Proof. unfold put_message. destruct (nget i (l_store s)); apply same_core_refl || apply same_core_store. Qed.

Lemma core_row r s : same_core s (snd (put_row r s)).
Proof. unfold put_row. destruct (nget (ir_opt r) (l_store s)); apply same_core_refl || apply same_core_store. Qed.

Lemma Inv_init traj : Inv [] [] (log_init traj).
Proof.
  split; cbn; auto; try tauto; try lia.
  - intros [|i] [|j] a; cbn; congruence.
  - intros [|i] a; cbn; [intros [= <-]; lia| discriminate].
  - exists no_best. split; [reflexivity|]. split; [left; auto|]. left. cbn. tauto.
  - left. cbn. tauto.
  - intros [|i] H; cbn; [congruence| discriminate].
Qed.

Lemma first_best_none h i : (forall r, In r h -> ir_opt r <> i) -> first_best h (fun r => Nat.eqb (ir_opt r) i) i [] PInf 0.
Proof.
  intro H. left. repeat split; auto. intros r Hr He. apply Nat.eqb_eq in He. exfalso. exact (H r Hr He).
Qed.

Lemma Inv_add reg h s i ty t :
  Inv reg h s -> i <> 0 -> ~ In i (map fst reg) ->
  Inv ((i, ty) :: reg) h (snd (add_optimizer i ty t s)).
Proof.
  intros [Hc Hr Hi Hl H1 Hb Hm Hs Hk] Hi0 Hnew.
  assert (Hget : nget i (l_bests s) = None).
  { destruct (nget i (l_bests s)) eqn:E; [|reflexivity]. exfalso. apply Hnew. apply Hk; [exact Hi0|].
    unfold dmem. rewrite E. reflexivity. }
  assert (Hold : forall a, a < length (l_heap s) -> nth_error (l_heap s ++ [mkB i [] PInf ty 0]) a = nth_error (l_heap s) a).
  { intros a Ha. apply nth_error_app1. exact Ha. }
  split; cbn.
  - exact Hc.
  - intros j tj [Hj|Hj].
    + injection Hj as <- <-. split; [exact Hi0|]. exists (length (l_heap s)), (mkB i [] PInf ty 0).
      rewrite nget_nset_same, nth_error_snoc. cbn. repeat split.
      apply first_best_none. intros r Hr' <-. apply Hnew. apply Hs, Hr'.
    + destruct (Hr j tj Hj) as [Hj0 [a [b [Ha [Hb' Hrest]]]]]. split; [exact Hj0|].
      exists a, b. rewrite nget_nset_other, Hold; [auto| eapply Hl, Ha|].
      intros ->. apply Hnew. apply (in_map fst) in Hj. exact Hj.
  - intros j k a. rewrite !nget_nset. destruct (Nat.eqb_spec j i), (Nat.eqb_spec k i); intros Ha Hb'; subst; auto.
    + injection Ha as <-. apply Hl in Hb'. lia.
    + injection Hb' as <-. apply Hl in Ha. lia.
    + eapply Hi; eauto.
  - intros j a. rewrite nget_nset, app_length. cbn. destruct (Nat.eqb_spec j i); intro Ha.
    + injection Ha as <-. lia.
    + apply Hl in Ha. lia.
  - rewrite app_length. lia.
  - destruct Hb as [b [Hb1 [Hb2 Hb3]]]. exists b. rewrite Hold by (apply nth_error_Some_lt in Hb1; exact Hb1).
    split; [exact Hb1|]. split; [|exact Hb3]. destruct Hb2 as [Hb2|[j [tj [Hj1 [Hj2 Hj3]]]]]; [left; exact Hb2|].
    right. exists j, tj. split; [right; exact Hj1|]. rewrite nget_nset_other; [auto|].
    intros ->. congruence.
  - exact Hm.
  - intros r Hr'. right. apply Hs, Hr'.
  - intros j Hj. unfold dmem. rewrite nget_nset. destruct (Nat.eqb_spec j i); [auto|].
    intro H. right. apply Hk; assumption.
Qed.

(** State after lines 126-137. *)
Lemma Inv_put_core reg h s r :
  Inv reg h s -> In (ir_opt r) (map fst reg) -> NoDup (map fst reg) ->
  exists s', (modify (fun s => set_count (S (l_count s)) s) ;;; put_best r ;;; put_max r) s = (Ok tt, s')
             /\ Inv reg (h ++ [r]) s' /\ l_store s' = l_store s /\ l_traj s' = l_traj s.
Proof.
  intros [Hc Hr Hi Hl H1 Hb Hm Hs Hk] Hreg Hnd.
  apply in_map_iff in Hreg as [[i ty] [Hi_eq Hin]]. cbn in Hi_eq. subst i.
  destruct (Hr _ _ Hin) as [Hi0 [a [b [Ha [Hba [Hbo [Hbt Hfb]]]]]]].
  destruct Hb as [g [Hg [Hgsrc Hgb]]].
  set (s1 := set_count (S (l_count s)) s).
  assert (Hput : exists s2, put_best r s1 = (Ok tt, s2) /\ Inv reg (h ++ [r]) (set_max (if nlt (l_max s) (ir_fx r) && nfinite (ir_fx r) then ir_fx r else l_max s) s2)
      /\ l_store s2 = l_store s /\ l_traj s2 = l_traj s /\ l_max s2 = l_max s).
  { unfold put_best. cbn. rewrite Ha, Hba.
    destruct (nlt (ir_fx r) (b_fx b)) eqn:Hlt.
    - (* a new best for this optimizer *)
      set (b' := mkB (b_opt b) (ir_x r) (ir_fx r) (b_type b) (S (l_count s))).
      assert (Hown : first_best (h ++ [r]) (fun r0 => Nat.eqb (ir_opt r0) (ir_opt r)) (ir_opt r) (ir_x r) (ir_fx r) (S (length h))).
      { eapply first_best_take; [exact Hfb| apply Nat.eqb_refl| exact Hlt]. }
      assert (Hheap : forall j aj, nget j (l_bests s) = Some aj -> j <> ir_opt r ->
                nth_error (set_nth a b' (l_heap s)) aj = nth_error (l_heap s) aj).
      { intros j aj Hj Hne. apply nth_error_set_nth_other. intros ->. apply Hne. eapply Hi; eauto. }
      assert (Hregs : forall j tj, In (j, tj) reg -> j <> 0 /\ exists aj bj, nget j (l_bests s) = Some aj /\
          nth_error (set_nth a b' (l_heap s)) aj = Some bj /\ b_opt bj = j /\ b_type bj = tj /\
          first_best (h ++ [r]) (fun r => Nat.eqb (ir_opt r) j) j (b_x bj) (b_fx bj) (b_call bj)).
      { intros j tj Hj. destruct (Hr _ _ Hj) as [Hj0 [aj [bj [Haj [Hbj [Hoj [Htj Hfj]]]]]]]. split; [exact Hj0|].
        destruct (Nat.eq_dec j (ir_opt r)) as [->|Hne].
        - assert (aj = a) by congruence. subst aj. exists a, b'. split; [exact Haj|]. split; [eapply nth_error_set_nth_same; eassumption|].
          split; [exact Hbo|]. split; [cbn; congruence|]. cbn. rewrite Hc. exact Hown.
        - exists aj, bj. rewrite (Hheap j aj Haj Hne). repeat split; auto.
          apply first_best_skip; [exact Hfj|]. left. apply Nat.eqb_neq. congruence. }
      assert (Hlen : forall j aj, nget j (l_bests s) = Some aj -> aj < length (set_nth a b' (l_heap s)) /\ aj <> 1).
      { intros. rewrite length_set_nth. eauto. }
      assert (Hlenh : 1 < length (set_nth a b' (l_heap s))) by (rewrite length_set_nth; exact H1).
      assert (Hm' : max_finite (map ir_fx (h ++ [r])) (if nlt (l_max s) (ir_fx r) && nfinite (ir_fx r) then ir_fx r else l_max s)).
      { rewrite map_app. apply max_finite_step. exact Hm. }
      assert (Hs' : forall r', In r' (h ++ [r]) -> In (ir_opt r') (map fst reg)).
      { intros r' Hin'. apply in_app_iff in Hin' as [H|[<-|[]]]; [auto| apply (in_map fst) in Hin; exact Hin]. }
      destruct (Nat.eq_dec (l_best s) a) as [Heq|Hne].
      + (* the overall best is the very record just updated *)
        rewrite Heq. rewrite (nth_error_set_nth_same _ _ _ _ Hba). cbn. rewrite nlt_irrefl.
        eexists. split; [reflexivity|]. split; [|cbn; auto].
        assert (g = b) by congruence. subst g.
        split; cbn; auto.
        * rewrite app_length, Hc; cbn; lia.
        * exists b'. rewrite Heq. split; [eapply nth_error_set_nth_same; eassumption|]. split.
          -- right. exists (ir_opt r), ty. cbn. repeat split; auto; lia.
          -- cbn. rewrite Hbo, Hc. eapply first_best_take; [exact Hgb| reflexivity| exact Hlt].
      + rewrite nth_error_set_nth_other by congruence. rewrite Hg.
        eexists. split; [reflexivity|]. destruct (nlt (ir_fx r) (b_fx g)) eqn:Hltg.
        * split; [|cbn; auto]. split; cbn; auto.
          -- rewrite app_length, Hc; cbn; lia.
          -- exists b'. split; [eapply nth_error_set_nth_same; eassumption|]. split.
             ++ right. exists (ir_opt r), ty. cbn. repeat split; auto; lia.
             ++ cbn. rewrite Hbo, Hc. eapply first_best_take; [exact Hgb| reflexivity| exact Hltg].
        * split; [|cbn; auto]. split; cbn; auto.
          -- rewrite app_length, Hc; cbn; lia.
          -- exists g. rewrite nth_error_set_nth_other by congruence. split; [exact Hg|]. split; [exact Hgsrc|].
             apply first_best_skip; auto.
    - (* not an improvement *)
      eexists. split; [reflexivity|]. split; [|cbn; auto].
      split; cbn; auto.
      + rewrite app_length, Hc; cbn; lia.
      + intros j tj Hj. destruct (Hr _ _ Hj) as [Hj0 [aj [bj [Haj [Hbj [Hoj [Htj Hfj]]]]]]]. split; [exact Hj0|].
        exists aj, bj. repeat split; auto. apply first_best_skip; [exact Hfj|].
        destruct (Nat.eq_dec j (ir_opt r)) as [->|Hne].
        * right. assert (aj = a) by congruence. subst aj. assert (bj = b) by congruence. subst bj. exact Hlt.
        * left. apply Nat.eqb_neq. congruence.
      + exists g. split; [exact Hg|]. split; [exact Hgsrc|]. apply first_best_skip; [exact Hgb|].
        right. (* fx >= own best >= overall best *)
        destruct (nlt (ir_fx r) (b_fx g)) eqn:E; [|reflexivity].
        assert (Hle : nlt (b_fx b) (b_fx g) = false).
        { eapply first_best_le_sel; [exact Hgb| exact Hfb|]. reflexivity. }
        assert (Hnn : nnan (b_fx b) = false) by (eapply first_best_not_nan; exact Hfb).
        clear -Hle E Hlt Hnn. exfalso.
        revert Hle E Hlt Hnn. generalize (ir_fx r) (b_fx g) (b_fx b). intros. numsolve.
      + rewrite map_app. apply max_finite_step. exact Hm.
      + intros r' Hin'. apply in_app_iff in Hin' as [H|[<-|[]]]; [auto| apply (in_map fst) in Hin; exact Hin]. }
  destruct Hput as [s2 [Hp [HI [Hst [Htr Hmx]]]]].
  eexists. unfold bind at 1. unfold modify. fold s1. unfold bind. rewrite Hp.
  unfold put_max, modify. split; [reflexivity|].
  rewrite Hmx. destruct (nlt (l_max s) (ir_fx r) && nfinite (ir_fx r)).
  - split; [exact HI|]. auto.
  - split; [|auto]. eapply Inv_core; [|exact HI]. repeat split; cbn; auto.
Qed.

Lemma put_iteration_split r s :
  put_iteration r s = ((modify (fun s => set_count (S (l_count s)) s) ;;; put_best r ;;; put_max r) ;;; put_row r) s.
Proof.
  unfold put_iteration, bind. destruct (modify _ s) as [[?|?] s1]; [|reflexivity].
  destruct (put_best r s1) as [[?|?] s2]; [|reflexivity].
  destruct (put_max r s2) as [[?|?] s3]; reflexivity.
Qed.

Lemma Inv_put reg h s r :
  Inv reg h s -> In (ir_opt r) (map fst reg) -> NoDup (map fst reg) ->
  Inv reg (h ++ [r]) (snd (put_iteration r s)).
Proof.
  intros HI Hr Hnd. rewrite put_iteration_split. unfold bind at 1.
  destruct (Inv_put_core _ _ _ _ HI Hr Hnd) as [s' [-> [HI' _]]].
  eapply Inv_core; [apply core_row| exact HI'].
Qed.

Lemma lexec_cons o ops s : lexec (o :: ops) s = lexec ops (snd (lstep o s)).
Proof. reflexivity. Qed.

Lemma lexec_app a b s : lexec (a ++ b) s = lexec b (lexec a s).
Proof. unfold lexec. apply fold_left_app. Qed.

Lemma evals_app a b : evals (a ++ b) = evals a ++ evals b.
Proof. induction a as [|o a IH]; cbn; [reflexivity|]. destruct o; cbn; congruence. Qed.

Lemma lexec_Inv ops : forall reg h s,
  Inv reg h s -> NoDup (map fst reg) -> disciplined_from (map fst reg) ops = true ->
  Inv (rev (registered ops) ++ reg) (h ++ evals ops) (lexec ops s).
Proof.
  induction ops as [|o ops IH]; intros reg h s HI Hnd Hd.
  - cbn. rewrite app_nil_r. exact HI.
  - destruct o as [i ty t|i hd|r|i|i k v|i m]; rewrite lexec_cons; cbn in Hd |- *.
    + rewrite !andb_true_iff, !negb_true_iff in Hd. destruct Hd as [[H0 Hn] Hd].
      apply Nat.eqb_neq in H0. apply nmem_false in Hn.
      rewrite <- app_assoc. cbn. apply (IH ((i, ty) :: reg)); [apply Inv_add; assumption| constructor; assumption| exact Hd].
    + apply IH; auto. eapply Inv_core; [apply core_add_hist| exact HI].
    + rewrite andb_true_iff in Hd. destruct Hd as [Hm Hd]. apply nmem_in in Hm.
      replace (h ++ r :: evals ops) with ((h ++ [r]) ++ evals ops) by (rewrite <- app_assoc; reflexivity).
      apply IH; [apply Inv_put; assumption| assumption| exact Hd].
    + apply IH; auto. eapply Inv_core; [apply core_clear| exact HI].
    + apply IH; auto. eapply Inv_core; [apply core_meta| exact HI].
    + apply IH; auto. eapply Inv_core; [apply core_msg| exact HI].
Qed.

Lemma log_Inv traj ops : disciplined ops = true ->
  Inv (rev (registered ops)) (evals ops) (lexec ops (log_init traj)).
Proof.
  intro H. pose proof (lexec_Inv ops [] [] (log_init traj) (Inv_init traj)) as L. cbn in L.
  rewrite app_nil_r in L. apply L; [constructor| exact H].
Qed.

Lemma log_best_of_optimizer traj ops i ty :
  disciplined ops = true -> In (i, ty) (registered ops) ->
  exists b, get_best_iter (Some i) (lexec ops (log_init traj)) = Ok b /\ b_opt b = i /\ b_type b = ty /\
            first_best (evals ops) (fun r => Nat.eqb (ir_opt r) i) i (b_x b) (b_fx b) (b_call b).
Proof.
  intros Hd Hin. destruct (log_Inv traj ops Hd) as [_ Hr _ _ _ _ _ _].
  destruct (Hr i ty) as [H0 [a [b [Ha [Hb Hrest]]]]]; [apply in_rev in Hin; exact Hin|].
  exists b. split; [|exact Hrest]. unfold get_best_iter. destruct i; [congruence|]. rewrite Ha, Hb. reflexivity.
Qed.

Lemma log_best_overall traj ops :
  disciplined ops = true ->
  exists b, get_best_iter None (lexec ops (log_init traj)) = Ok b /\
            first_best (evals ops) (fun _ => true) (b_opt b) (b_x b) (b_fx b) (b_call b) /\
            (b_call b = 0 -> b = no_best) /\ (b_call b <> 0 -> In (b_opt b, b_type b) (registered ops)).
Proof.
  intros Hd. destruct (log_Inv traj ops Hd) as [_ Hr _ _ _ [b [Hb [Hsrc Hfb]]] _ _].
  exists b. unfold get_best_iter. rewrite Hb. split; [reflexivity|]. split; [exact Hfb|].
  destruct Hsrc as [[_ ->]|[i [ty [Hin [Hget Hpos]]]]]; [split; [reflexivity| cbn; congruence]|].
  destruct (Hr i ty Hin) as [H0 [a [b' [Ha [Hb' [Ho [Ht Hfi]]]]]]].
  assert (b' = b) by congruence. subst b'. split; [lia|].
  intros _. rewrite Ho, Ht. apply in_rev. exact Hin.
Qed.

Lemma log_largest traj ops : disciplined ops = true ->
  max_finite (map ir_fx (evals ops)) (largest_eval (lexec ops (log_init traj))).
Proof. intro H. exact (I_max _ _ _ (log_Inv traj ops H)). Qed.

(** ** Counting needs no discipline *)
Lemma put_best_count r s : l_count (snd (put_best r s)) = l_count s.
Proof.
  unfold put_best. destruct (nget _ _) as [a|]; [|reflexivity]. destruct (nth_error (l_heap s) a); [|reflexivity].
  destruct (nlt _ _); [|reflexivity]. cbn. destruct (nth_error _ _); [|reflexivity]. cbn. destruct (nlt _ _); reflexivity.
Qed.

Lemma put_max_count r s : l_count (snd (put_max r s)) = l_count s.
Proof. unfold put_max, modify. cbn. destruct (_ && _); reflexivity. Qed.

Local Arguments put_best : simpl never.
Local Arguments put_row : simpl never.

Lemma put_iteration_count r s : l_count (snd (put_iteration r s)) = S (l_count s).
Proof.
  unfold put_iteration, bind at 1, modify at 1.
  unfold bind. pose proof (put_best_count r (set_count (S (l_count s)) s)) as H1.
  destruct (put_best r _) as [[?|?] s2]; cbn in H1 |- *; [|exact H1].
  destruct (core_row r (if nlt (l_max s2) (ir_fx r) && nfinite (ir_fx r) then set_max (ir_fx r) s2 else s2)) as [H2 _].
  rewrite <- H2. destruct (_ && _); exact H1.
Qed.

Lemma lstep_count o s : l_count (snd (lstep o s)) = l_count s + length (evals [o]).
Proof.
  destruct o; cbn [lstep evals length]; rewrite ?Nat.add_0_r.
  - reflexivity.
  - symmetry. apply core_add_hist.
  - rewrite put_iteration_count. lia.
  - symmetry. apply core_clear.
  - symmetry. apply core_meta.
  - symmetry. apply core_msg.
Qed.

Lemma lexec_count ops : forall s, l_count (lexec ops s) = l_count s + length (evals ops).
Proof.
  induction ops as [|o ops IH]; intro s; [cbn; lia|].
  rewrite lexec_cons, IH, lstep_count. change (o :: ops) with ([o] ++ ops). rewrite evals_app, app_length. lia.
Qed.

(** ** Addresses are always valid *)
Definition addr_ok (s : logger) : Prop :=
  l_best s < length (l_heap s) /\ forall i a, nget i (l_bests s) = Some a -> a < length (l_heap s).

Lemma addr_ok_core s t : same_core s t -> addr_ok s -> addr_ok t.
Proof. intros [_ [H1 [H2 [H3 _]]]] H. unfold addr_ok in *. rewrite <- H1, <- H2, <- H3. exact H. Qed.

Lemma addr_ok_put_best r s : addr_ok s -> addr_ok (snd (put_best r s)).
Proof.
  intros [Hb Ha]. unfold put_best. destruct (nget (ir_opt r) (l_bests s)) as [a|] eqn:E; [|split; assumption].
  destruct (nth_error (l_heap s) a) eqn:E2; [|split; assumption].
  destruct (nlt _ _); [|split; assumption]. cbn.
  destruct (nth_error _ (l_best s)); cbn.
  - destruct (nlt _ _); unfold addr_ok; cbn; rewrite length_set_nth; split; eauto.
  - unfold addr_ok; cbn; rewrite length_set_nth; split; eauto.
Qed.

Lemma put_best_ok r s a : addr_ok s -> nget (ir_opt r) (l_bests s) = Some a -> exists s', put_best r s = (Ok tt, s').
Proof.
  intros [Hb Ha] E. unfold put_best. rewrite E. specialize (Ha _ _ E).
  destruct (nth_error (l_heap s) a) eqn:E2; [|apply nth_error_None in E2; lia].
  destruct (nlt _ _); [|eauto]. cbn.
  destruct (nth_error (set_nth _ _ _) (l_best s)) eqn:E3; [eauto|].
  apply nth_error_None in E3. rewrite length_set_nth in E3. lia.
Qed.

Lemma put_best_bests r s : l_bests (snd (put_best r s)) = l_bests s /\ l_store (snd (put_best r s)) = l_store s /\ l_traj (snd (put_best r s)) = l_traj s.
Proof.
  unfold put_best. destruct (nget _ _) as [a|]; [|auto]. destruct (nth_error (l_heap s) a); [|auto].
  destruct (nlt _ _); [|auto]. cbn. destruct (nth_error _ _); [|auto]. cbn. destruct (nlt _ _); auto.
Qed.

Lemma put_iteration_parts r s a :
  addr_ok s -> nget (ir_opt r) (l_bests s) = Some a ->
  exists s3, put_iteration r s = put_row r s3 /\ addr_ok s3 /\ l_bests s3 = l_bests s /\ l_store s3 = l_store s
             /\ l_traj s3 = l_traj s /\ l_count s3 = S (l_count s).
Proof.
  intros Hok Ha. unfold put_iteration, bind at 1, modify at 1.
  set (s1 := set_count (S (l_count s)) s).
  destruct (put_best_ok r s1 a Hok Ha) as [s2 H2].
  pose proof (addr_ok_put_best r s1 Hok) as Hok2. pose proof (put_best_bests r s1) as [Hb [Hs Ht]].
  pose proof (put_best_count r s1) as Hc. rewrite H2 in *. cbn in Hok2, Hb, Hs, Ht, Hc.
  unfold bind. rewrite H2. cbn.
  eexists. split; [reflexivity|]. destruct (_ && _); repeat split; cbn; auto; apply Hok2.
Qed.

Lemma addr_ok_put r s : addr_ok s -> addr_ok (snd (put_iteration r s)).
Proof.
  intro Hok. destruct (nget (ir_opt r) (l_bests s)) as [a|] eqn:E.
  - destruct (put_iteration_parts r s a Hok E) as [s3 [-> [H _]]]. eapply addr_ok_core; [apply core_row| exact H].
  - unfold put_iteration, bind at 1, modify at 1. unfold bind at 1, put_best at 1. cbn. rewrite E. exact Hok.
Qed.

Lemma addr_ok_step o s : addr_ok s -> addr_ok (snd (lstep o s)).
Proof.
  intro H. destruct o; cbn [lstep].
  - destruct H as [Hb Ha]. unfold addr_ok. cbn. rewrite app_length. cbn. split; [lia|].
    intros j a. rewrite nget_nset. destruct (Nat.eqb j i); intro Hj; [injection Hj as <-; lia|].
    apply Ha in Hj. lia.
  - eapply addr_ok_core; [apply core_add_hist| exact H].
  - apply addr_ok_put. exact H.
  - eapply addr_ok_core; [apply core_clear| exact H].
  - eapply addr_ok_core; [apply core_meta| exact H].
  - eapply addr_ok_core; [apply core_msg| exact H].
Qed.

Lemma addr_ok_init t : addr_ok (log_init t).
Proof. split; cbn; [lia|]. intros [|i] a; cbn; [intros [= <-]; lia| discriminate]. Qed.

Lemma addr_ok_exec ops : forall s, addr_ok s -> addr_ok (lexec ops s).
Proof. induction ops as [|o ops IH]; intros s H; [exact H|]. rewrite lexec_cons. apply IH, addr_ok_step, H. Qed.

(** ** Isolation: an operation on another optimizer leaves this one's data alone *)
Lemma put_iteration_eq r s :
  put_iteration r s = match put_best r (set_count (S (l_count s)) s) with
                      | (Ok _, s2) => put_row r (snd (put_max r s2))
                      | (Err e, s2) => (Err e, s2)
                      end.
Proof.
  unfold put_iteration, bind at 1, modify at 1. unfold bind. destruct (put_best r _) as [[?|?] s2]; reflexivity.
Qed.

Lemma put_max_same r s : l_store (snd (put_max r s)) = l_store s /\ l_bests (snd (put_max r s)) = l_bests s /\
  l_traj (snd (put_max r s)) = l_traj s.
Proof. unfold put_max, modify. cbn. destruct (_ && _); auto. Qed.

Lemma put_iteration_store r s : l_store (snd (put_iteration r s)) = l_store s \/
  exists e e', nget (ir_opt r) (l_store s) = Some e /\ l_store (snd (put_iteration r s)) = nset (ir_opt r) e' (l_store s).
Proof.
  rewrite put_iteration_eq.
  pose proof (put_best_bests r (set_count (S (l_count s)) s)) as [_ [Hs _]].
  destruct (put_best r _) as [[?|?] s2]; cbn [snd] in *; [|left; exact Hs].
  destruct (put_max_same r s2) as [H3 _]. set (s3 := snd (put_max r s2)) in *. clearbody s3.
  rewrite Hs in H3. cbn in H3. unfold put_row. rewrite H3.
  destruct (nget (ir_opt r) (l_store s)) as [e|]; cbn [snd]; [right| left; exact H3].
  eexists e, _. split; reflexivity.
Qed.

Lemma put_iteration_traj r s : l_traj (snd (put_iteration r s)) = l_traj s.
Proof.
  rewrite put_iteration_eq.
  pose proof (put_best_bests r (set_count (S (l_count s)) s)) as [_ [_ Hs]].
  destruct (put_best r _) as [[?|?] s2]; cbn [snd] in *; [|exact Hs].
  destruct (put_max_same r s2) as [_ [_ H3]]. unfold put_row. destruct (nget _ _); cbn [snd set_store l_traj]; rewrite H3, Hs; reflexivity.
Qed.

Lemma put_iteration_bests r s : l_bests (snd (put_iteration r s)) = l_bests s.
Proof.
  rewrite put_iteration_eq.
  pose proof (put_best_bests r (set_count (S (l_count s)) s)) as [Hs _].
  destruct (put_best r _) as [[?|?] s2]; cbn [snd] in *; [|exact Hs].
  destruct (put_max_same r s2) as [_ [H3 _]]. destruct (core_row r (snd (put_max r s2))) as [_ [_ [<- _]]].
  rewrite H3, Hs. reflexivity.
Qed.

Lemma lstep_other o s i : target o <> Some i -> target o <> None -> nget i (l_store (snd (lstep o s))) = nget i (l_store s).
Proof.
  intros Ht Hn. destruct o as [j ty t|j hd|r|j|j k v|j m]; cbn [lstep target] in *.
  - cbn. apply nget_nset_other. congruence.
  - unfold add_iter_history. destruct (nget j (l_store s)); [|reflexivity]. cbn. apply nget_nset_other. congruence.
  - destruct (put_iteration_store r s) as [->|[e [e' [_ ->]]]]; [reflexivity|]. apply nget_nset_other. congruence.
  - unfold clear_cache. destruct (l_traj s); [reflexivity|]. destruct j as [[|j]|]; try congruence.
    destruct (nmemd (S j) (l_store s)); [|reflexivity]. cbn. apply nget_ndel_other. congruence.
  - unfold put_metadata. destruct (nget j (l_store s)); [|reflexivity]. cbn. apply nget_nset_other. congruence.
  - unfold put_message. destruct (nget j (l_store s)); [|reflexivity]. cbn. apply nget_nset_other. congruence.
Qed.

Lemma log_isolation o s i : target o <> Some i -> target o <> None ->
  (forall tr, get_history i tr (snd (lstep o s)) = get_history i tr s) /\
  has_iter_history i (snd (lstep o s)) = has_iter_history i s /\
  (forall k, get_metadata i k (snd (lstep o s)) = get_metadata i k s) /\
  len_opt i (snd (lstep o s)) = len_opt i s.
Proof.
  intros H Hn. pose proof (lstep_other o s i H Hn) as E.
  unfold get_history, len_opt, has_iter_history, get_metadata. rewrite E. auto.
Qed.

(** ** History contents *)
Fixpoint ext_cols (j : nat) (ks : list string) (h : list iterres) : list (string * list cell) :=
  match ks with
  | [] => []
  | k :: ks' => (k, map CF (extra_col j h)) :: ext_cols (S j) ks' h
  end.

Definition hist_cols (ids : list nat) (ks : list string) (h : list iterres) : list (string * list cell) :=
  ("call_id"%string, map CId ids) :: ("x"%string, map CX (map ir_x h)) :: ("fx"%string, map CF (map ir_fx h)) :: ext_cols 0 ks h.

Lemma extra_col_snoc j h r : extra_col j (h ++ [r]) =
  extra_col j h ++ match nth_error (ir_extras r) j with Some v => [v] | None => [] end.
Proof. unfold extra_col. rewrite flat_map_app. cbn. rewrite app_nil_r. reflexivity. Qed.

Lemma zip_ext ks : forall j h r, zip_append (ext_cols j ks h) (map CF (skipn j (ir_extras r))) = ext_cols j ks (h ++ [r]).
Proof.
  induction ks as [|k ks IH]; intros j h r; cbn; [reflexivity|].
  rewrite extra_col_snoc. rewrite <- IH.
  assert (Hsk : forall (l : list num) n, match nth_error l n with
                | Some v => skipn n l = v :: skipn (S n) l | None => skipn n l = [] /\ skipn (S n) l = [] end).
  { clear. induction l as [|a l IHl]; intros [|n]; try (split; reflexivity). exact (IHl n). }
  specialize (Hsk (ir_extras r) j). revert Hsk. destruct (nth_error (ir_extras r) j) as [v|]; intro Hsk.
  - rewrite Hsk. cbn [map zip_append]. rewrite map_app. reflexivity.
  - destruct Hsk as [-> ->]. cbn. rewrite app_nil_r. f_equal. destruct (ext_cols (S j) ks h) as [|[? ?] ?]; reflexivity.
Qed.

Lemma zip_hist ids ks h r n :
  zip_append (hist_cols ids ks h) (CId n :: CX (ir_x r) :: CF (ir_fx r) :: map CF (ir_extras r))
  = hist_cols (ids ++ [n]) ks (h ++ [r]).
Proof.
  unfold hist_cols. cbn [zip_append]. rewrite !map_app. cbn.
  pose proof (zip_ext ks 0 h r) as H. cbn in H. rewrite H. reflexivity.
Qed.

Definition sadd (ks : list string) (k : string) : list string := if existsb (String.eqb k) ks then ks else ks ++ [k].

Lemma sset_empty_cols k ks : sset k [] (map (fun k => (k, @nil cell)) ks) = map (fun k => (k, [])) (sadd ks k).
Proof.
  unfold sadd. induction ks as [|k0 ks IH]; cbn; [reflexivity|].
  destruct (String.eqb_spec k k0) as [->|Hn]; cbn; [reflexivity|]. rewrite IH.
  destruct (existsb (String.eqb k) ks); reflexivity.
Qed.

Lemma reset_cols_empty hd : forall ks, reset_cols hd (map (fun k => (k, @nil cell)) ks) = map (fun k => (k, [])) (fold_left sadd hd ks).
Proof.
  unfold reset_cols. induction hd as [|k hd IH]; intro ks; cbn; [reflexivity|]. rewrite sset_empty_cols, IH. reflexivity.
Qed.

Lemma fold_sadd_prefix hd : forall ks, exists ks', fold_left sadd hd ks = ks ++ ks'.
Proof.
  induction hd as [|k hd IH]; intro ks; cbn; [exists []; rewrite app_nil_r; reflexivity|].
  destruct (IH (sadd ks k)) as [ks' ->]. unfold sadd. destruct (existsb _ _); [eauto|].
  exists (k :: ks'). rewrite <- app_assoc. reflexivity.
Qed.

Lemma existsb_str k ks : existsb (String.eqb k) ks = true <-> In k ks.
Proof.
  rewrite existsb_exists. split; [intros [x [Hx He]]; apply String.eqb_eq in He; congruence|].
  intro H. exists k. split; [exact H| apply String.eqb_refl].
Qed.

Lemma fold_sadd_fresh hd : forall ks, NoDup hd -> (forall k, In k hd -> ~ In k ks) -> fold_left sadd hd ks = ks ++ hd.
Proof.
  induction hd as [|k hd IH]; intros ks Hnd Hd; cbn; [rewrite app_nil_r; reflexivity|].
  inversion Hnd as [|? ? Hk Hnd']; subst.
  unfold sadd at 2. destruct (existsb (String.eqb k) ks) eqn:E.
  - apply existsb_str in E. exfalso. apply (Hd k); [left; reflexivity| exact E].
  - rewrite IH; [rewrite <- app_assoc; reflexivity| exact Hnd'|].
    intros k' Hk' Hin. apply in_app_iff in Hin as [Hin|[<-|[]]]; [|exact (Hk Hk')].
    apply (Hd k'); [right; exact Hk'| exact Hin].
Qed.

Definition base_headers : list string := ["call_id"; "x"; "fx"]%string.

Lemma ext_cols_empty ks : forall j, map (fun k => (k, @nil cell)) ks = ext_cols j ks [].
Proof. induction ks as [|k ks IH]; intro j; cbn; [reflexivity|]. rewrite (IH (S j)). reflexivity. Qed.

Lemma reset_cols_init hd : exists ks, reset_cols (base_headers ++ hd) [] = hist_cols [] ks [] /\
  (NoDup hd -> (forall k, In k hd -> ~ In k base_headers) -> ks = hd).
Proof.
  pose proof (reset_cols_empty (base_headers ++ hd) []) as H0. cbn [map] in H0. rewrite H0, fold_left_app. clear H0.
  change (fold_left sadd base_headers []) with base_headers.
  destruct (fold_sadd_prefix hd base_headers) as [ks' Hk]. exists ks'. split.
  - rewrite Hk, map_app. cbn. rewrite (ext_cols_empty ks' 0). reflexivity.
  - intros Hnd Hd. rewrite (fold_sadd_fresh hd base_headers Hnd Hd) in Hk. apply app_inv_head in Hk. congruence.
Qed.

Lemma positions_nil i : positions_of i [] [].
Proof. split; [constructor|]. intro k. split; [intros []|]. intros [r [_ [H _]]]. destruct (k - 1); discriminate. Qed.

Lemma positions_skip i h ids r : positions_of i h ids -> ir_opt r <> i -> positions_of i (h ++ [r]) ids.
Proof.
  intros [Hs Hp] Hr. split; [exact Hs|]. intro k. rewrite Hp. split.
  - intros [r0 [Hk [Hn Ho]]]. exists r0. rewrite nth_error_app1; [auto|]. eapply nth_error_Some_lt, Hn.
  - intros [r0 [Hk [Hn Ho]]]. exists r0. destruct (Nat.lt_ge_cases (k - 1) (length h)) as [Hlt|Hge].
    + rewrite nth_error_app1 in Hn by exact Hlt. auto.
    + rewrite nth_error_app2 in Hn by exact Hge. destruct (k - 1 - length h) as [|m]; cbn in Hn; [|destruct m; discriminate].
      congruence.
Qed.

Lemma sorted_snoc l n : StronglySorted lt l -> (forall k, In k l -> k < n) -> StronglySorted lt (l ++ [n]).
Proof.
  induction 1 as [|a l Hs IH Hf]; intro Hn; cbn; [repeat constructor|].
  constructor; [apply IH; intros k Hk; apply Hn; right; exact Hk|].
  rewrite Forall_forall in *. intros b Hb. apply in_app_iff in Hb as [Hb|[<-|[]]]; [auto|].
  apply Hn. left. reflexivity.
Qed.

Lemma positions_take i h ids r : positions_of i h ids -> ir_opt r = i -> positions_of i (h ++ [r]) (ids ++ [S (length h)]).
Proof.
  intros [Hs Hp] Hr. split.
  - apply sorted_snoc; [exact Hs|]. intros k Hk. apply Hp in Hk as [r0 [H0 [Hn _]]]. apply nth_error_Some_lt in Hn. lia.
  - intro k. rewrite in_app_iff, Hp. cbn. split.
    + intros [[r0 [Hk [Hn Ho]]]|[<-|[]]].
      * exists r0. rewrite nth_error_app1; [auto|]. eapply nth_error_Some_lt, Hn.
      * exists r. cbn. rewrite Nat.sub_0_r, nth_error_snoc. split; [lia| auto].
    + intros [r0 [Hk [Hn Ho]]]. destruct (Nat.lt_ge_cases (k - 1) (length h)) as [Hlt|Hge].
      * left. exists r0. rewrite nth_error_app1 in Hn by exact Hlt. auto.
      * right. left. rewrite nth_error_app2 in Hn by exact Hge.
        destruct (k - 1 - length h) as [|m] eqn:E; cbn in Hn; [lia|destruct m; discriminate].
Qed.

(** State of optimizer [i] while its history is open. *)
Definition HInv (i : nat) (ks : list string) (h : list iterres) (s : logger) : Prop :=
  addr_ok s /\ l_count s = length h /\ (exists a, nget i (l_bests s) = Some a) /\
  exists e ids, nget i (l_store s) = Some e /\ positions_of i h ids /\ e_cols e = hist_cols ids ks (own i h).

Lemma own_snoc i h r : own i (h ++ [r]) = own i h ++ (if Nat.eqb (ir_opt r) i then [r] else []).
Proof. unfold own. rewrite filter_app. cbn. destruct (Nat.eqb (ir_opt r) i); reflexivity. Qed.

Lemma lstep_bests_keep o s i a : nget i (l_bests s) = Some a -> exists a', nget i (l_bests (snd (lstep o s))) = Some a'.
Proof.
  intro H. destruct o as [j ty t|j hd|r|j|j k v|j m]; cbn [lstep].
  - cbn. rewrite nget_nset. destruct (Nat.eqb i j); eauto.
  - destruct (core_add_hist j hd s) as [_ [_ [<- _]]]. eauto.
  - rewrite put_iteration_bests. eauto.
  - destruct (core_clear j s) as [_ [_ [<- _]]]. eauto.
  - destruct (core_meta j k v s) as [_ [_ [<- _]]]. eauto.
  - destruct (core_msg j m s) as [_ [_ [<- _]]]. eauto.
Qed.

Lemma keeps_cons i o ops : keeps i (o :: ops) = true -> keeps i [o] = true /\ keeps i ops = true.
Proof. unfold keeps. cbn. rewrite andb_true_r. intro H. apply andb_true_iff in H. exact H. Qed.

Lemma HInv_step i ks h s o : HInv i ks h s -> keeps i [o] = true -> HInv i ks (h ++ evals [o]) (snd (lstep o s)).
Proof.
  intros [Hok [Hc [[a Ha] [e [ids [He [Hpos Hcols]]]]]]] Hk.
  split; [apply addr_ok_step, Hok|]. split; [rewrite lstep_count, app_length, Hc; reflexivity|].
  split; [eapply lstep_bests_keep, Ha|].
  destruct (match target o with Some j => Nat.eqb j i | None => false end) eqn:Et.
  - (* operation on [i] itself *)
    destruct o as [j ty t|j hd|r|j|j k v|j m]; cbn [target] in Et; cbn in Hk; rewrite ?andb_true_r in Hk.
    + rewrite Et in Hk. discriminate.
    + rewrite Et in Hk. discriminate.
    + apply Nat.eqb_eq in Et. subst i.
      destruct (put_iteration_parts r s a Hok Ha) as [s3 [H3 [_ [_ [Hst [_ Hc3]]]]]]. cbn [lstep].
      rewrite H3. unfold put_row. rewrite Hst, He. cbn. rewrite nget_nset_same.
      eexists _, (ids ++ [S (length h)]). split; [reflexivity|]. split; [apply positions_take; auto|].
      cbn. rewrite Hcols, own_snoc, Nat.eqb_refl, Hc3, Hc. apply zip_hist.
    + destruct j as [[|j]|]; try discriminate. rewrite Et in Hk. discriminate.
    + apply Nat.eqb_eq in Et. subst j. cbn [lstep evals]. rewrite app_nil_r. unfold put_metadata. rewrite He. cbn.
      rewrite nget_nset_same. eexists _, ids. split; [reflexivity|]. split; [exact Hpos| exact Hcols].
    + apply Nat.eqb_eq in Et. subst j. cbn [lstep evals]. rewrite app_nil_r. unfold put_message. rewrite He. cbn.
      rewrite nget_nset_same. eexists _, ids. split; [reflexivity|]. split; [exact Hpos| exact Hcols].
  - exists e, ids. rewrite lstep_other.
    + split; [exact He|]. destruct o as [j ty t|j hd|r|j|j k v|j m]; cbn [evals]; rewrite ?app_nil_r; auto.
      cbn [target] in Et. apply Nat.eqb_neq in Et. split; [apply positions_skip; assumption|].
      rewrite own_snoc. apply Nat.eqb_neq in Et. rewrite Et, app_nil_r. exact Hcols.
    + destruct (target o); [|discriminate]. apply Nat.eqb_neq in Et. congruence.
    + destruct o as [j ty t|j hd|r|j|j k v|j m]; cbn [target]; try discriminate.
      destruct j as [[|j]|]; cbn in Hk; rewrite ?andb_false_r in Hk; discriminate.
Qed.

Lemma HInv_exec i ks ops : forall h s, HInv i ks h s -> keeps i ops = true -> HInv i ks (h ++ evals ops) (lexec ops s).
Proof.
  induction ops as [|o ops IH]; intros h s H Hk; [cbn; rewrite app_nil_r; exact H|].
  apply keeps_cons in Hk as [Ho Hk]. rewrite lexec_cons.
  replace (h ++ evals (o :: ops)) with ((h ++ evals [o]) ++ evals ops)
    by (rewrite <- app_assoc, <- evals_app; reflexivity).
  apply IH; [apply HInv_step; assumption| exact Hk].
Qed.

(** State of optimizer [i] between registration and the opening of its history. *)
Definition RInv (i : nat) (s : logger) : Prop :=
  addr_ok s /\ (exists a, nget i (l_bests s) = Some a) /\ exists e, nget i (l_store s) = Some e /\ e_cols e = [].

Lemma RInv_step i s o : RInv i s -> keeps i [o] = true -> no_eval_of i [o] = true -> RInv i (snd (lstep o s)).
Proof.
  intros [Hok [[a Ha] [e [He Hcols]]]] Hk Hn.
  split; [apply addr_ok_step, Hok|]. split; [eapply lstep_bests_keep, Ha|].
  destruct (match target o with Some j => Nat.eqb j i | None => false end) eqn:Et.
  - destruct o as [j ty t|j hd|r|j|j k v|j m]; cbn [target] in Et; cbn in Hk, Hn; rewrite ?andb_true_r in Hk, Hn;
      try (rewrite Et in Hk; discriminate).
    + rewrite Et in Hn. discriminate.
    + destruct j as [[|j]|]; try discriminate. rewrite Et in Hk. discriminate.
    + apply Nat.eqb_eq in Et. subst j. cbn [lstep]. unfold put_metadata. rewrite He. cbn.
      rewrite nget_nset_same. eexists. split; [reflexivity|]. exact Hcols.
    + apply Nat.eqb_eq in Et. subst j. cbn [lstep]. unfold put_message. rewrite He. cbn.
      rewrite nget_nset_same. eexists. split; [reflexivity|]. exact Hcols.
  - exists e. rewrite lstep_other; [auto| |].
    + destruct (target o); [|discriminate]. apply Nat.eqb_neq in Et. congruence.
    + destruct o as [j ty t|j hd|r|j|j k v|j m]; cbn [target]; try discriminate.
      destruct j as [[|j]|]; cbn in Hk; rewrite ?andb_false_r in Hk; discriminate.
Qed.

Lemma RInv_exec i ops : forall s, RInv i s -> keeps i ops = true -> no_eval_of i ops = true -> RInv i (lexec ops s).
Proof.
  induction ops as [|o ops IH]; intros s H Hk Hn; [exact H|].
  apply keeps_cons in Hk as [Ho Hk]. unfold no_eval_of in Hn. cbn in Hn. apply andb_true_iff in Hn as [Hno Hn].
  rewrite lexec_cons. apply IH; auto. apply RInv_step; auto. unfold no_eval_of. cbn. rewrite andb_true_r. exact Hno.
Qed.

Lemma own_none i ops : no_eval_of i ops = true -> own i (evals ops) = [].
Proof.
  induction ops as [|o ops IH]; cbn; [reflexivity|]. intro H. apply andb_true_iff in H as [Ho H].
  destruct o; auto. cbn. apply negb_true_iff in Ho. rewrite Ho. auto.
Qed.

Lemma positions_none i h : own i h = [] -> positions_of i h [].
Proof.
  intro H. split; [constructor|]. intro k. split; [intros []|]. intros [r [_ [Hn Ho]]].
  apply nth_error_In in Hn. assert (Hin : In r (own i h)).
  { unfold own. apply filter_In. split; [exact Hn| apply Nat.eqb_eq, Ho]. }
  rewrite H in Hin. destruct Hin.
Qed.

Definition script (pre mid post : list lop) (i : nat) (ty t : string) (hd : list string) : list lop :=
  pre ++ [AddOpt i ty t] ++ mid ++ [AddHist i hd] ++ post.

Lemma own_app i a b : own i (a ++ b) = own i a ++ own i b.
Proof. apply filter_app. Qed.

Lemma HInv_script traj pre mid post i ty t hd :
  no_eval_of i pre = true -> no_eval_of i mid = true -> keeps i mid = true -> keeps i post = true ->
  exists ks, HInv i ks (evals (script pre mid post i ty t hd)) (lexec (script pre mid post i ty t hd) (log_init traj)) /\
  (NoDup hd -> (forall k, In k hd -> ~ In k base_headers) -> ks = hd).
Proof.
  intros Hpre Hmid Hkm Hkp. unfold script. rewrite !lexec_app, !evals_app.
  set (s0 := lexec pre (log_init traj)).
  assert (Hc0 : l_count s0 = length (evals pre)) by (unfold s0; rewrite lexec_count; reflexivity).
  assert (Hok0 : addr_ok s0) by (apply addr_ok_exec, addr_ok_init).
  set (s1 := lexec [AddOpt i ty t] s0).
  assert (HR : RInv i s1).
  { split; [apply (addr_ok_exec [AddOpt i ty t]), Hok0|]. unfold s1. cbn. rewrite !nget_nset_same. eauto. }
  assert (HR2 : RInv i (lexec mid s1)) by (apply RInv_exec; assumption).
  set (s2 := lexec mid s1) in *. destruct HR2 as [Hok2 [Ha2 [e [He Hcols]]]].
  destruct (reset_cols_init hd) as [ks [Hks Hkk]].
  exists ks. split; [|exact Hkk]. rewrite !app_assoc. apply HInv_exec; [|exact Hkp].
  assert (Hown : own i (((evals pre ++ evals [AddOpt i ty t]) ++ evals mid) ++ evals [AddHist i hd]) = []).
  { rewrite !own_app, (own_none _ _ Hpre), (own_none _ _ Hmid). reflexivity. }
  split; [apply (addr_ok_exec [AddHist i hd]), Hok2|]. split.
  - change (lexec [AddHist i hd] s2) with (snd (lstep (AddHist i hd) s2)). rewrite lstep_count. unfold s2, s1.
    rewrite !lexec_count, Hc0, !app_length. cbn. lia.
  - set (hh := ((evals pre ++ _) ++ _) ++ _) in *. clearbody hh.
    cbn [lexec fold_left lstep]. unfold add_iter_history. rewrite He. cbn. rewrite nget_nset_same.
    split; [exact Ha2|]. eexists _, []. split; [reflexivity|]. split; [apply positions_none, Hown|].
    rewrite Hown, Hcols. exact Hks.
Qed.

Lemma sget_ext k ks : forall j0 h j, NoDup ks -> nth_error ks j = Some k -> sget k (ext_cols j0 ks h) = Some (map CF (extra_col (j0 + j) h)).
Proof.
  induction ks as [|k0 ks IH]; intros j0 h [|j] Hnd Hj; cbn in *; try discriminate.
  - injection Hj as ->. rewrite String.eqb_refl, Nat.add_0_r. reflexivity.
  - inversion Hnd as [|? ? Hk Hnd']; subst. destruct (String.eqb_spec k k0) as [->|Hne].
    + exfalso. apply Hk. eapply nth_error_In, Hj.
    + rewrite (IH (S j0) h j Hnd' Hj). do 3 f_equal. lia.
Qed.

Lemma log_history traj pre mid post i ty t hd :
  no_eval_of i pre = true -> no_eval_of i mid = true -> keeps i mid = true -> keeps i post = true ->
  let ops := pre ++ [AddOpt i ty t] ++ mid ++ [AddHist i hd] ++ post in
  let s := lexec ops (log_init traj) in
  (exists ids, get_history i "call_id" s = Ok (map CId ids) /\ positions_of i (evals ops) ids) /\
  get_history i "x" s = Ok (map CX (map ir_x (own i (evals ops)))) /\
  get_history i "fx" s = Ok (map CF (map ir_fx (own i (evals ops)))) /\
  len_opt i s = length (own i (evals ops)) /\
  (NoDup hd -> (forall k, In k hd -> ~ In k ["call_id"; "x"; "fx"]) ->
   forall j k, nth_error hd j = Some k ->
   get_history i k s = Ok (map CF (extra_col j (own i (evals ops))))).
Proof.
  intros Hpre Hmid Hkm Hkp ops s.
  destruct (HInv_script traj pre mid post i ty t hd Hpre Hmid Hkm Hkp) as [ks [[_ [_ [_ [e [ids [He [Hpos Hcols]]]]]]] Hks]].
  unfold script in He, Hpos, Hcols. fold ops in He, Hpos, Hcols. fold s in He.
  assert (Hhas : has_iter_history i s = true).
  { unfold has_iter_history. rewrite He. unfold dmem. rewrite Hcols. reflexivity. }
  unfold get_history, len_opt. rewrite Hhas, He, Hcols. repeat split.
  - exists ids. split; [reflexivity| exact Hpos].
  - cbn. rewrite !map_length. reflexivity.
  - intros Hnd Hd j k Hj. rewrite (Hks Hnd Hd). unfold hist_cols.
    assert (Hk : ~ In k ["call_id"; "x"; "fx"]%string) by (apply Hd; eapply nth_error_In, Hj).
    cbn [dget]. destruct (String.eqb_spec k "call_id"); [exfalso; apply Hk; subst; cbn; auto|].
    destruct (String.eqb_spec k "x"); [exfalso; apply Hk; subst; cbn; auto|].
    destruct (String.eqb_spec k "fx"); [exfalso; apply Hk; subst; cbn; auto|].
    rewrite (sget_ext k hd 0 _ j Hnd Hj). reflexivity.
Qed.

(** ** Clearing *)
Lemma NoDup_store_step o s : NoDup (dkeys (l_store s)) -> NoDup (dkeys (l_store (snd (lstep o s)))).
Proof.
  intro H. destruct o as [j ty t|j hd|r|j|j k v|j m]; cbn [lstep].
  - apply NoDup_nset, H.
  - unfold add_iter_history. destruct (nget j (l_store s)); [apply NoDup_nset, H| exact H].
  - destruct (put_iteration_store r s) as [->|[e [e' [_ ->]]]]; [exact H| apply NoDup_nset, H].
  - unfold clear_cache. destruct (l_traj s); [exact H|]. destruct j as [[|j]|]; try constructor.
    destruct (nmemd (S j) (l_store s)); [apply NoDup_ndel, H| exact H].
  - unfold put_metadata. destruct (nget j (l_store s)); [apply NoDup_nset, H| exact H].
  - unfold put_message. destruct (nget j (l_store s)); [apply NoDup_nset, H| exact H].
Qed.

Lemma NoDup_store ops : forall s, NoDup (dkeys (l_store s)) -> NoDup (dkeys (l_store (lexec ops s))).
Proof. induction ops as [|o ops IH]; intros s H; [exact H|]. rewrite lexec_cons. apply IH, NoDup_store_step, H. Qed.

Lemma log_clear ops i : i <> 0 ->
  let s := lexec ops (log_init false) in
  let s' := snd (clear_cache (Some i) s) in
  (forall tr, get_history i tr s' = Ok []) /\ log_contains i s' = false /\
  (forall k, get_best_iter k s' = get_best_iter k s) /\ log_len s' = log_len s /\ largest_eval s' = largest_eval s /\
  (forall j tr, j <> i -> get_history j tr s' = get_history j tr s).
Proof.
  intros Hi s s'. assert (Htr : l_traj s = false).
  { unfold s. clear. change false with (l_traj (log_init false)) at 2. generalize (log_init false).
    induction ops as [|o ops IH]; intro s; [reflexivity|]. rewrite lexec_cons, IH.
    destruct o as [j ty t|j hd|r|j|j k v|j m]; cbn [lstep]; try reflexivity.
    - unfold add_iter_history. destruct (nget j (l_store s)); reflexivity.
    - apply put_iteration_traj.
    - unfold clear_cache. destruct (l_traj s) eqn:E; [cbn; congruence|]. destruct j as [[|j]|]; cbn; try exact E.
      destruct (nmemd (S j) (l_store s)); exact E.
    - unfold put_metadata. destruct (nget j (l_store s)); reflexivity.
    - unfold put_message. destruct (nget j (l_store s)); reflexivity. }
  assert (Hnd : NoDup (dkeys (l_store s))) by (apply NoDup_store; constructor).
  assert (Hst : nget i (l_store s') = None /\ forall j, j <> i -> nget j (l_store s') = nget j (l_store s)).
  { unfold s', clear_cache. rewrite Htr. destruct i as [|i]; [congruence|].
    destruct (nmemd (S i) (l_store s)) eqn:E; cbn.
    - split; [apply nget_ndel_same, Hnd|]. intros j Hj. apply nget_ndel_other, Hj.
    - split; [apply nget_none, nmemd_false, E| reflexivity]. }
  destruct Hst as [Hn Ho]. destruct (core_clear (Some i) s) as [H1 [H2 [H3 [H4 H5]]]]. fold s' in H1, H2, H3, H4, H5.
  unfold get_history, has_iter_history, log_contains, dmem, get_best_iter, log_len, largest_eval.
  rewrite Hn, <- H1, <- H2, <- H3, <- H4, <- H5. repeat split; auto. intros j tr Hj. rewrite (Ho j Hj). reflexivity.
Qed.
