(** * Proofs about the results queue *)
From Verif Require Import Prelude Prelude_Proofs Queue_Model Queue_Spec.

Section Proofs.
Context {I : Type}.
Variables maxsize chunk_size : nat.
Notation qstep := (qstep I maxsize chunk_size).
Notation thread_step := (thread_step I maxsize chunk_size).
Notation queue := (queue I).
Notation reachable := (@reachable I maxsize chunk_size).

Lemma reachable_init : reachable (q_init I).
Proof. exists []. reflexivity. Qed.

Lemma reachable_step s a s' : reachable s -> qstep a s = Some s' -> reachable s'.
Proof.
  intros [l ->] H. exists (l ++ [a]). unfold qrun. rewrite fold_left_app. cbn. unfold qrun1 at 1. unfold qrun in H. rewrite H. reflexivity.
Qed.

Lemma reachable_ind (P : queue -> Prop) : P (q_init I) ->
  (forall s a s', reachable s -> P s -> qstep a s = Some s' -> P s') -> forall s, reachable s -> P s.
Proof.
  intros H0 Hs s [l ->]. induction l as [|a l IH] using rev_ind; [exact H0|].
  unfold qrun in *. rewrite fold_left_app. cbn. unfold qrun1 at 1.
  destruct (qstep a _) as [s'|] eqn:E; [|exact IH]. eapply Hs; [|exact IH|exact E]. exists l. reflexivity.
Qed.

(** ** Layer 1: structure *)
Definition holds (c : pc) : bool := match c with PFullSet | PFullAppend | PAppend | PCheck | PSend | PReset => true | _ => false end.
Definition needs_fast (c : pc) : bool := match c with PFullAppend | PLock | PAppend | PCheck | PSend | PReset => true | _ => false end.
Definition fits (c : pc) (o : op I) : Prop :=
  match c with
  | PStart | PLock => True
  | PDirect => match o with OPut _ _ | OPutNowait _ => True | _ => False end
  | PFullLock | PFullSet | PFullAppend | PCheck => match o with OPutNowait _ => True | _ => False end
  | PAppend => match o with OFlush _ => False | _ => True end
  | PSend | PReset => match o with OPutInCache _ => False | _ => True end
  end.

Record str (s : queue) : Prop := mkStr {
  st_cache : q_cache s < length (q_heap s);
  st_chunks : forall a, In a (q_chunks s) -> a < length (q_heap s) /\ (q_moved s = false -> a <> q_cache s);
  st_got : forall a, q_got s = Some a -> a < length (q_heap s) /\ (q_moved s = false -> a <> q_cache s);
  st_lock : forall p, q_lock s = Some p -> exists t, q_thr s p = Some t /\ holds (t_pc t) = true;
  st_holds : forall p t, q_thr s p = Some t -> holds (t_pc t) = true -> q_lock s = Some p;
  st_reset : forall p t, q_thr s p = Some t -> t_pc t = PReset -> q_moved s = true;
  st_moved : q_moved s = true -> exists p t, q_thr s p = Some t /\ t_pc t = PReset;
  st_fast : q_fast s = false -> content (q_cache s) s = [] /\ q_moved s = false;
  st_need : forall p t, q_thr s p = Some t -> needs_fast (t_pc t) = true -> q_fast s = true;
  st_fits : forall p t, q_thr s p = Some t -> fits (t_pc t) (t_op t)
}.

Lemma q_upd_same p t f : q_upd I p t f p = t.
Proof. unfold q_upd. rewrite Nat.eqb_refl. reflexivity. Qed.
Lemma q_upd_other p q t f : q <> p -> q_upd I p t f q = f q.
Proof. unfold q_upd. intro H. apply Nat.eqb_neq in H. rewrite H. reflexivity. Qed.

Lemma heap_append_length a e (h : list (list (nat * I))) : length (heap_append I a e h) = length h.
Proof. revert a. induction h as [|c h IH]; intros [|a]; cbn; auto. Qed.
Lemma heap_append_same a e (h : list (list (nat * I))) : a < length h -> nth a (heap_append I a e h) [] = nth a h [] ++ [e].
Proof. revert a. induction h as [|c h IH]; intros [|a]; cbn; intro H; try lia; auto. apply IH. lia. Qed.
Lemma heap_append_other a b e (h : list (list (nat * I))) : b <> a -> nth b (heap_append I a e h) [] = nth b h [].
Proof.
  revert a b. induction h as [|c h IH]; intros [|a] [|b]; cbn; intro H; try congruence; auto.
Qed.
Lemma nth_snoc_old {A} a (h : list A) x d : a < length h -> nth a (h ++ [x]) d = nth a h d.
Proof. intro H. apply app_nth1, H. Qed.
Lemma nth_snoc_new {A} (h : list A) x d : nth (length h) (h ++ [x]) d = x.
Proof. rewrite app_nth2 by lia. rewrite Nat.sub_diag. reflexivity. Qed.

Ltac updcase := repeat match goal with
  | H : context [q_upd I ?p _ _ ?q] |- _ => unfold q_upd in H; destruct (Nat.eqb_spec q p) as [->|]
  | |- context [q_upd I ?p _ _ ?q] => unfold q_upd; destruct (Nat.eqb_spec q p) as [->|]
  end.

(** Every step of a call, one case each. *)
Lemma thread_step_cases p t tmo s s' : thread_step p t tmo s = Some s' ->
  match t_pc t with
  | PStart =>
      (match t_op t with
       | OPut _ _ | OPutNowait _ => s' = go I p t (if q_fast s then PLock else PDirect) s
       | OPutInCache _ => s' = go I p t PLock (set_fast I true s)
       | OFlush _ => q_fast s = true /\ s' = go I p t PLock s \/ q_fast s = false /\ s' = ret_ok I p t s
       end)
  | PDirect => exists it, op_item (t_op t) = Some it /\
      (s' = ret_ok I p t (set_chunks I (q_chunks s ++ [length (q_heap s)]) (qset_heap I (q_heap s ++ [[(t_id t, it)]]) s)) \/
       s' = ret_full I p t s \/ (s' = go I p t PFullLock s /\ t_op t = OPutNowait it))
  | PFullLock => q_lock s = None /\ s' = go I p t PFullSet (set_lock I (Some p) s)
  | PFullSet => s' = go I p t PFullAppend (set_fast I true s)
  | PFullAppend => exists it, op_item (t_op t) = Some it /\
      s' = ret_ok I p t (set_lock I None (qset_heap I (heap_append I (q_cache s) (t_id t, it) (q_heap s)) s))
  | PLock => q_lock s = None /\ s' = go I p t (match t_op t with OFlush _ => PSend | _ => PAppend end) (set_lock I (Some p) s)
  | PAppend => exists it, op_item (t_op t) = Some it /\
      let s1 := qset_heap I (heap_append I (q_cache s) (t_id t, it) (q_heap s)) s in
      match t_op t with
      | OPut _ _ => s' = go I p t PSend s1
      | OPutNowait _ => s' = go I p t PCheck s1
      | _ => s' = ret_ok I p t (set_lock I None s1)
      end
  | PCheck => s' = go I p t PSend s \/ s' = ret_ok I p t (set_lock I None s)
  | PSend => s' = go I p t PReset (set_moved I true (set_chunks I (q_chunks s ++ [q_cache s]) s)) \/ s' = ret_full I p t (set_lock I None s)
  | PReset => s' = ret_ok I p t (set_lock I None (set_moved I false (set_cache I (length (q_heap s)) (qset_heap I (q_heap s ++ [[]]) s))))
  end.
Proof.
  unfold Queue_Model.thread_step. destruct (t_pc t).
  - destruct (t_op t); try (intros [= <-]; reflexivity). destruct (q_fast s); intros [= <-]; auto.
  - destruct (t_op t) as [m it|it|it|m]; try discriminate; intro H; exists it; (split; [reflexivity|]).
    + destruct (room _ _ s); [injection H as <-; auto|]. destruct m, tmo; try discriminate; injection H as <-; auto.
    + destruct (room _ _ s); injection H as <-; auto.
  - destruct (q_lock s); intros H; try discriminate; injection H as <-; auto.
  - intros [= <-]; reflexivity.
  - destruct (op_item (t_op t)) as [it|]; intro H; try discriminate; injection H as <-; eauto.
  - destruct (q_lock s); intros H; try discriminate; injection H as <-; auto.
  - destruct (op_item (t_op t)) as [it|] eqn:E; intro H; try discriminate. exists it. split; [reflexivity|].
    cbv zeta. destruct (t_op t); injection H as <-; reflexivity.
  - destruct (Nat.leb _ _); intros [= <-]; auto.
  - destruct (room _ _ s); [intros [= <-]; auto|]. destruct (op_mode _ (t_op t)), tmo; intro H; try discriminate; injection H as <-; auto.
  - intros [= <-]; reflexivity.
Qed.

Lemma str_init : str (q_init I).
Proof. constructor; cbn; intros; try discriminate; try contradiction; try lia; auto. Qed.

(** [s'] differs from [s] in the call of [p] (and possibly in history variables). *)
Lemma str_step s a s' : str s -> qstep a s = Some s' -> str s'.
Proof.
  intros [Hc Hch Hg Hl Hh Hr Hm Hf Hn Hfi] H. destruct a as [p o|p tmo| |]; cbn in H.
  - destruct (q_thr s p) eqn:Ep; [discriminate|]. injection H as <-. constructor; cbn; auto.
    + intros q Hq. destruct (Hl q Hq) as [t [Ht Hht]]. exists t. updcase; [congruence|]. auto.
    + intros q t Hq Hht. updcase; [injection Hq as <-; discriminate|]. eauto.
    + intros q t Hq Hht. updcase; [injection Hq as <-; discriminate|]. eauto.
    + intro Hmv. destruct (Hm Hmv) as [q [t [Hq Ht]]]. exists q, t. updcase; [congruence|]. auto.
    + intros q t Hq Hht. updcase; [injection Hq as <-; discriminate|]. eauto.
    + intros q t Hq. updcase; [injection Hq as <-; exact Logic.I|]. eauto.
  - destruct (q_thr s p) as [t|] eqn:Ep; [|discriminate]. pose proof (Hfi p t Ep) as Hfit. pose proof (Hh p t Ep) as Hhold.
    pose proof (Hn p t Ep) as Hneed. pose proof (Hr p t Ep) as Hres.
    assert (Hexcl : holds (t_pc t) = true -> forall q u, q <> p -> q_thr s q = Some u -> holds (t_pc u) = false).
    { intros Hht q u Hqp Hq. destruct (holds (t_pc u)) eqn:E; [|reflexivity]. specialize (Hh q u Hq E). rewrite (Hhold Hht) in Hh. congruence. }
    assert (Hnm : t_pc t <> PReset -> holds (t_pc t) = true -> q_moved s = false).
    { intros Hne Hht. destruct (q_moved s) eqn:E; [|reflexivity]. destruct (Hm eq_refl) as [q [u [Hq Hu]]].
      destruct (Nat.eq_dec q p) as [->|Hqp]; [congruence|]. specialize (Hexcl Hht q u Hqp Hq). rewrite Hu in Hexcl. discriminate. }
    apply thread_step_cases in H. destruct t as [n o c]. cbn [t_pc t_op t_id] in *. destruct c; cbn [holds needs_fast fits] in *.
    + (* PStart *)
      assert (Hgo : forall c b, holds c = false -> c <> PReset -> fits c o -> (needs_fast c = true -> b = true) -> (q_fast s = true -> b = true) ->
                    str (go I p (mkT n o PStart) c (set_fast I b s))).
      { intros c b H1 H2 H3 H4 H5. constructor; cbn; auto.
        - intros q Hq. destruct (Hl q Hq) as [u [Hu Hhu]]. exists u. updcase; [rewrite Ep in Hu; injection Hu as <-; discriminate|]. auto.
        - intros q u Hq Hhu. updcase; [injection Hq as <-; cbn in *; congruence|]. eauto.
        - intros q u Hq Hhu. updcase; [injection Hq as <-; cbn in *; congruence|]. eauto.
        - intro Hmv. destruct (Hm Hmv) as [q [u [Hq Hu]]]. exists q, u. updcase; [rewrite Ep in Hq; injection Hq as <-; discriminate|]. auto.
        - intros ->. destruct (q_fast s) eqn:E; [discriminate (H5 eq_refl)|]. auto.
        - intros q u Hq Hhu. updcase; [injection Hq as <-; auto|]. apply H5. eauto.
        - intros q u Hq. updcase; [injection Hq as <-; auto|]. eauto. }
      assert (Hgo' : forall c, holds c = false -> c <> PReset -> fits c o -> (needs_fast c = true -> q_fast s = true) -> str (go I p (mkT n o PStart) c s)).
      { intros c H1 H2 H3 H4. specialize (Hgo c (q_fast s) H1 H2 H3 H4 (fun x => x)). destruct s; exact Hgo. }
      destruct o as [m it|it|it|m].
      * subst s'. destruct (q_fast s) eqn:Ef; apply Hgo'; cbn; auto; discriminate.
      * subst s'. destruct (q_fast s) eqn:Ef; apply Hgo'; cbn; auto; discriminate.
      * subst s'. apply Hgo; cbn; auto; discriminate.
      * destruct H as [[Ef ->]|[Ef ->]].
        -- apply Hgo'; cbn; auto; discriminate.
        -- constructor; cbn; auto.
           ++ intros q Hq. destruct (Hl q Hq) as [u [Hu Hhu]]. exists u. updcase; [rewrite Ep in Hu; injection Hu as <-; discriminate|]. auto.
           ++ intros q u Hq Hhu. updcase; [discriminate|]. eauto.
           ++ intros q u Hq Hhu. updcase; [discriminate|]. eauto.
           ++ intro Hmv. destruct (Hm Hmv) as [q [u [Hq Hu]]]. exists q, u. updcase; [rewrite Ep in Hq; injection Hq as <-; discriminate|]. auto.
           ++ intros q u Hq Hhu. updcase; [discriminate|]. eauto.
           ++ intros q u Hq. updcase; [discriminate|]. eauto.
    + (* PDirect *)
      destruct H as [it [Ei [->|[->|[-> Eo]]]]].
      * constructor; cbn; try rewrite app_length; cbn; auto; try lia.
        -- intros b Hb. apply in_app_iff in Hb as [Hb|[<-|[]]].
           ++ destruct (Hch b Hb). split; [lia|auto].
           ++ split; [lia|]. intros _. lia.
        -- intros b Hb. destruct (Hg b Hb). split; [lia|auto].
        -- intros q Hq. destruct (Hl q Hq) as [u [Hu Hhu]]. exists u. updcase; [rewrite Ep in Hu; injection Hu as <-; discriminate|]. auto.
        -- intros q u Hq Hhu. updcase; [discriminate|]. eauto.
        -- intros q u Hq Hhu. updcase; [discriminate|]. eauto.
        -- intro Hmv. destruct (Hm Hmv) as [q [u [Hq Hu]]]. exists q, u. updcase; [rewrite Ep in Hq; injection Hq as <-; discriminate|]. auto.
        -- intro Ef. unfold content; cbn. rewrite nth_snoc_old by assumption. auto.
        -- intros q u Hq Hhu. updcase; [discriminate|]. eauto.
        -- intros q u Hq. updcase; [discriminate|]. eauto.
      * constructor; cbn; auto.
        -- intros q Hq. destruct (Hl q Hq) as [u [Hu Hhu]]. exists u. updcase; [rewrite Ep in Hu; injection Hu as <-; discriminate|]. auto.
        -- intros q u Hq Hhu. updcase; [discriminate|]. eauto.
        -- intros q u Hq Hhu. updcase; [discriminate|]. eauto.
        -- intro Hmv. destruct (Hm Hmv) as [q [u [Hq Hu]]]. exists q, u. updcase; [rewrite Ep in Hq; injection Hq as <-; discriminate|]. auto.
        -- intros q u Hq Hhu. updcase; [discriminate|]. eauto.
        -- intros q u Hq. updcase; [discriminate|]. eauto.
      * subst o. constructor; cbn; auto.
        -- intros q Hq. destruct (Hl q Hq) as [u [Hu Hhu]]. exists u. updcase; [rewrite Ep in Hu; injection Hu as <-; discriminate|]. auto.
        -- intros q u Hq Hhu. updcase; [injection Hq as <-; discriminate|]. eauto.
        -- intros q u Hq Hhu. updcase; [injection Hq as <-; discriminate|]. eauto.
        -- intro Hmv. destruct (Hm Hmv) as [q [u [Hq Hu]]]. exists q, u. updcase; [rewrite Ep in Hq; injection Hq as <-; discriminate|]. auto.
        -- intros q u Hq Hhu. updcase; [injection Hq as <-; discriminate|]. eauto.
        -- intros q u Hq. updcase; [injection Hq as <-; cbn; auto|]. eauto.
    + (* PFullLock *)
      destruct H as [El ->]. constructor; cbn; auto.
      * intros q [= <-]. eexists. rewrite q_upd_same. split; reflexivity.
      * intros q u Hq Hhu. updcase; [reflexivity|]. specialize (Hh q u Hq Hhu). congruence.
      * intros q u Hq Hhu. updcase; [injection Hq as <-; discriminate|]. eauto.
      * intro Hmv. destruct (Hm Hmv) as [q [u [Hq Hu]]]. exists q, u. updcase; [rewrite Ep in Hq; injection Hq as <-; discriminate|]. auto.
      * intros q u Hq Hhu. updcase; [injection Hq as <-; discriminate|]. eauto.
      * intros q u Hq. updcase; [injection Hq as <-; cbn; auto|]. eauto.
    + (* PFullSet *)
      subst s'. constructor; cbn; auto.
      * intros q Hq. rewrite (Hhold eq_refl) in Hq. injection Hq as <-. eexists. rewrite q_upd_same. split; reflexivity.
      * intros q u Hq Hhu. updcase; [auto|]. eauto.
      * intros q u Hq Hhu. updcase; [injection Hq as <-; discriminate|]. eauto.
      * intro Hmv. rewrite (Hnm ltac:(discriminate) eq_refl) in Hmv. discriminate.
      * intro Hx. discriminate.
      * intros q u Hq. updcase; [injection Hq as <-; cbn; auto|]. eauto.
    + (* PFullAppend *)
      destruct H as [it [Ei ->]]. pose proof (Hnm ltac:(discriminate) eq_refl) as Hmv0. constructor; cbn; rewrite ?heap_append_length; auto.
      * discriminate.
      * intros q u Hq Hhu. updcase; [discriminate|]. rewrite (Hexcl eq_refl q u) in Hhu; auto. discriminate.
      * intros q u Hq Hhu. updcase; [discriminate|]. eauto.
      * intro Hmv. congruence.
      * intro Ef. rewrite (Hneed eq_refl) in Ef. discriminate.
      * intros q u Hq. updcase; [discriminate|]. eauto.
    + (* PLock *)
      destruct H as [El ->]. set (c := match o with OFlush _ => PSend | _ => PAppend end).
      assert (Hc1 : holds c = true /\ needs_fast c = true /\ c <> PReset /\ fits c o) by (subst c; destruct o; cbn; splits; auto; discriminate).
      destruct Hc1 as [Hc1 [Hc2 [Hc3 Hc4]]]. clearbody c. constructor; cbn; auto.
      * intros q [= <-]. eexists. rewrite q_upd_same. split; [reflexivity|exact Hc1].
      * intros q u Hq Hhu. updcase; [reflexivity|]. specialize (Hh q u Hq Hhu). congruence.
      * intros q u Hq Hhu. updcase; [injection Hq as <-; cbn in *; congruence|]. eauto.
      * intro Hmv. destruct (Hm Hmv) as [q [u [Hq Hu]]]. exists q, u. updcase; [rewrite Ep in Hq; injection Hq as <-; discriminate|]. auto.
      * intros q u Hq. updcase; [injection Hq as <-; cbn; auto|]. eauto.
    + (* PAppend *)
      pose proof (Hnm ltac:(discriminate) eq_refl) as Hmv0. destruct H as [it [Ei H]]. cbv zeta in H.
      assert (Hgo : forall c, holds c = true -> c <> PReset -> fits c o ->
                str (go I p (mkT n o PAppend) c (qset_heap I (heap_append I (q_cache s) (n, it) (q_heap s)) s))).
      { intros c H1 H2 H3. constructor; cbn; rewrite ?heap_append_length; auto.
        - intros q Hq. rewrite (Hhold eq_refl) in Hq. injection Hq as <-. eexists. rewrite q_upd_same. split; [reflexivity|exact H1].
        - intros q u Hq Hhu. updcase; [auto|]. eauto.
        - intros q u Hq Hhu. updcase; [injection Hq as <-; cbn in *; congruence|]. eauto.
        - congruence.
        - intro Ef. rewrite (Hneed eq_refl) in Ef. discriminate.
        - intros q u Hq. updcase; [injection Hq as <-; cbn; auto|]. eauto. }
      destruct o as [m it'|it'|it'|m]; try contradiction.
      * subst s'. apply Hgo; [reflexivity|discriminate|exact Logic.I].
      * subst s'. apply Hgo; [reflexivity|discriminate|exact Logic.I].
      * subst s'. constructor; cbn; rewrite ?heap_append_length; auto.
        -- discriminate.
        -- intros q u Hq Hhu. updcase; [discriminate|]. rewrite (Hexcl eq_refl q u) in Hhu; auto. discriminate.
        -- intros q u Hq Hhu. updcase; [discriminate|]. eauto.
        -- congruence.
        -- intro Ef. rewrite (Hneed eq_refl) in Ef. discriminate.
        -- intros q u Hq. updcase; [discriminate|]. eauto.
    + (* PCheck *)
      pose proof (Hnm ltac:(discriminate) eq_refl) as Hmv0. destruct H as [->| ->].
      * constructor; cbn; auto.
        -- intros q Hq. rewrite (Hhold eq_refl) in Hq. injection Hq as <-. eexists. rewrite q_upd_same. split; reflexivity.
        -- intros q u Hq Hhu. updcase; [auto|]. eauto.
        -- intros q u Hq Hhu. updcase; [injection Hq as <-; discriminate|]. eauto.
        -- congruence.
        -- intros q u Hq. updcase; [injection Hq as <-; cbn; destruct o; auto|]. eauto.
      * constructor; cbn; auto.
        -- discriminate.
        -- intros q u Hq Hhu. updcase; [discriminate|]. rewrite (Hexcl eq_refl q u) in Hhu; auto. discriminate.
        -- intros q u Hq Hhu. updcase; [discriminate|]. eauto.
        -- congruence.
        -- intros q u Hq. updcase; [discriminate|]. eauto.
    + (* PSend *)
      pose proof (Hnm ltac:(discriminate) eq_refl) as Hmv0. destruct H as [->| ->].
      * constructor; cbn; auto.
        -- intros b Hb. split; [|discriminate]. apply in_app_iff in Hb as [Hb|[<-|[]]]; [apply Hch, Hb|exact Hc].
        -- intros b Hb. split; [|discriminate]. apply Hg, Hb.
        -- intros q Hq. rewrite (Hhold eq_refl) in Hq. injection Hq as <-. eexists. rewrite q_upd_same. split; reflexivity.
        -- intros q u Hq Hhu. updcase; [auto|]. eauto.
        -- intros _. exists p. eexists. rewrite q_upd_same. split; reflexivity.
        -- intro Ef. rewrite (Hneed eq_refl) in Ef. discriminate.
        -- intros q u Hq. updcase; [injection Hq as <-; cbn; destruct o; auto|]. eauto.
      * constructor; cbn; auto.
        -- discriminate.
        -- intros q u Hq Hhu. updcase; [discriminate|]. rewrite (Hexcl eq_refl q u) in Hhu; auto. discriminate.
        -- intros q u Hq Hhu. updcase; [discriminate|]. eauto.
        -- congruence.
        -- intros q u Hq. updcase; [discriminate|]. eauto.
    + (* PReset *)
      subst s'. constructor; cbn; rewrite ?app_length; cbn; try lia.
      * intros b Hb. destruct (Hch b Hb). split; [lia|]. intros _. lia.
      * intros b Hb. destruct (Hg b Hb). split; [lia|]. intros _. lia.
      * discriminate.
      * intros q u Hq Hhu. updcase; [discriminate|]. rewrite (Hexcl eq_refl q u) in Hhu; auto. discriminate.
      * intros q u Hq Hhu. updcase; [discriminate|]. assert (Hx : holds (t_pc u) = true) by (rewrite Hhu; reflexivity).
        rewrite (Hexcl eq_refl q u n0 Hq) in Hx. discriminate.
      * intros _. unfold content; cbn. rewrite nth_snoc_new. auto.
      * intros q u Hq Hhu. updcase; [discriminate|]. eauto.
      * intros q u Hq. updcase; [discriminate|]. eauto.
  - destruct (q_got s) eqn:Eg; [discriminate|]. destruct (q_chunks s) as [|c cs] eqn:Ec; [discriminate|]. injection H as <-.
    constructor; cbn; auto.
    + intros a Ha. apply Hch. right. exact Ha.
    + intros a [= <-]. apply Hch. left. reflexivity.
  - destruct (q_got s) as [a|] eqn:Eg; [|discriminate]. injection H as <-. constructor; cbn; auto; try discriminate.
Qed.

Lemma reachable_str s : reachable s -> str s.
Proof. apply reachable_ind; [apply str_init|]. intros; eapply str_step; eassumption. Qed.


(** ** What one step does *)
Definition all (s : queue) : list (nat * I) := q_out s ++ underway s.
Definition front (s : queue) : list (nat * I) := q_out s ++ on_queue s.
Lemma all_split s : all s = front s ++ in_cache s.
Proof. unfold all, front, underway. rewrite app_assoc. reflexivity. Qed.

Lemma content_map (h h' : list (list (nat * I))) l : (forall a, In a l -> nth a h' [] = nth a h []) ->
  concat (map (fun a => nth a h' []) l) = concat (map (fun a => nth a h []) l).
Proof. intro H. f_equal. apply map_ext_in, H. Qed.

Lemma front_eq s s' : q_out s' = q_out s -> q_got s' = q_got s -> q_chunks s' = q_chunks s ->
  (forall a, In a (q_chunks s) \/ q_got s = Some a -> nth a (q_heap s') [] = nth a (q_heap s) []) -> front s' = front s.
Proof.
  intros H1 H2 H3 H4. unfold front, on_queue. rewrite H1, H2, H3. f_equal. unfold content. f_equal.
  - destruct (q_got s); [|reflexivity]. apply H4. auto.
  - apply content_map. auto.
Qed.

(** Nothing is put into the cache or the queue by calls in these positions yet. *)
Definition early (c : pc) : bool := match c with PCheck | PSend | PReset => false | _ => true end.

Definition books (s s' : queue) : Prop := q_next s' = q_next s /\ q_calls s' = q_calls s /\ q_prec s' = q_prec s.

Inductive change (s s' : queue) : Prop :=
  | ch_call p o : q_thr s p = None -> q_thr s' = q_upd I p (Some (mkT (q_next s) o PStart)) (q_thr s) -> q_next s' = S (q_next s) ->
      q_calls s' = (q_next s, (p, o)) :: q_calls s -> q_prec s' = (q_next s, q_done s) :: q_prec s ->
      q_done s' = q_done s -> q_raised s' = q_raised s -> front s' = front s -> in_cache s' = in_cache s -> change s s'
  | ch_idle : books s s' -> q_thr s' = q_thr s -> q_done s' = q_done s -> q_raised s' = q_raised s ->
      front s' = front s -> in_cache s' = in_cache s -> change s s'
  | ch_move p t c : q_thr s p = Some t -> books s s' -> q_thr s' = q_upd I p (Some (mkT (t_id t) (t_op t) c)) (q_thr s) ->
      q_done s' = q_done s -> q_raised s' = q_raised s -> front s' = front s -> in_cache s' = in_cache s ->
      early c = early (t_pc t) \/ op_item (t_op t) = None /\ early c = false -> (c = PDirect -> in_cache s = []) -> change s s'
  | ch_ret p t : q_thr s p = Some t -> books s s' -> q_thr s' = q_upd I p None (q_thr s) -> q_done s' = t_id t :: q_done s ->
      q_raised s' = q_raised s -> front s' = front s -> in_cache s' = in_cache s ->
      early (t_pc t) = false \/ op_item (t_op t) = None -> in_cache s' = [] \/ (forall m it, t_op t <> OPut m it) -> change s s'
  | ch_full p t : q_thr s p = Some t -> books s s' -> q_thr s' = q_upd I p None (q_thr s) -> q_done s' = q_done s ->
      q_raised s' = t_id t :: q_raised s -> front s' = front s -> in_cache s' = in_cache s -> op_mode I (t_op t) <> Block -> change s s'
  | ch_direct p t it : q_thr s p = Some t -> books s s' -> q_thr s' = q_upd I p None (q_thr s) -> q_done s' = t_id t :: q_done s ->
      q_raised s' = q_raised s -> t_pc t = PDirect -> op_item (t_op t) = Some it ->
      front s' = front s ++ [(t_id t, it)] -> in_cache s' = in_cache s -> change s s'
  | ch_append p t it c : q_thr s p = Some t -> books s s' -> q_thr s' = q_upd I p (Some (mkT (t_id t) (t_op t) c)) (q_thr s) -> q_done s' = q_done s ->
      q_raised s' = q_raised s -> early (t_pc t) = true -> early c = false -> op_item (t_op t) = Some it ->
      front s' = front s -> in_cache s' = in_cache s ++ [(t_id t, it)] -> change s s'
  | ch_append_ret p t it : q_thr s p = Some t -> books s s' -> q_thr s' = q_upd I p None (q_thr s) -> q_done s' = t_id t :: q_done s ->
      q_raised s' = q_raised s -> early (t_pc t) = true -> op_item (t_op t) = Some it -> (forall m it, t_op t <> OPut m it) ->
      front s' = front s -> in_cache s' = in_cache s ++ [(t_id t, it)] -> change s s'
  | ch_send p t : q_thr s p = Some t -> books s s' -> q_thr s' = q_upd I p (Some (mkT (t_id t) (t_op t) PReset)) (q_thr s) -> q_done s' = q_done s ->
      q_raised s' = q_raised s -> t_pc t = PSend -> front s' = front s ++ in_cache s -> in_cache s' = [] -> change s s'.

Lemma step_change s a s' : str s -> qstep a s = Some s' -> change s s'.
Proof.
  intros Hst H. pose proof Hst as [Hc Hch Hg Hl Hh Hr Hm Hf Hn Hfi]. destruct a as [p o|p tmo| |]; cbn in H.
  - destruct (q_thr s p) eqn:Ep; [discriminate|]. injection H as <-. eapply ch_call; try reflexivity. exact Ep.
  - destruct (q_thr s p) as [t|] eqn:Ep; [|discriminate]. pose proof (Hfi p t Ep) as Hfit. pose proof (Hh p t Ep) as Hhold.
    assert (Hnm : t_pc t <> PReset -> holds (t_pc t) = true -> q_moved s = false).
    { intros Hne Hht. destruct (q_moved s) eqn:E; [|reflexivity]. destruct (Hm eq_refl) as [q [u [Hq Hu]]].
      assert (Hx : holds (t_pc u) = true) by (rewrite Hu; reflexivity). pose proof (Hh q u Hq Hx) as Hx1. rewrite (Hhold Hht) in Hx1. congruence. }
    assert (Happ : forall e s1, q_moved s = false -> q_out s1 = q_out s -> q_got s1 = q_got s -> q_chunks s1 = q_chunks s -> q_moved s1 = q_moved s -> q_cache s1 = q_cache s ->
              q_heap s1 = heap_append I (q_cache s) e (q_heap s) -> front s1 = front s /\ in_cache s1 = in_cache s ++ [e]).
    { intros e s1 Hmv H1 H2 H3 H4 H5 H6. split.
      - apply front_eq; auto. intros a Ha. rewrite H6. apply heap_append_other.
        destruct Ha as [Ha|Ha]; [apply Hch|apply Hg]; assumption.
      - unfold in_cache, content. rewrite H4, Hmv, H5, H6. apply heap_append_same, Hc. }
    assert (Hdir : forall it s1, q_out s1 = q_out s -> q_got s1 = q_got s -> q_chunks s1 = q_chunks s ++ [length (q_heap s)] -> q_moved s1 = q_moved s -> q_cache s1 = q_cache s ->
              q_heap s1 = q_heap s ++ [[(t_id t, it)]] -> front s1 = front s ++ [(t_id t, it)] /\ in_cache s1 = in_cache s).
    { intros it s1 H1 H2 H3 H4 H5 H6. split.
      - unfold front, on_queue, content. rewrite H1, H2, H3, H6, map_app, concat_app; cbn. rewrite nth_snoc_new, !app_nil_r, !app_assoc. f_equal. f_equal.
        + f_equal. destruct (q_got s) as [b|] eqn:Eg; [|reflexivity]. apply nth_snoc_old, Hg. reflexivity.
        + apply content_map. intros b Hb. apply nth_snoc_old, Hch, Hb.
      - unfold in_cache, content. rewrite H4, H5, H6, nth_snoc_old by assumption. reflexivity. }
    unfold Queue_Model.thread_step in H. destruct (t_pc t) eqn:Epc; cbn [holds fits] in *.
    + destruct (t_op t) eqn:Eo.
      * injection H as <-. eapply ch_move; try eassumption; try reflexivity; try (split; [|split]; reflexivity).
        -- left. rewrite Epc. destruct (q_fast s); reflexivity.
        -- destruct (q_fast s) eqn:Ef; [discriminate|]. intros _. unfold in_cache. destruct (Hf eq_refl) as [H1 H2]. rewrite H1. destruct (q_moved s); reflexivity.
      * injection H as <-. eapply ch_move; try eassumption; try reflexivity; try (split; [|split]; reflexivity).
        -- left. rewrite Epc. destruct (q_fast s); reflexivity.
        -- destruct (q_fast s) eqn:Ef; [discriminate|]. intros _. unfold in_cache. destruct (Hf eq_refl) as [H1 H2]. rewrite H1. destruct (q_moved s); reflexivity.
      * injection H as <-. eapply ch_move; try eassumption; try reflexivity; try (split; [|split]; reflexivity).
        -- left. rewrite Epc. reflexivity.
        -- discriminate.
      * destruct (q_fast s); injection H as <-.
        -- eapply ch_move; try eassumption; try reflexivity; try (split; [|split]; reflexivity).
           ++ left. rewrite Epc. reflexivity.
           ++ discriminate.
        -- eapply ch_ret; try eassumption; try reflexivity; try (split; [|split]; reflexivity).
           ++ right. rewrite Eo. reflexivity.
           ++ right. rewrite Eo. discriminate.
    + destruct (t_op t) as [m it|it|it|m] eqn:Eo; try discriminate.
      * destruct (room _ _ s).
        -- injection H as <-. edestruct (Hdir it) as [E1 E2]; [| | | | | |eapply ch_direct with (it := it); try eassumption]; try reflexivity; try (split; [|split]; reflexivity). rewrite Eo. reflexivity.
        -- assert (Hs : s' = ret_full I p t s /\ m <> Block) by (destruct m, tmo; try discriminate; injection H as <-; split; auto; discriminate).
           destruct Hs as [-> Hm']. eapply ch_full; try eassumption; try reflexivity; try (split; [|split]; reflexivity). rewrite Eo. exact Hm'.
      * destruct (room _ _ s); injection H as <-.
        -- edestruct (Hdir it) as [E1 E2]; [| | | | | |eapply ch_direct with (it := it); try eassumption]; try reflexivity; try (split; [|split]; reflexivity). rewrite Eo. reflexivity.
        -- eapply ch_move; try eassumption; try reflexivity; try (split; [|split]; reflexivity).
           ++ left. rewrite Epc. reflexivity.
           ++ discriminate.
    + destruct (q_lock s); [discriminate|]. injection H as <-. eapply ch_move; try eassumption; try reflexivity; try (split; [|split]; reflexivity).
      * left. rewrite Epc. reflexivity.
      * discriminate.
    + injection H as <-. eapply ch_move; try eassumption; try reflexivity; try (split; [|split]; reflexivity).
      * left. rewrite Epc. reflexivity.
      * discriminate.
    + destruct (op_item (t_op t)) as [it|] eqn:Ei; [|discriminate]. injection H as <-.
      destruct (Happ (t_id t, it) (ret_ok I p t (set_lock I None (qset_heap I (heap_append I (q_cache s) (t_id t, it) (q_heap s)) s))) (Hnm ltac:(discriminate) eq_refl) eq_refl eq_refl eq_refl eq_refl eq_refl eq_refl) as [E1 E2].
      eapply ch_append_ret; try eassumption; try reflexivity; try (split; [|split]; reflexivity).
      * rewrite Epc. reflexivity.
      * intros m i Hx. rewrite Hx in Hfit. exact Hfit.
    + destruct (q_lock s); [discriminate|]. injection H as <-. eapply ch_move; try eassumption; try reflexivity; try (split; [|split]; reflexivity).
      * rewrite Epc. destruct (t_op t); cbn; auto.
      * destruct (t_op t); discriminate.
    + destruct (op_item (t_op t)) as [it|] eqn:Ei; [|discriminate]. pose proof (Hnm ltac:(discriminate) eq_refl) as Hmv.
      assert (E : front s' = front s /\ in_cache s' = in_cache s ++ [(t_id t, it)]) by (destruct (t_op t); injection H as <-; apply Happ; auto).
      destruct E as [E1 E2]. destruct (t_op t) eqn:Eo; injection H as <-.
      * eapply ch_append with (c := PSend); try eassumption; try reflexivity; try (split; [|split]; reflexivity); rewrite ?Epc, ?Eo; auto.
      * eapply ch_append with (c := PCheck); try eassumption; try reflexivity; try (split; [|split]; reflexivity); rewrite ?Epc, ?Eo; auto.
      * eapply ch_append_ret; try eassumption; try reflexivity; try (split; [|split]; reflexivity); rewrite ?Epc, ?Eo; auto; discriminate.
      * destruct Hfit.
    + destruct (Nat.leb _ _); injection H as <-.
      * eapply ch_move; try eassumption; try reflexivity; try (split; [|split]; reflexivity).
        -- left. rewrite Epc. reflexivity.
        -- discriminate.
      * eapply ch_ret; try eassumption; try reflexivity; try (split; [|split]; reflexivity).
        -- left. rewrite Epc. reflexivity.
        -- right. intros m i Hx. rewrite Hx in Hfit. exact Hfit.
    + destruct (room _ _ s).
      * injection H as <-. pose proof (Hnm ltac:(discriminate) eq_refl) as Hmv.
        eapply ch_send; try eassumption; try reflexivity; try (split; [|split]; reflexivity).
        unfold front, on_queue, in_cache, content; cbn. rewrite map_app, concat_app; cbn. rewrite app_nil_r, !app_assoc, Hmv. reflexivity.
      * assert (Hs : s' = ret_full I p t (set_lock I None s) /\ op_mode I (t_op t) <> Block).
        { destruct (op_mode I (t_op t)), tmo; try discriminate; injection H as <-; split; auto; discriminate. }
        destruct Hs as [-> Hm']. eapply ch_full; try eassumption; try reflexivity; try (split; [|split]; reflexivity).
    + injection H as <-.
      assert (E2 : in_cache (ret_ok I p t (set_lock I None (set_moved I false (set_cache I (length (q_heap s)) (qset_heap I (q_heap s ++ [[]]) s))))) = []).
      { unfold in_cache, content; cbn. apply nth_snoc_new. }
      eapply ch_ret; try eassumption; try reflexivity; try (split; [|split]; reflexivity).
      * apply front_eq; try reflexivity. intros b Hb. cbn. apply nth_snoc_old. destruct Hb; [apply Hch|apply Hg]; assumption.
      * rewrite E2. unfold in_cache. rewrite (Hr p t Ep Epc). reflexivity.
      * left. rewrite Epc. reflexivity.
      * left. exact E2.
  - destruct (q_got s) eqn:Eg; [discriminate|]. destruct (q_chunks s) as [|c cs] eqn:Ec; [discriminate|]. injection H as <-.
    eapply ch_idle; try reflexivity; try (split; [|split]; reflexivity). unfold front, on_queue, content; cbn. rewrite Eg, Ec. reflexivity.
  - destruct (q_got s) as [a|] eqn:Eg; [|discriminate]. injection H as <-. eapply ch_idle; try reflexivity; try (split; [|split]; reflexivity).
    unfold front, on_queue, content; cbn. rewrite Eg. rewrite <- app_assoc. reflexivity.
Qed.

(** ** Layer 2: bookkeeping of calls *)
Record book (s : queue) : Prop := mkBook {
  bk_calls : forall n x, nget n (q_calls s) = Some x -> n < q_next s;
  bk_thr : forall p t, q_thr s p = Some t -> nget (t_id t) (q_calls s) = Some (p, t_op t) /\ ~ In (t_id t) (q_done s) /\ ~ In (t_id t) (q_raised s);
  bk_fin : forall n p o, nget n (q_calls s) = Some (p, o) ->
             In n (q_done s) \/ In n (q_raised s) \/ exists t, q_thr s p = Some t /\ t_id t = n;
  bk_done : forall n, In n (q_done s) -> exists x, nget n (q_calls s) = Some x;
  bk_prec : forall n l, nget n (q_prec s) = Some l -> n < q_next s /\ incl l (q_done s);
  bk_seq : forall a b p o o', nget a (q_calls s) = Some (p, o) -> nget b (q_calls s) = Some (p, o') -> a < b ->
             before s a b \/ In a (q_raised s);
  bk_raised : forall n, In n (q_raised s) -> exists p o, nget n (q_calls s) = Some (p, o) /\ op_mode I o <> Block
}.

Lemma book_init : book (q_init I).
Proof. constructor; cbn; try discriminate; try contradiction. Qed.

Lemma nget_cons {A} n k (v : A) d : nget n ((k, v) :: d) = if Nat.eqb n k then Some v else nget n d.
Proof. unfold nget. cbn. reflexivity. Qed.

Lemma book_frame s s' p t u : book s -> q_thr s p = Some t -> books s s' -> q_thr s' = q_upd I p u (q_thr s) ->
  (u = None \/ exists c, u = Some (mkT (t_id t) (t_op t) c)) ->
  (u = None -> In (t_id t) (q_done s') \/ In (t_id t) (q_raised s')) ->
  (forall n, In n (q_done s) -> In n (q_done s')) -> (forall n, In n (q_raised s) -> In n (q_raised s')) ->
  (forall n, In n (q_done s') -> In n (q_done s) \/ (u = None /\ n = t_id t)) ->
  (forall n, In n (q_raised s') -> In n (q_raised s) \/ (u = None /\ n = t_id t /\ op_mode I (t_op t) <> Block)) -> book s'.
Proof.
  intros [Bc Bt Bf Bd Bp Bs Br] Ep [E2 [E3 E6]] E1 Hu Hu' Hd1 Hr1 Hd2 Hr2.
  destruct (Bt p t Ep) as [Hcall [Hnd Hnr]].
  assert (Hdist : forall q v, q <> p -> q_thr s q = Some v -> t_id v <> t_id t).
  { intros q v Hq Hv Heq. destruct (Bt q v Hv) as [H1 _]. rewrite Heq, Hcall in H1. congruence. }
  constructor; unfold before; rewrite ?E1, ?E2, ?E3, ?E6; auto.
  - intros q v Hq. updcase.
    + destruct Hu as [->|[c ->]]; [discriminate|]. injection Hq as <-. cbn. splits; auto.
      * intro Hx. apply Hd2 in Hx as [Hx|[Hx _]]; [auto|discriminate].
      * intro Hx. apply Hr2 in Hx as [Hx|[Hx _]]; [auto|discriminate].
    + destruct (Bt q v Hq) as [H1 [H2 H3]]. splits; auto.
      * intro Hx. apply Hd2 in Hx as [Hx|[_ Hx]]; [auto|]. eapply Hdist; eassumption.
      * intro Hx. apply Hr2 in Hx as [Hx|[_ [Hx _]]]; [auto|]. eapply Hdist; eassumption.
  - intros n q o Hn. destruct (Bf _ _ _ Hn) as [?|[?|[v [Hv Hi]]]]; auto. updcase; [|eauto].
    rewrite Ep in Hv. injection Hv as <-. subst n. destruct Hu as [->|[c ->]].
    + destruct (Hu' eq_refl); auto.
    + right. right. eexists. split; reflexivity.
  - intros n Hn. apply Hd2 in Hn as [Hn|[_ ->]]; eauto.
  - intros n l Hn. destruct (Bp _ _ Hn) as [H1 H2]. split; [exact H1|]. intros x Hx. auto.
  - intros x y q o1 o2 H1 H2 Hlt. destruct (Bs _ _ _ _ _ H1 H2 Hlt) as [?|?]; auto.
  - intros n Hn. apply Hr2 in Hn as [Hn|[_ [-> Hm]]]; [auto|]. eauto.
Qed.

Lemma book_step s s' : book s -> change s s' -> book s'.
Proof.
  intros B H. pose proof B as [Bc Bt Bf Bd Bp Bs Br].
  destruct H as [p o Ep E1 E2 E3 E6 E4 E5 _ _|[E2 [E3 E6]] E1 E4 E5 _ _|p t c Ep Hb E1 E4 E5|p t Ep Hb E1 E4 E5|p t Ep Hb E1 E4 E5 _ _ Hm|p t it Ep Hb E1 E4 E5|p t it c Ep Hb E1 E4 E5|p t it Ep Hb E1 E4 E5|p t Ep Hb E1 E4 E5].
  - assert (Hfresh : nget (q_next s) (q_calls s) = None).
    { destruct (nget (q_next s) (q_calls s)) eqn:E; [|reflexivity]. apply Bc in E. lia. }
    assert (Hdl : forall n, In n (q_done s) -> n < q_next s) by (intros n Hn; destruct (Bd n Hn) as [x Hx]; eauto).
    constructor; rewrite ?E1, ?E2, ?E3, ?E4, ?E5, ?E6.
    + intros n x. rewrite nget_cons. destruct (Nat.eqb_spec n (q_next s)); [lia|]. intro Hx. apply Bc in Hx. lia.
    + intros q t Hq. rewrite nget_cons. updcase.
      * injection Hq as <-. cbn. rewrite Nat.eqb_refl. splits; auto.
        -- intro Hx. apply Hdl in Hx. lia.
        -- intro Hx. destruct (Br _ Hx) as [q' [m' [Hy _]]]; apply Bc in Hy; lia.
      * destruct (Bt q t Hq) as [H1 [H2 H3]]. splits; auto. pose proof (Bc _ _ H1). destruct (Nat.eqb_spec (t_id t) (q_next s)); [lia|exact H1].
    + intros n q o'. rewrite nget_cons. destruct (Nat.eqb_spec n (q_next s)) as [->|Hn].
      * intros [= <- <-]. right. right. eexists. rewrite q_upd_same. split; reflexivity.
      * intro Hx. destruct (Bf _ _ _ Hx) as [?|[?|[t [Ht Hi]]]]; auto. right. right. exists t. updcase; [congruence|auto].
    + intros n Hn. rewrite nget_cons. destruct (Nat.eqb_spec n (q_next s)); [eauto|]. auto.
    + intros n l. rewrite nget_cons. destruct (Nat.eqb_spec n (q_next s)) as [->|Hn].
      * intros [= <-]. split; [lia|apply incl_refl].
      * intro Hx. destruct (Bp _ _ Hx) as [? ?]. split; [lia|assumption].
    + intros x y q o1 o2. unfold before. rewrite E6, !nget_cons. destruct (Nat.eqb_spec x (q_next s)) as [->|Hx].
      * intros _ Hy Hlt. destruct (Nat.eqb_spec y (q_next s)); [lia|]. apply Bc in Hy. lia.
      * destruct (Nat.eqb_spec y (q_next s)) as [->|Hy].
        -- intros Hc [= -> <-] _. destruct (Bf _ _ _ Hc) as [?|[?|[t [Ht Hi]]]]; [|auto|congruence]. left. eauto.
        -- intros H1 H2 Hlt. destruct (Bs _ _ _ _ _ H1 H2 Hlt) as [[l [? ?]]|?]; [left; eauto|auto].
    + intros n Hn. destruct (Br n Hn) as [q [m [Hq Hm]]]. exists q, m. rewrite nget_cons. destruct (Nat.eqb_spec n (q_next s)) as [->|]; [|auto].
      rewrite Hfresh in Hq; discriminate.
  - constructor; unfold before; rewrite ?E1, ?E2, ?E3, ?E4, ?E5, ?E6; auto.
  - apply (book_frame s s' p t (Some (mkT (t_id t) (t_op t) c))); rewrite ?E4, ?E5; eauto; discriminate.
  - apply (book_frame s s' p t None); rewrite ?E4, ?E5; cbn; auto. intros n [<-|Hn]; auto.
  - apply (book_frame s s' p t None); rewrite ?E4, ?E5; cbn; auto. intros n [<-|Hn]; auto.
  - apply (book_frame s s' p t None); rewrite ?E4, ?E5; cbn; auto. intros n [<-|Hn]; auto.
  - apply (book_frame s s' p t (Some (mkT (t_id t) (t_op t) c))); rewrite ?E4, ?E5; eauto; discriminate.
  - apply (book_frame s s' p t None); rewrite ?E4, ?E5; cbn; auto. intros n [<-|Hn]; auto.
  - apply (book_frame s s' p t (Some (mkT (t_id t) (t_op t) PReset))); rewrite ?E4, ?E5; eauto; discriminate.
Qed.

Lemma reachable_book s : reachable s -> book s.
Proof. apply reachable_ind; [apply book_init|]. intros. eapply book_step; [eassumption|]. eapply step_change; [apply reachable_str|]; eassumption. Qed.

(** ** Layer 3: exactly once *)
Record once (s : queue) : Prop := mkOnce {
  on_nodup : NoDup (map fst (all s));
  on_puts : forall n it, In (n, it) (all s) -> puts s n it;
  on_done : forall n it, In n (q_done s) -> puts s n it -> In (n, it) (all s);
  on_early : forall p t, q_thr s p = Some t -> early (t_pc t) = true -> ~ In (t_id t) (map fst (all s));
  on_late : forall p t it, q_thr s p = Some t -> early (t_pc t) = false -> op_item (t_op t) = Some it -> In (t_id t, it) (all s)
}.

Lemma once_init : once (q_init I).
Proof. constructor; cbn; try discriminate; try contradiction. constructor. Qed.

Lemma puts_fun (s : queue) n a b : puts s n a -> puts s n b -> a = b.
Proof. intros [p [o [H1 H2]]] [p' [o' [H3 H4]]]. congruence. Qed.

Lemma NoDup_insert {A} (l1 l2 : list A) x : NoDup (l1 ++ l2) -> ~ In x (l1 ++ l2) -> NoDup (l1 ++ x :: l2).
Proof. intros H Hx. apply (NoDup_Add (Add_app x l1 l2)). auto. Qed.

Lemma puts_same (s s' : queue) n it : q_calls s' = q_calls s -> puts s' n it -> puts s n it.
Proof. intro E. unfold puts. rewrite E. auto. Qed.

(** A step of [p] which leaves the items. *)
Lemma once_frame s s' p t u : book s -> once s -> q_thr s p = Some t -> books s s' -> all s' = all s -> q_thr s' = q_upd I p u (q_thr s) ->
  (u = None \/ exists c, u = Some (mkT (t_id t) (t_op t) c) /\ (early c = early (t_pc t) \/ op_item (t_op t) = None /\ early c = false)) ->
  (forall n, In n (q_done s') -> In n (q_done s) \/ (n = t_id t /\ (early (t_pc t) = false \/ op_item (t_op t) = None))) -> once s'.
Proof.
  intros B [O1 O2 O3 O4 O5] Ep [E2 [E3 E6]] Ea E1 Hu Hd. destruct (bk_thr _ B p t Ep) as [Hcall _]. constructor; rewrite ?Ea; auto.
  - intros n it Hn. unfold puts. rewrite E3. apply O2, Hn.
  - intros n it Hn Hp. apply (puts_same s) in Hp; [|exact E3]. destruct (Hd n Hn) as [H|[-> H]]; [auto|].
    destruct Hp as [q [o [Hp1 Hp2]]]. rewrite Hcall in Hp1. injection Hp1 as <- <-. destruct H as [H|H]; [|congruence]. eapply O5; eassumption.
  - rewrite E1. intros q v Hq He. updcase; [|eauto]. destruct Hu as [->|[c [-> Hc]]]; [discriminate|]. injection Hq as <-. cbn in *.
    destruct Hc as [Hc|[_ Hc]]; [|congruence]. apply (O4 p t Ep). congruence.
  - rewrite E1. intros q v it Hq He Hi. updcase; [|eauto]. destruct Hu as [->|[c [-> Hc]]]; [discriminate|]. injection Hq as <-. cbn in *.
    destruct Hc as [Hc|[Hc _]]; [|congruence]. apply (O5 p t it Ep); congruence.
Qed.

Lemma once_add s s' p t it u : book s -> once s -> q_thr s p = Some t -> early (t_pc t) = true -> op_item (t_op t) = Some it -> books s s' ->
  (exists l1 l2, all s = l1 ++ l2 /\ all s' = l1 ++ (t_id t, it) :: l2) -> q_thr s' = q_upd I p u (q_thr s) ->
  (forall n, In n (q_done s') -> In n (q_done s) \/ n = t_id t) ->
  (u = None \/ exists c, u = Some (mkT (t_id t) (t_op t) c) /\ early c = false) -> once s'.
Proof.
  intros B [O1 O2 O3 O4 O5] Ep He Hi [E2 [E3 E6]] [l1 [l2 [Ea Ea']]] E1 Hd Hu. destruct (bk_thr _ B p t Ep) as [Hcall _].
  assert (Hput : puts s (t_id t) it) by (exists p, (t_op t); auto).
  assert (Hall : forall x, In x (all s') <-> x = (t_id t, it) \/ In x (all s)).
  { intro x. rewrite Ea, Ea', !in_app_iff. cbn. intuition. }
  constructor.
  - rewrite Ea', map_app. cbn. apply NoDup_insert; rewrite <- map_app, <- Ea; eauto.
  - intros n i Hn. unfold puts. rewrite E3. apply Hall in Hn as [[= -> ->]|Hn]; [exact Hput|apply (O2 n i Hn)].
  - intros n i Hn Hp. apply (puts_same s) in Hp; [|exact E3]. apply Hall. destruct (Hd n Hn) as [H| ->]; [right; auto|]. left. f_equal. eapply puts_fun; eassumption.
  - rewrite E1. intros q v Hq Hev Hin. updcase.
    + destruct Hu as [->|[c [-> Hc]]]; [discriminate|]. injection Hq as <-. cbn in Hev. congruence.
    + apply in_map_iff in Hin as [[m i] [Hx1 Hx2]]. cbn in Hx1. subst m. apply Hall in Hx2 as [[= Hx2 _]|Hx2].
      * destruct (bk_thr _ B q v Hq) as [H1 _]. rewrite Hx2, Hcall in H1. congruence.
      * apply (O4 q v Hq Hev). apply in_map_iff. exists (t_id v, i). auto.
  - rewrite E1. intros q v i Hq Hev Hiv. apply Hall. updcase; [|right; eauto].
    destruct Hu as [->|[c [-> Hc]]]; [discriminate|]. injection Hq as <-. cbn in *. left. congruence.
Qed.

Lemma once_step s s' : book s -> once s -> change s s' -> once s'.
Proof.
  intros B O H.
  assert (Hsame : front s' = front s -> in_cache s' = in_cache s -> all s' = all s) by (intros E1 E2; rewrite !all_split, E1, E2; reflexivity).
  destruct H as [p o Ep E1 E2 E3 E6 E4 E5 Ef Ec|[E2 [E3 E6]] E1 E4 E5 Ef Ec|p t c Ep Hb E1 E4 E5 Ef Ec He _|p t Ep Hb E1 E4 E5 Ef Ec He _|p t Ep Hb E1 E4 E5 Ef Ec Hm|p t it Ep Hb E1 E4 E5 Hp Hi Ef Ec|p t it c Ep Hb E1 E4 E5 He Hec Hi Ef Ec|p t it Ep Hb E1 E4 E5 He Hi Hno Ef Ec|p t Ep Hb E1 E4 E5 Hp Ef Ec].
  - pose proof (Hsame Ef Ec) as Ea. destruct O as [O1 O2 O3 O4 O5]. constructor; rewrite ?Ea, ?E1, ?E4; auto.
    + intros n it Hn. destruct (O2 n it Hn) as [q [o' [H1 H2]]]. exists q, o'. rewrite E3, nget_cons. pose proof (bk_calls _ B _ _ H1). destruct (Nat.eqb_spec n (q_next s)); [lia|auto].
    + intros n it Hn [q [o' [H1 H2]]]. rewrite E3, nget_cons in H1. destruct (Nat.eqb_spec n (q_next s)) as [->|].
      * destruct (bk_done _ B _ Hn) as [x Hx]. pose proof (bk_calls _ B _ _ Hx). lia.
      * apply O3; [exact Hn|]. exists q, o'. auto.
    + intros q v Hq Hev. updcase; [|eauto]. injection Hq as <-. cbn. intro Hin. apply in_map_iff in Hin as [[n i] [Hx1 Hx2]]. cbn in Hx1. subst n.
      destruct (O2 _ _ Hx2) as [q' [o' [H1 _]]]. pose proof (bk_calls _ B _ _ H1). lia.
    + intros q v i Hq Hev Hi. updcase; [injection Hq as <-; discriminate|eauto].
  - pose proof (Hsame Ef Ec) as Ea. destruct O as [O1 O2 O3 O4 O5]. constructor; unfold puts; rewrite ?Ea, ?E1, ?E3, ?E4; auto.
  - eapply (once_frame s s' p t); eauto. intros n. rewrite E4. auto.
  - eapply (once_frame s s' p t); eauto. intros n. rewrite E4. intros [<-|Hn]; auto.
  - eapply (once_frame s s' p t); eauto. intros n. rewrite E4. auto.
  - eapply (once_add s s' p t it); eauto.
    + rewrite Hp. reflexivity.
    + exists (front s), (in_cache s). rewrite !all_split, Ef, Ec, <- app_assoc. auto.
    + intros n. rewrite E4. intros [<-|Hn]; auto.
  - eapply (once_add s s' p t it); eauto.
    + exists (all s), []. rewrite !all_split, Ef, Ec, app_nil_r, <- !app_assoc. auto.
    + intros n. rewrite E4. auto.
  - eapply (once_add s s' p t it); eauto.
    + exists (all s), []. rewrite !all_split, Ef, Ec, app_nil_r, <- !app_assoc. auto.
    + intros n. rewrite E4. intros [<-|Hn]; auto.
  - eapply (once_frame s s' p t); eauto.
    + rewrite !all_split, Ef, Ec, app_nil_r. reflexivity.
    + right. exists PReset. split; [reflexivity|]. left. rewrite Hp. reflexivity.
    + intros n. rewrite E4. auto.
Qed.

Lemma reachable_once s : reachable s -> once s.
Proof.
  apply reachable_ind; [apply once_init|]. intros. eapply once_step; [apply reachable_book| |eapply step_change; [apply reachable_str|]]; eassumption.
Qed.

(** ** Layer 4: order *)
Definition is_item (s : queue) (n : nat) : Prop := exists it, puts s n it.

Record ordered (s : queue) : Prop := mkOrd {
  or_order : forall l1 b it l2 a, all s = l1 ++ (b, it) :: l2 -> before s a b -> is_item s a -> In a (map fst l1);
  or_direct : forall p t a, q_thr s p = Some t -> t_pc t = PDirect -> before s a (t_id t) -> ~ In a (map fst (in_cache s));
  or_put : forall n, In n (q_done s) -> is_put s n -> ~ In n (map fst (in_cache s))
}.

Lemma ordered_init : ordered (q_init I).
Proof. constructor; cbn; try discriminate; try contradiction. intros l1 b it l2 a H. destruct l1; discriminate. Qed.

Lemma before_done s a b : book s -> before s a b -> In a (q_done s).
Proof. intros B [l [H1 H2]]. apply (bk_prec _ B _ _ H1), H2. Qed.

(** Positions in a list with one element inserted. *)
Lemma insert_split {A} (l1 l2 m1 m2 : list A) x y : l1 ++ x :: l2 = m1 ++ y :: m2 ->
  (m1 = l1 /\ y = x /\ m2 = l2) \/ (exists k, l1 = m1 ++ y :: k /\ m2 = k ++ x :: l2) \/ (exists k, l2 = k ++ y :: m2 /\ m1 = l1 ++ x :: k).
Proof.
  revert m1. induction l1 as [|a l1 IH]; intros [|b m1] H; cbn in *.
  - injection H as -> ->. auto.
  - injection H as -> H. right. right. exists m1. subst l2. auto.
  - injection H as -> H. subst m2. right. left. exists l1. auto.
  - injection H as -> H. destruct (IH m1 H) as [[-> [-> ->]]|[[k [-> ->]]|[k [-> ->]]]]; eauto.
Qed.

Lemma ordered_add s s' n it l1 l2 : book s -> once s -> ordered s -> books s s' -> all s = l1 ++ l2 -> all s' = l1 ++ (n, it) :: l2 ->
  (forall a, before s a n -> ~ In a (map fst l2)) ->
  forall m1 b i m2 a, all s' = m1 ++ (b, i) :: m2 -> before s' a b -> is_item s' a -> In a (map fst m1).
Proof.
  intros B O [Or _ _] [E2 [E3 E6]] Ea Ea' Hn m1 b i m2 a Hs Hb Hi. unfold before in Hb. rewrite E6 in Hb. fold (before s a b) in Hb.
  assert (Hi' : is_item s a) by (destruct Hi as [x Hx]; exists x; eapply puts_same; eassumption).
  rewrite Ea' in Hs. destruct (insert_split _ _ _ _ _ _ Hs) as [[-> [[= -> ->] ->]]|[[k [-> ->]]|[k [-> ->]]]].
  - pose proof (before_done s a n B Hb) as Hd. destruct Hi' as [x Hx]. pose proof (on_done _ O a x Hd Hx) as Hin.
    rewrite Ea in Hin. apply in_app_iff in Hin as [Hin|Hin]; [apply (in_map fst) in Hin; exact Hin|].
    exfalso. apply (Hn a Hb). apply (in_map fst) in Hin. exact Hin.
  - rewrite <- app_assoc in Ea. cbn in Ea. eapply Or; eassumption.
  - rewrite app_assoc in Ea. pose proof (Or (l1 ++ k) b i m2 a Ea Hb Hi') as Hin. rewrite map_app in Hin |- *. apply in_app_iff in Hin as [Hin|Hin]; apply in_app_iff; cbn; auto.
Qed.

Lemma ordered_step s s' : book s -> once s -> ordered s -> change s s' -> ordered s'.
Proof.
  intros B O Hor H. pose proof Hor as [Or Od Op].
  assert (Hsame : front s' = front s -> in_cache s' = in_cache s -> all s' = all s) by (intros E1 E2; rewrite !all_split, E1, E2; reflexivity).
  assert (Hbb : books s s' -> forall a b, before s' a b -> before s a b) by (intros [_ [_ E6]] a b; unfold before; rewrite E6; auto).
  assert (Hpb : books s s' -> forall n, is_put s' n -> is_put s n) by (intros [_ [E3 _]] n; unfold is_put; rewrite E3; auto).
  assert (Hib : books s s' -> forall n, is_item s' n -> is_item s n) by (intros [_ [E3 _]] n [x Hx]; exists x; eapply puts_same; eassumption).
  destruct H as [p o Ep E1 E2 E3 E6 E4 E5 Ef Ec|Hb E1 E4 E5 Ef Ec|p t c Ep Hb E1 E4 E5 Ef Ec He Hd|p t Ep Hb E1 E4 E5 Ef Ec He Hp|p t Ep Hb E1 E4 E5 Ef Ec Hm|p t it Ep Hb E1 E4 E5 Hp Hi Ef Ec|p t it c Ep Hb E1 E4 E5 He Hec Hi Ef Ec|p t it Ep Hb E1 E4 E5 He Hi Hno Ef Ec|p t Ep Hb E1 E4 E5 Hp Ef Ec].
  - (* call *) pose proof (Hsame Ef Ec) as Ea.
    assert (Hlt : forall n it, In (n, it) (all s) -> n < q_next s).
    { intros n it Hn. destruct (on_puts _ O n it Hn) as [q [o' [Hx _]]]. eapply bk_calls; eassumption. }
    constructor; rewrite ?Ea, ?Ec, ?E4.
    + intros l1 b it l2 a Hs [l [Hl Hin]] [x [q [o' [Hx Hy]]]]. assert (Hlb : b < q_next s) by (apply (Hlt b it); rewrite Hs; apply in_app_iff; right; left; reflexivity).
      rewrite E6, nget_cons in Hl. destruct (Nat.eqb_spec b (q_next s)); [lia|]. assert (Hda : In a (q_done s)) by (apply (bk_prec _ B _ _ Hl), Hin).
      apply (Or l1 b it l2 a Hs); [exists l; auto|]. rewrite E3, nget_cons in Hx. destruct (Nat.eqb_spec a (q_next s)) as [->|]; [|exists x, q, o'; auto].
      destruct (bk_done _ B _ Hda) as [z Hz]. pose proof (bk_calls _ B _ _ Hz). lia.
    + rewrite E1. intros q t a Hq Hpc [l [Hl Hin]]. updcase; [injection Hq as <-; discriminate|]. rewrite E6, nget_cons in Hl.
      destruct (bk_thr _ B q t Hq) as [Hc _]. pose proof (bk_calls _ B _ _ Hc). destruct (Nat.eqb_spec (t_id t) (q_next s)); [lia|].
      eapply Od; eauto. exists l. auto.
    + intros n Hn [q [m [i Hi]]]. apply Op; [exact Hn|]. rewrite E3, nget_cons in Hi. destruct (Nat.eqb_spec n (q_next s)) as [->|]; [|exists q, m, i; auto].
      destruct (bk_done _ B _ Hn) as [z Hz]. pose proof (bk_calls _ B _ _ Hz). lia.
  - pose proof (Hsame Ef Ec) as Ea. constructor; rewrite ?Ea, ?Ec, ?E4, ?E1; eauto.
  - pose proof (Hsame Ef Ec) as Ea. constructor; rewrite ?Ea, ?Ec, ?E4, ?E1; eauto.
    intros q v a Hq Hpc Ha. updcase; [|eauto]. injection Hq as <-. cbn in Hpc. rewrite (Hd Hpc). auto.
  - pose proof (Hsame Ef Ec) as Ea. constructor; rewrite ?Ea, ?E4, ?E1; eauto.
    + rewrite Ec. intros q v a Hq Hpc Ha. updcase; [discriminate|eauto].
    + intros n [<-|Hn] Hput; [|rewrite Ec; eauto]. destruct Hp as [Hp|Hp]; [rewrite Hp; auto|].
      destruct (Hpb Hb _ Hput) as [q [m [i Hi]]]. destruct (bk_thr _ B p t Ep) as [Hc _]. exfalso. apply (Hp m i). congruence.
  - pose proof (Hsame Ef Ec) as Ea. constructor; rewrite ?Ea, ?Ec, ?E4, ?E1; eauto.
    intros q v a Hq Hpc Ha. updcase; [discriminate|eauto].
  - (* direct *) constructor.
    + eapply (ordered_add s s' (t_id t) it (front s) (in_cache s)); eauto.
      * apply all_split.
      * rewrite all_split, Ef, Ec, <- app_assoc. reflexivity.
    + rewrite Ec, E1. intros q v a Hq Hpc Ha. updcase; [discriminate|eauto].
    + rewrite Ec, E4. intros n [<-|Hn] Hput; [|eauto]. intro Hin.
      apply (on_early _ O p t Ep); [rewrite Hp; reflexivity|]. rewrite all_split, map_app. apply in_app_iff. auto.
  - (* append *) constructor.
    + eapply (ordered_add s s' (t_id t) it (all s) []); eauto; rewrite ?app_nil_r; auto.
      rewrite !all_split, Ef, Ec, <- app_assoc. reflexivity.
    + rewrite Ec, E1. intros q v a Hq Hpc Ha Hin. updcase; [injection Hq as <-; cbn in Hpc; subst c; discriminate|].
      rewrite map_app in Hin. apply in_app_iff in Hin as [Hin|[<-|[]]]; [eapply Od; eauto|]. apply (Hbb Hb) in Ha.
      apply (before_done s _ _ B) in Ha. destruct (bk_thr _ B p t Ep) as [_ [Hx _]]. auto.
    + rewrite Ec, E4. intros n Hn Hput Hin. rewrite map_app in Hin. apply in_app_iff in Hin as [Hin|[<-|[]]]; [eapply Op; eauto|].
      destruct (bk_thr _ B p t Ep) as [_ [Hx _]]. auto.
  - (* append and return *) constructor.
    + eapply (ordered_add s s' (t_id t) it (all s) []); eauto; rewrite ?app_nil_r; auto.
      rewrite !all_split, Ef, Ec, <- app_assoc. reflexivity.
    + rewrite Ec, E1. intros q v a Hq Hpc Ha Hin. updcase; [discriminate|].
      rewrite map_app in Hin. apply in_app_iff in Hin as [Hin|[<-|[]]]; [eapply Od; eauto|]. apply (Hbb Hb) in Ha.
      apply (before_done s _ _ B) in Ha. destruct (bk_thr _ B p t Ep) as [_ [Hx _]]. auto.
    + rewrite Ec, E4. intros n Hn Hput Hin. destruct (bk_thr _ B p t Ep) as [Hc [Hx _]]. apply (Hpb Hb) in Hput. destruct Hn as [<-|Hn].
      * destruct Hput as [q [m [i Hi']]]. apply (Hno m i). congruence.
      * rewrite map_app in Hin. apply in_app_iff in Hin as [Hin|[<-|[]]]; [eapply Op; eauto|]. auto.
  - (* send *) assert (Ea : all s' = all s) by (rewrite !all_split, Ef, Ec, app_nil_r; reflexivity).
    constructor; rewrite ?Ea, ?Ec, ?E4; eauto.
Qed.

Lemma reachable_ordered s : reachable s -> ordered s.
Proof.
  apply reachable_ind; [apply ordered_init|]. intros.
  eapply ordered_step; [apply reachable_book|apply reachable_once| |eapply step_change; [apply reachable_str|]]; eassumption.
Qed.
End Proofs.
