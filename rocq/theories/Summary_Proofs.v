From Verif Require Import Helpers_Props Prelude Prelude_Proofs Helpers_Model Summary_Model Summary_Spec.
From Coq Require Import Lia.
Open Scope string_scope.

(** ** Induction over values *)
Section Ind.
  Context (P : val -> Prop).
  Context (Hleaf : forall v, match v with VList _ | VTuple _ | VSet _ | VDict _ | VFlow _ | VArray _ | VSel _ _ _ | VGen _ _ | VObj _ _ _ => False | _ => True end -> P v).
  Context (Hlist : forall l, Forall P l -> P (VList l)) (Htuple : forall l, Forall P l -> P (VTuple l)) (Hset : forall l, Forall P l -> P (VSet l))
          (Hflow : forall l, Forall P l -> P (VFlow l)) (Harray : forall l, Forall P l -> P (VArray l))
          (Hdict : forall l, Forall (fun p => P (fst p) /\ P (snd p)) l -> P (VDict l))
          (Hsel : forall c s o, P s -> Forall (fun p => P (fst (fst p)) /\ P (snd (fst p)) /\ P (snd p)) o -> P (VSel c s o)).
  Definition Pattr (a : attr val) : Prop := match a with Attr _ _ (Ok u) => P u | _ => True end.
  Context (Hgen : forall c l, Forall Pattr l -> P (VGen c l)) (Hobj : forall c ct l, Forall Pattr l -> P (VObj c ct l)).
  Fixpoint val_ind' (v : val) : P v :=
    let fl := fix fl (l : list val) : Forall P l := match l with [] => Forall_nil _ | u :: l => Forall_cons _ (val_ind' u) (fl l) end in
    let fa := fix fa (l : list (attr val)) : Forall Pattr l :=
      match l with
      | [] => Forall_nil _
      | a :: l => Forall_cons a (match a return Pattr a with Attr _ _ (Ok u) => val_ind' u | Attr _ _ (Err _) => I end) (fa l)
      end in
    match v with
    | VList l => Hlist l (fl l) | VTuple l => Htuple l (fl l) | VSet l => Hset l (fl l) | VFlow l => Hflow l (fl l) | VArray l => Harray l (fl l)
    | VDict l => Hdict l ((fix fd (l : list (val * val)) : Forall (fun p => P (fst p) /\ P (snd p)) l :=
        match l with [] => Forall_nil _ | (a, b) :: l => Forall_cons (a, b) (conj (val_ind' a) (val_ind' b)) (fd l) end) l)
    | VSel c s o => Hsel c s o (val_ind' s) ((fix fo (l : list (val * val * val)) : Forall (fun p => P (fst (fst p)) /\ P (snd (fst p)) /\ P (snd p)) l :=
        match l with [] => Forall_nil _ | (a, b, d) :: l => Forall_cons (a, b, d) (conj (val_ind' a) (conj (val_ind' b) (val_ind' d))) (fo l) end) o)
    | VGen c l => Hgen c l (fa l)
    | VObj c ct l => Hobj c ct l (fa l)
    | v => Hleaf v I
    end.
End Ind.

(** ** Traversals *)
Lemma mapM_ok {A B} (f : A -> res B) l : forall bs, mapM f l = Ok bs <-> Forall2 (fun a b => f a = Ok b) l bs.
Proof.
  induction l as [|a l IH]; intros bs; cbn; split.
  - intros [= <-]. constructor.
  - intros H. inversion H. reflexivity.
  - destruct (f a) as [b|] eqn:E; [|discriminate]. destruct (mapM f l) as [bs'|]; [|discriminate].
    intros [= <-]. constructor; [exact E|]. now apply IH.
  - intros H. inversion H as [|? b ? bs' H1 H2]; subst. rewrite H1. apply IH in H2. now rewrite H2.
Qed.
Lemma mapM_err {A B} (f : A -> res B) l : (exists e, mapM f l = Err e) <-> exists a e, In a l /\ f a = Err e.
Proof.
  induction l as [|a l IH]; cbn; split.
  - intros [e [=]].
  - intros (a & e & [] & _).
  - intros [e E]. destruct (f a) as [b|e'] eqn:F; [|exists a, e'; auto].
    destruct (mapM f l) as [bs|e']; [discriminate|]. destruct (proj1 IH) as (a' & e2 & I & H); [now exists e'|]. exists a', e2. auto.
  - intros (a' & e & [->|I] & F); [rewrite F; now exists e|]. destruct (f a) as [b|e']; [|now exists e'].
    destruct (proj2 IH) as [e' ->]; [now exists a', e|]. now exists e'.
Qed.
Lemma rmap_ok {A B} (f : A -> B) r b : rmap f r = Ok b <-> exists a, r = Ok a /\ b = f a.
Proof. destruct r; cbn; split; [intros [= <-]; eauto|intros (? & [= <-] & ->); reflexivity|discriminate|intros (? & [=] & _)]. Qed.
Lemma rmap_err {A B} (f : A -> B) r : (exists e, rmap f r = Err e) <-> exists e, r = Err e.
Proof. destruct r; cbn; split; intros [? H]; try discriminate; eauto. Qed.
Lemma Forall2_In_r {A B} (R : A -> B -> Prop) l l' : Forall2 R l l' -> forall b, In b l' -> exists a, In a l /\ R a b.
Proof. induction 1; intros b' []; [subst; eexists; split; [now left|eassumption]|]. destruct (IHForall2 _ H1) as (a & I & Ra). exists a. split; [now right|exact Ra]. Qed.
Lemma Forall2_In_l {A B} (R : A -> B -> Prop) l l' : Forall2 R l l' -> forall a, In a l -> exists b, In b l' /\ R a b.
Proof. induction 1; intros b' []; [subst; eexists; split; [now left|eassumption]|]. destruct (IHForall2 _ H1) as (a & I & Ra). exists a. split; [now right|exact Ra]. Qed.

Lemma Forall2_length_eq {A B} {R : A -> B -> Prop} {l l'} : Forall2 R l l' -> length l = length l'.
Proof. induction 1; cbn; congruence. Qed.
Lemma Forall2_nth {A B} {R : A -> B -> Prop} {l l'} : Forall2 R l l' -> forall {i a}, nth_error l i = Some a -> exists b, nth_error l' i = Some b /\ R a b.
Proof. induction 1; intros [|i] a0 E; cbn in *; try discriminate; [injection E as <-; eauto|now apply IHForall2]. Qed.

Lemma first_error_some {A} (l : list (attr A)) e : first_error l = Some e -> exists n c, In (Attr n c (Err e)) l /\ public n = true.
Proof.
  induction l as [|[n c [v|e']] l IH]; cbn; [discriminate| |].
  - intros H. destruct (IH H) as (n' & c' & I & P). exists n', c'. auto.
  - destruct (public n) eqn:E.
    + intros [= <-]. exists n, c. auto.
    + intros H. destruct (IH H) as (n' & c' & I & P). exists n', c'. auto.
Qed.
Lemma first_error_none {A} (l : list (attr A)) : first_error l = None <-> forall n c e, In (Attr n c (Err e)) l -> public n = false.
Proof.
  induction l as [|[n c [v|e']] l IH]; cbn.
  - split; [intros _ ? ? ? []|reflexivity].
  - rewrite IH. split; intros H n' c' e I; [destruct I as [[=]|I]; eapply H; eassumption|eapply H; right; eassumption].
  - destruct (public n) eqn:E.
    + split; [discriminate|]. intros H. specialize (H n c e' (or_introl eq_refl)). congruence.
    + rewrite IH. split; intros H n' c' e I; [destruct I as [[= -> -> ->]|I]; [exact E|eapply H; eassumption]|eapply H; right; eassumption].
Qed.

Lemma somes_In {A} (l : list (option A)) a : In a (somes l) <-> In (Some a) l.
Proof.
  induction l as [|[b|] l IH]; cbn; [tauto| |].
  - rewrite IH. split; intros [H|H]; auto; [left; congruence|left; congruence].
  - rewrite IH. split; [auto|intros [[=]|H]; exact H].
Qed.

(** ** Readable without Python *)
Local Notation clean v := (forall u, within u v -> ~ foreign u).
Lemma number_In {A} (l : list A) : forall p, In p (number l) -> In (snd p) l.
Proof. intros [n a] H. unfold number in H. apply in_combine_r in H. exact H. Qed.
Lemma number_of {A} (l : list A) a : In a l -> exists n, In (n, a) (number l).
Proof.
  intros H. apply In_nth_error in H as [n H]. exists n. unfold number.
  assert (G : forall l k n (a : A), nth_error l n = Some a -> In (k + n, a)%nat (combine (seq k (length l)) l)).
  { clear. induction l as [|b l IH]; intros k [|n] a E; cbn in *; try discriminate.
    - injection E as <-. left. now rewrite Nat.add_0_r.
    - right. rewrite Nat.add_succ_r. exact (IH (S k) n a E). }
  exact (G l 0%nat n a H).
Qed.

Lemma attrs_native (shown : string -> bool) l ns : Forall (Pattr (fun v => forall n, represent v = Ok n -> (native n = true <-> clean v))) l ->
  Forall2 (fun a b => match a with
     | Attr n c (Ok u) => if shown n && negb c then rmap (fun x => Some (text n, x)) (represent u) else Ok None
     | Attr _ _ (Err _) => Ok None end = Ok b) l ns ->
  (forallb (fun p => let '(a, b) := p in native a && native b) (somes ns) = true <->
   forall n u, In (Attr n false (Ok u)) l -> shown n = true -> clean u).
Proof.
  intros F H. induction H as [|[n c [u|e]] b l ns E H IH].
  - cbn. split; [intros _ ? ? []|reflexivity].
  - inversion F as [|? ? F1 F2]; subst. specialize (IH F2).
    destruct (shown n && negb c) eqn:S.
    + apply rmap_ok in E as (x & E & ->). cbn [somes forallb text native]. cbn [Pattr] in F1.
      apply Bool.andb_true_iff in S as [S1 S2]. apply Bool.negb_true_iff in S2. subst c.
      split.
      * intros Hn. apply Bool.andb_true_iff in Hn as [H1 H2]. intros n' u' [[= -> ->]|I] S'.
        -- apply (F1 x E). exact H1.
        -- apply (proj1 IH H2 n' u' I S').
      * intros Hc. apply Bool.andb_true_iff. split.
        -- apply (F1 x E). apply (Hc n u (or_introl eq_refl) S1).
        -- apply IH. intros n' u' I. apply (Hc n' u'). now right.
    + injection E as <-. cbn [somes]. rewrite IH. split; intros Hc n' u' I S'; [|apply (Hc n' u'); [now right|exact S']].
      destruct I as [[= -> -> ->]|I]; [cbn in S; now rewrite S' in S|exact (Hc _ _ I S')].
  - inversion F; subst. injection E as <-. cbn [somes]. rewrite (IH ltac:(assumption)). split; intros Hc n' u' I S'; [|apply (Hc n' u'); [now right|exact S']].
    destruct I as [[=]|I]. exact (Hc _ _ I S').
Qed.

Lemma list_native l ns : Forall (fun v => forall n, represent v = Ok n -> (native n = true <-> clean v)) l ->
  Forall2 (fun a b => represent a = Ok b) l ns -> (forallb native ns = true <-> forall u, In u l -> clean u).
Proof.
  intros F H. induction H as [|u b l ns E H IH]; [cbn; split; [intros _ ? []|reflexivity]|].
  inversion F; subst. cbn. rewrite Bool.andb_true_iff, IH by assumption. rewrite (H2 _ E). split.
  - intros [A B] u' [->|I]; [exact A|now apply B].
  - intros A. split; [apply A; now left|]. intros u' I. apply A. now right.
Qed.

Lemma shown_gen_spec n : shown_gen n = true <-> public n = true /\ n <> "logger" /\ n <> "bounds".
Proof.
  unfold shown_gen. rewrite !Bool.andb_true_iff, !Bool.negb_true_iff. rewrite !String.eqb_neq. tauto.
Qed.

Lemma bounds_native (l : list (string * list nat)) :
  forallb (fun p => let '(a, b) := p in native a && native b)
    (map (fun p => (text (fst p), Seq TSeq true (map (fun n => Scalar TInt (SInt (Z.of_nat n))) (snd p)))) l) = true.
Proof.
  apply forallb_forall. intros [a b] I. apply in_map_iff in I as ([s ns] & [= <- <-] & _). cbn [text native snd fst andb].
  apply forallb_forall. intros x Ix. apply in_map_iff in Ix as (y & <- & _). reflexivity.
Qed.

Theorem native_iff : forall v n, represent v = Ok n -> (native n = true <-> clean v).
Proof.
  apply (val_ind' (fun v => forall n, represent v = Ok n -> (native n = true <-> clean v))).
  - intros v L n E.
    assert (W : forall u, within u v -> u = v) by (intros u Wu; inversion Wu; subst; try reflexivity; destruct L).
    assert (G : native n = true <-> ~ foreign v).
    { destruct v as [| | | | | | | | | |?|[|] ?| | | |[]|l| | |]; try (now destruct L); injection E as <-; cbn; try tauto;
        try (split; [discriminate|intros F; now destruct F]).
      rewrite bounds_native. tauto. }
    rewrite G. split; [intros F u Wu; rewrite (W u Wu); exact F|intros F; apply F, W_here].
  - intros l F n E. cbn in E. apply rmap_ok in E as (ns & E & ->). apply mapM_ok in E. cbn [native andb]. rewrite (list_native _ _ F E).
    split; [|intros H u I w W; apply H; eapply W_list; eassumption].
    intros H u W. inversion W; subst; [tauto|]. eapply H; eassumption.
  - intros l F n E. cbn in E. apply rmap_ok in E as (ns & E & ->). cbn. split; [discriminate|]. intros H. exfalso. now apply (H _ (W_here _)).
  - intros l F n E. cbn in E. apply rmap_ok in E as (ns & E & ->). apply mapM_ok in E. cbn [native andb].
    transitivity (forallb native ns = true).
    { clear. induction ns as [|n ns IH]; [reflexivity|]. cbn [map forallb null native]. rewrite !Bool.andb_true_iff, IH. tauto. }
    rewrite (list_native _ _ F E). split; [|intros H u I w W; apply H; eapply W_set; eassumption].
    intros H u W. inversion W; subst; [tauto|]. eapply H; eassumption.
  - intros l F n E. cbn in E. apply rmap_ok in E as (ns & E & ->). apply mapM_ok in E. cbn [native andb]. rewrite (list_native _ _ F E).
    split; [|intros H u I w W; apply H; eapply W_flow; eassumption].
    intros H u W. inversion W; subst; [tauto|]. eapply H; eassumption.
  - intros l F n E. cbn in E. apply rmap_ok in E as (ns & E & ->). apply mapM_ok in E. cbn [native andb]. rewrite (list_native _ _ F E).
    split; [|intros H u I w W; apply H; eapply W_array; eassumption].
    intros H u W. inversion W; subst; [tauto|]. eapply H; eassumption.
  - intros l F n E. cbn in E. apply rmap_ok in E as (ns & E & ->). apply mapM_ok in E. cbn [native andb].
    transitivity (forall k u, In (k, u) l -> clean k /\ clean u).
    { induction E as [|[k u] b l ns E H IH]; [cbn; split; [intros _ ? ? []|reflexivity]|].
      inversion F as [|? ? [F1 F2] F3]; subst. specialize (IH F3).
      destruct (represent k) as [a|] eqn:Ek; [|discriminate]. apply rmap_ok in E as (c & Eu & ->).
      cbn [forallb]. rewrite !Bool.andb_true_iff, IH, (F1 _ Ek), (F2 _ Eu). cbn [fst snd]. split.
      - intros [[A B] C] k' u' [[= <- <-]|I]; [now split|now apply C].
      - intros A. split; [apply A; now left|]. intros k' u' I. apply A. now right. }
    split; [|intros H k u I; split; intros w W; apply H; [eapply W_key|eapply W_value]; eassumption].
    intros H u W. inversion W; subst; [tauto| |]; (destruct (H _ _ ltac:(eassumption)) as [A B]; auto).
  - intros c s o Fs F n E. cbn [represent] in E. destruct (represent s) as [sp|] eqn:Es; [|discriminate].
    apply rmap_ok in E as (ns & E & ->). apply mapM_ok in E.
    transitivity (clean s /\ forall a i k, In (a, i, k) o -> clean a /\ clean i /\ clean k).
    2:{ split.
        - intros [H1 H2] u W. inversion W; subst; [tauto|now apply H1|..]; (destruct (H2 _ _ _ ltac:(eassumption)) as (A & B & C); auto).
        - intros H. split; [intros w W; apply H, W_spawn, W|]. intros a i k I. splits; intros w W; apply H;
            [eapply W_class|eapply W_init|eapply W_call]; eassumption. }
    transitivity (native sp = true /\ forallb native ns = true).
    { cbn [native forallb text]. rewrite !Bool.andb_true_iff. split.
      - intros (_ & _ & (_ & A) & (_ & (_ & B)) & _). split; [exact A|].
        apply forallb_forall. intros x I. destruct (number_of _ _ I) as [j J]. rewrite forallb_forall in B.
        specialize (B _ (in_map (fun p => (Scalar TInt (SInt (Z.of_nat (fst p))), snd p)) _ _ J)). cbn in B. exact B.
      - intros [A B]. splits; try reflexivity; [exact A|]. apply forallb_forall. intros [x y] I. apply in_map_iff in I as ([j z] & [= <- <-] & I).
        cbn. rewrite forallb_forall in B. apply B. exact (number_In _ _ I). }
    rewrite (Fs _ eq_refl). apply and_iff_compat_l. clear Fs Es sp.
    induction E as [|[[a i] k] b o ns E H IH]; [cbn; split; [intros _ ? ? ? []|reflexivity]|].
    inversion F as [|? ? (F1 & F2 & F3) F4]; subst. specialize (IH F4). cbn [fst snd] in *.
    destruct (represent a) as [na|] eqn:Ea; [|discriminate]. destruct (represent i) as [ni|] eqn:Ei; [|discriminate].
    apply rmap_ok in E as (nk & Ek & ->). cbn [forallb]. rewrite Bool.andb_true_iff, IH.
    cbn [native forallb text]. rewrite !Bool.andb_true_iff. rewrite (F1 _ eq_refl), (F2 _ eq_refl), (F3 _ Ek). split.
    + intros [(_ & (_ & A) & (_ & B) & (_ & C) & _) D] a' i' k' [[= <- <- <-]|I]; [now splits|exact (D _ _ _ I)].
    + intros A. destruct (A _ _ _ (or_introl eq_refl)) as (A1 & A2 & A3). splits; auto. intros a' i' k' I. apply A. now right.
  - intros c l F n E. cbn [represent] in E. destruct (first_error l); [discriminate|]. apply rmap_ok in E as (ns & E & ->). apply mapM_ok in E.
    cbn [native forallb text]. rewrite !Bool.andb_true_iff, (attrs_native shown_gen l ns F E). split.
    + intros (_ & _ & H) u W. inversion W as [| | | | | | | | | | | |? ? n' u' I P1 P2 P3 W'|]; subst; [tauto|].
      apply (H n' u' I); [now apply shown_gen_spec|exact W'].
    + intros H. splits; try reflexivity. intros n' u' I S w W. apply shown_gen_spec in S as (S1 & S2 & S3). apply H. eapply W_gen; eassumption.
  - intros c ct l F n E. cbn [represent] in E. destruct (first_error l); [discriminate|]. apply rmap_ok in E as (ns & E & ->). apply mapM_ok in E.
    transitivity (forallb (fun p => let '(a, b) := p in native a && native b) (somes ns) = true).
    { destruct (somes ns) as [|x y]; [cbn; tauto|]. cbn [native forallb text andb]. rewrite Bool.andb_true_r. tauto. }
    rewrite (attrs_native public l ns F E). split.
    + intros H u W. inversion W as [| | | | | | | | | | | | |? ? ? n' u' I P1 W']; subst; [tauto|]. exact (H n' u' I P1 u W').
    + intros H n' u' I S w W. apply H. eapply W_obj; eassumption.
Qed.

(** ** When it raises *)
Local Notation fails v := (exists e, represent v = Err e).
Local Notation spoilt v := (exists u, within u v /\ broken u).
Lemma list_fails l : Forall (fun v => fails v <-> spoilt v) l -> (exists e, mapM represent l = Err e) <-> exists u, In u l /\ spoilt u.
Proof.
  intros F. rewrite mapM_err. rewrite Forall_forall in F. split.
  - intros (a & e & I & E). exists a. split; [exact I|]. apply F; eauto.
  - intros (a & I & S). apply F in S as [e E]; [|exact I]. eauto.
Qed.
Lemma attrs_fail (shown : string -> bool) l : Forall (Pattr (fun v => fails v <-> spoilt v)) l ->
  (exists e, mapM (fun a => match a with
     | Attr n c (Ok u) => if shown n && negb c then rmap (fun x => Some (text n, x)) (represent u) else Ok None
     | Attr _ _ (Err _) => Ok None end) l = Err e) <-> exists n u, In (Attr n false (Ok u)) l /\ shown n = true /\ spoilt u.
Proof.
  intros F. rewrite mapM_err. rewrite Forall_forall in F. split.
  - intros ([n c [u|e']] & e & I & E); [|discriminate]. destruct (shown n && negb c) eqn:S; [|discriminate].
    apply Bool.andb_true_iff in S as [S1 S2]. apply Bool.negb_true_iff in S2. subst c. exists n, u. splits; [exact I|exact S1|].
    apply (F _ I). apply rmap_err with (f := fun x => Some (text n, x)). eauto.
  - intros (n & u & I & S & Sp). pose proof (F _ I) as Fu. cbn in Fu. apply Fu in Sp as [e E]. exists (Attr n false (Ok u)), e. split; [exact I|].
    rewrite S. cbn. now rewrite E.
Qed.
Theorem fails_iff : forall v, fails v <-> spoilt v.
Proof.
  apply (val_ind' (fun v => fails v <-> spoilt v)).
  - intros v L. split.
    + intros [e E]. exfalso. destruct v as [| | | | | | | | | |?|[|] ?| | | |[]|l| | |]; try (now destruct L); discriminate E.
    + intros (u & W & B). exfalso. assert (u = v) by (inversion W; subst; try reflexivity; destruct L). subst. destruct v; try destruct B; destruct L.
  - intros l F. cbn [represent]. rewrite rmap_err, (list_fails l F). split.
    + intros (a & I & u & W & B). exists u. split; [eapply W_list; eassumption|exact B].
    + intros (u & W & B). inversion W; subst; [destruct B|]. eauto 6.
  - intros l F. cbn [represent]. rewrite rmap_err, (list_fails l F). split.
    + intros (a & I & u & W & B). exists u. split; [eapply W_tuple; eassumption|exact B].
    + intros (u & W & B). inversion W; subst; [destruct B|]. eauto 6.
  - intros l F. cbn [represent]. rewrite rmap_err, (list_fails l F). split.
    + intros (a & I & u & W & B). exists u. split; [eapply W_set; eassumption|exact B].
    + intros (u & W & B). inversion W; subst; [destruct B|]. eauto 6.
  - intros l F. cbn [represent]. rewrite rmap_err, (list_fails l F). split.
    + intros (a & I & u & W & B). exists u. split; [eapply W_flow; eassumption|exact B].
    + intros (u & W & B). inversion W; subst; [destruct B|]. eauto 6.
  - intros l F. cbn [represent]. rewrite rmap_err, (list_fails l F). split.
    + intros (a & I & u & W & B). exists u. split; [eapply W_array; eassumption|exact B].
    + intros (u & W & B). inversion W; subst; [destruct B|]. eauto 6.
  - intros l F. cbn [represent]. rewrite rmap_err, mapM_err. rewrite Forall_forall in F. split.
    + intros ([k u] & e & I & E). destruct (F _ I) as [F1 F2]. cbn [fst snd] in *. destruct (represent k) as [a|e'] eqn:Ek.
      * destruct (proj1 F2) as (x & W & B); [apply (rmap_err (pair a)); eauto|]. exists x. split; [eapply W_value; eassumption|exact B].
      * destruct (proj1 F1) as (x & W & B); [eauto|]. exists x. split; [eapply W_key; eassumption|exact B].
    + intros (x & W & B). inversion W; subst; [destruct B| |].
      * destruct (proj2 (proj1 (F _ H0))) as [e E]; [eauto|]. cbn in E. exists (k, u), e. split; [assumption|]. now rewrite E.
      * destruct (proj2 (proj2 (F _ H0))) as [e E]; [eauto|]. cbn in E. exists (k, u).
        destruct (represent k) as [a|e'] eqn:Ek; [exists e|exists e']; (split; [assumption|]); rewrite ?Ek; [now rewrite E|reflexivity].
  - intros c s o Fs F. cbn [represent]. rewrite Forall_forall in F.
    assert (G : (exists e, mapM (fun o : val * val * val => let '(c, i, k) := o in
                  match represent c with
                  | Err e => Err e
                  | Ok c => match represent i with
                            | Err e => Err e
                            | Ok i => rmap (fun k => Map TMap [(text "type", c); (text "init_kwargs", i); (text "call_kwargs", k)])
                                           (represent k)
                            end
                  end) o = Err e) <-> exists a i k, In (a, i, k) o /\ (spoilt a \/ spoilt i \/ spoilt k)).
    { rewrite mapM_err. split.
      - intros ([[a i] k] & e & I & E). exists a, i, k. split; [exact I|]. destruct (F _ I) as (F1 & F2 & F3). cbn [fst snd] in *.
        destruct (represent a) as [na|]; [|left; apply F1; eauto]. destruct (represent i) as [ni|]; [|right; left; apply F2; eauto].
        right; right. apply F3. match type of E with rmap ?f _ = _ => apply (rmap_err f); eauto end.
      - intros (a & i & k & I & S). exists (a, i, k). destruct (F _ I) as (F1 & F2 & F3). cbn [fst snd] in *.
        destruct (represent a) as [na|ea] eqn:Ea; [|eauto]. destruct (represent i) as [ni|ei] eqn:Ei; [|eauto].
        destruct S as [S|[S|S]].
        + destruct (proj2 F1 S) as [e E]. congruence.
        + destruct (proj2 F2 S) as [e E]. congruence.
        + destruct (proj2 F3 S) as [e E]. exists e. split; [exact I|]. now rewrite E. }
    split.
    + intros [e E]. destruct (represent s) as [sp|e'] eqn:Es.
      * match type of E with rmap ?f _ = _ => destruct (proj1 G (proj1 (rmap_err f _) (ex_intro _ e E))) as (a & i & k & I & S) end.
        destruct S as [(u & W & B)|[(u & W & B)|(u & W & B)]]; exists u; (split; [|exact B]); [eapply W_class|eapply W_init|eapply W_call]; eassumption.
      * destruct (proj1 Fs) as (u & W & B); [eauto|]. exists u. split; [apply W_spawn, W|exact B].
    + intros (u & W & B). destruct (represent s) as [sp|e'] eqn:Es; [|eauto]. apply rmap_err. apply G.
      inversion W; subst; [destruct B| | | |].
      * exfalso. destruct (proj2 Fs) as [e E]; [eauto|discriminate].
      * do 3 eexists. split; [eassumption|]. left. eauto.
      * do 3 eexists. split; [eassumption|]. right; left. eauto.
      * do 3 eexists. split; [eassumption|]. right; right. eauto.
  - intros c l F. cbn [represent]. destruct (first_error l) as [e|] eqn:FE.
    + destruct (first_error_some _ _ FE) as (n & b & I & P). split; [|eauto]. intros _. exists (VGen c l). split; [apply W_here|]. cbn. eauto.
    + rewrite rmap_err, (attrs_fail shown_gen l F). pose proof (proj1 (first_error_none l) FE) as NE. split.
      * intros (n & u & I & S & x & W & B). apply shown_gen_spec in S as (S1 & S2 & S3). exists x. split; [eapply W_gen; eassumption|exact B].
      * intros (x & W & B). inversion W as [| | | | | | | | | | | |? ? n' u' I P1 P2 P3 W'|]; subst.
        -- destruct B as (n & b & e & I & P). rewrite (NE _ _ _ I) in P. discriminate.
        -- exists n', u'. splits; [exact I|now apply shown_gen_spec|eauto].
  - intros c ct l F. cbn [represent]. destruct (first_error l) as [e|] eqn:FE.
    + destruct (first_error_some _ _ FE) as (n & b & I & P). split; [|eauto]. intros _. exists (VObj c ct l). split; [apply W_here|]. cbn. eauto.
    + rewrite rmap_err, (attrs_fail public l F). pose proof (proj1 (first_error_none l) FE) as NE. split.
      * intros (n & u & I & S & x & W & B). exists x. split; [eapply W_obj; eassumption|exact B].
      * intros (x & W & B). inversion W as [| | | | | | | | | | | | |? ? ? n' u' I P1 W']; subst.
        -- destruct B as (n & b & e & I & P). rewrite (NE _ _ _ I) in P. discriminate.
        -- exists n', u'. splits; [exact I|exact P1|eauto].
Qed.

(** ** What is shown of an object *)
Lemma entry_text k s v l : entry k ((text s, v) :: l) = if String.eqb s k then Some v else entry k l.
Proof. reflexivity. Qed.
Lemma attrs_entry (shown : string -> bool) l ns : NoDup (names l) ->
  Forall2 (fun a b => match a with
     | Attr n c (Ok u) => if shown n && negb c then rmap (fun x => Some (text n, x)) (represent u) else Ok None
     | Attr _ _ (Err _) => Ok None end = Ok b) l ns ->
  forall k x, entry k (somes ns) = Some x <-> exists u, In (Attr k false (Ok u)) l /\ shown k = true /\ represent u = Ok x.
Proof.
  intros ND H k x. induction H as [|[n c [u|e]] b l ns E H IH].
  - cbn. split; [discriminate|intros (? & [] & _)].
  - inversion ND as [|? ? N1 N2]; subst. specialize (IH N2). destruct (shown n && negb c) eqn:S.
    + apply rmap_ok in E as (y & E & ->). cbn [somes]. rewrite entry_text. apply Bool.andb_true_iff in S as [S1 S2].
      apply Bool.negb_true_iff in S2. subst c. destruct (String.eqb_spec n k) as [->|N].
      * split; [intros [= <-]; exists u; splits; [now left|exact S1|exact E]|].
        intros (u' & [[= <-]|I] & _ & E'); [congruence|]. exfalso. apply N1.
        change k with ((fun a => match a with Attr n _ _ => n end) (Attr k false (Ok u'))). now apply in_map.
      * rewrite IH. split; intros (u' & I & R); exists u'; (split; [|exact R]); [now right|destruct I as [[= <- _]|I]; [now contradict N|exact I]].
    + injection E as <-. cbn [somes]. rewrite IH. split; intros (u' & I & R & R2); exists u'; (split; [|now split]); [now right|].
      destruct I as [[= <- -> _]|I]; [cbn in S; now rewrite R in S|exact I].
  - inversion ND; subst. injection E as <-. cbn [somes]. rewrite (IH ltac:(assumption)). split; intros (u' & I & R); exists u'; (split; [|exact R]); [now right|].
    destruct I as [[=]|I]. exact I.
Qed.

Lemma object_shown c ct l n k x : NoDup (names l) -> represent (VObj c ct l) = Ok n ->
  look n [c; k] = Some x <-> exists u, In (Attr k false (Ok u)) l /\ public k = true /\ represent u = Ok x.
Proof.
  intros ND E. cbn [represent] in E. destruct (first_error l); [discriminate|]. apply rmap_ok in E as (ns & E & ->). apply mapM_ok in E.
  cbn [look]. rewrite entry_text, String.eqb_refl. pose proof (attrs_entry public l ns ND E k x) as H.
  destruct (somes ns) as [|y ys]; [cbn in *; exact H|]. destruct (entry k (y :: ys)); exact H.
Qed.
Lemma generator_shown c l n k x : NoDup (names l) -> k <> "Generator" -> represent (VGen c l) = Ok n ->
  look n [k] = Some x <-> exists u, In (Attr k false (Ok u)) l /\ public k = true /\ k <> "logger" /\ k <> "bounds" /\ represent u = Ok x.
Proof.
  intros ND NG E. cbn [represent] in E. destruct (first_error l); [discriminate|]. apply rmap_ok in E as (ns & E & ->). apply mapM_ok in E.
  cbn [look]. rewrite entry_text. destruct (String.eqb_spec "Generator" k); [congruence|].
  transitivity (entry k (somes ns) = Some x); [destruct (entry k (somes ns)); reflexivity|].
  rewrite (attrs_entry shown_gen l ns ND E k x). split; intros (u & I & H).
  - destruct H as [H1 H2]. apply shown_gen_spec in H1 as (A & B & C). now exists u.
  - destruct H as (A & B & C & D). exists u. splits; [exact I|now apply shown_gen_spec|exact D].
Qed.
Lemma selector_shown c s o n : represent (VSel c s o) = Ok n ->
  look n ["Selector"] = Some (text c) /\ (exists x, represent s = Ok x /\ look n ["Allow Spawn"] = Some x) /\
  exists l, look n ["Available Optimizers"] = Some (Map TMap l) /\ length l = length o /\
    forall i a k v, nth_error o i = Some (a, k, v) -> exists x na nk nv, nth_error l i = Some (Scalar TInt (SInt (Z.of_nat i)), x) /\
      represent a = Ok na /\ represent k = Ok nk /\ represent v = Ok nv /\
      look x ["type"] = Some na /\ look x ["init_kwargs"] = Some nk /\ look x ["call_kwargs"] = Some nv.
Proof.
  intros E. cbn [represent] in E. destruct (represent s) as [sp|] eqn:Es; [|discriminate].
  apply rmap_ok in E as (ns & E & ->). apply mapM_ok in E. splits.
  - reflexivity.
  - exists sp. now split.
  - eexists. splits; [reflexivity| |].
    + unfold number. rewrite map_length, combine_length, seq_length, Nat.min_id. symmetry. exact (Forall2_length_eq E).
    + intros i a k v Hi. destruct (Forall2_nth E Hi) as (x & Hx & R).
      destruct (represent a) as [na|] eqn:Ea; [|discriminate]. destruct (represent k) as [nk|] eqn:Ek; [|discriminate].
      apply rmap_ok in R as (nv & Ev & ->). exists (Map TMap [(text "type", na); (text "init_kwargs", nk); (text "call_kwargs", nv)]), na, nk, nv. splits; try assumption; try reflexivity.
      rewrite nth_error_map. unfold number.
      assert (G : forall (l : list node) j, nth_error (combine (seq j (length l)) l) i = option_map (fun y => ((j + i)%nat, y)) (nth_error l i)).
      { clear. induction i as [|i IH]; intros [|y l] j; cbn; try reflexivity; [now rewrite Nat.add_0_r|]. rewrite IH. now rewrite Nat.add_succ_r. }
      rewrite G, Hx. reflexivity.
Qed.

(** ** The file *)
Definition reaches (P : val -> Prop) v := exists u, within u v /\ P u.
Section Reaches.
  Variable P : val -> Prop.
  Hypothesis plain : forall v, P v -> match v with VDict _ | VStr _ | VList _ | VLiteral _ | VFlow _ | VInt _ | VNone => False | _ => True end.
  Lemma reaches_dict l : reaches P (VDict l) <-> Exists (fun kw => reaches P (fst kw) \/ reaches P (snd kw)) l.
  Proof.
    rewrite Exists_exists. split.
    - intros (u & W & H). inversion W; subst; [now apply plain in H| |]; (eexists (_, _); split; [eassumption|]); [left|right]; cbn; now exists u.
    - intros ([k w] & I & [(u & W & H)|(u & W & H)]); exists u; (split; [|exact H]); [eapply W_key|eapply W_value]; eassumption.
  Qed.
  Lemma reaches_list l : reaches P (VList l) <-> Exists (reaches P) l.
  Proof.
    rewrite Exists_exists. split.
    - intros (u & W & H). inversion W; subst; [now apply plain in H|]. eexists; split; [eassumption|]. now exists u.
    - intros (w & I & (u & W & H)). exists u; (split; [|exact H]). eapply W_list; eassumption.
  Qed.
  Lemma reaches_flow l : reaches P (VFlow l) <-> Exists (reaches P) l.
  Proof.
    rewrite Exists_exists. split.
    - intros (u & W & H). inversion W; subst; [now apply plain in H|]. eexists; split; [eassumption|]. now exists u.
    - intros (w & I & (u & W & H)). exists u; (split; [|exact H]). eapply W_flow; eassumption.
  Qed.
  Lemma reaches_str s : reaches P (VStr s) <-> False.
  Proof. split; [|tauto]. intros (u & W & H). inversion W; subst. now apply plain in H. Qed.
  Lemma reaches_lit s : reaches P (VLiteral s) <-> False.
  Proof. split; [|tauto]. intros (u & W & H). inversion W; subst. now apply plain in H. Qed.
  Lemma reaches_int s : reaches P (nat_v s) <-> False.
  Proof. split; [|tauto]. intros (u & W & H). inversion W; subst. now apply plain in H. Qed.
  Lemma reaches_none : reaches P VNone <-> False.
  Proof. split; [|tauto]. intros (u & W & H). inversion W; subst. now apply plain in H. Qed.
  Lemma reaches_strs l : reaches P (VList (map VStr l)) <-> False.
  Proof.
    rewrite reaches_list. split; [|tauto]. intros H. apply Exists_exists in H as (v & I & H). apply in_map_iff in I as (s & <- & _).
    now apply reaches_str in H.
  Qed.
  Lemma reaches_periods l : reaches P (VList (map (fun p : string * string => VDict [key "Start" (VStr (fst p)); key "End" (VStr (snd p))]) l)) <-> False.
  Proof.
    rewrite reaches_list. split; [|tauto]. intros H. apply Exists_exists in H as (v & I & H). apply in_map_iff in I as (s & <- & _).
    apply reaches_dict in H. unfold key in H. rewrite !Exists_cons in H. cbn [fst snd] in H. rewrite !reaches_str, Exists_nil in H. tauto.
  Qed.
End Reaches.

Lemma summary_reaches (P : val -> Prop) m r v : (forall v, P v -> match v with VDict _ | VStr _ | VList _ | VLiteral _ | VFlow _ | VInt _ | VNone => False | _ => True end) ->
  summary m r = Ok v -> (reaches P v <-> Exists (reaches P) (given m)).
Proof.
  intros plain E. unfold summary in E. destruct (m_start m && negb (m_end m)); [discriminate|].
  destruct (nested_string_formatting (m_checker m)) as [c|]; [|discriminate].
  destruct (match m_hunters m with None => _ | Some h => _ end) as [h|] eqn:Eh; [|discriminate].
  destruct (nested_string_formatting r) as [t|]; [|discriminate]. injection E as <-.
  assert (Hh : reaches P h <-> False).
  { destruct (m_hunters m); [apply rmap_ok in Eh as (x & _ & ->); now apply reaches_lit|injection Eh as <-; now apply reaches_none]. }
  unfold given, key.
  repeat first [rewrite (reaches_dict P plain)|rewrite Exists_cons|rewrite Exists_nil|rewrite Exists_app|progress cbn [fst snd]
    |rewrite (reaches_str P plain)|rewrite (reaches_lit P plain)|rewrite (reaches_int P plain)|rewrite (reaches_strs P plain)|rewrite (reaches_periods P plain)|rewrite Hh].
  assert (Hs : reaches P (if m_start m then VStr (m_session m) else VNone) <-> False) by (destruct (m_start m); [now apply reaches_str|now apply reaches_none]).
  assert (Hx : reaches P (match m_x m with Some l => VFlow l | None => VNone end) <-> Exists (reaches P) (match m_x m with Some l => l | None => [] end))
    by (destruct (m_x m); [now apply reaches_flow|rewrite (reaches_none P plain), Exists_nil; tauto]).
  rewrite Hs, Hx.
  assert (Hi : Exists (fun kw => reaches P (fst kw) \/ reaches P (snd kw)) match m_info m with Some v => [(VStr "Run Information", v)] | None => [] end
     <-> Exists (reaches P) match m_info m with Some v => [v] | None => [] end).
  { destruct (m_info m); rewrite ?Exists_cons, ?Exists_nil; cbn [fst snd]; rewrite ?(reaches_str P plain); tauto. }
  assert (Hc : Exists (fun kw => reaches P (fst kw) \/ reaches P (snd kw))
     match m_chk m with Some (d, l) => [(VStr "Checkpointing", VDict [(VStr "Directory", VStr d); (VStr "Checkpoints", VList (map VStr l))])] | None => [] end <-> False).
  { destruct (m_chk m) as [[d l]|]; rewrite ?Exists_cons, ?Exists_nil; cbn [fst snd]; [|tauto].
    rewrite (reaches_dict P plain), !Exists_cons, !Exists_nil; cbn [fst snd]. rewrite !(reaches_str P plain), (reaches_strs P plain). tauto. }
  rewrite Hi, Hc. tauto.
Qed.
Lemma foreign_plain v : foreign v -> match v with VDict _ | VStr _ | VList _ | VLiteral _ | VFlow _ | VInt _ | VNone => False | _ => True end.
Proof. destruct v; cbn; tauto. Qed.
Lemma broken_plain v : broken v -> match v with VDict _ | VStr _ | VList _ | VLiteral _ | VFlow _ | VInt _ | VNone => False | _ => True end.
Proof. destruct v; cbn; tauto. Qed.


Lemma summary_ok_iff m r : (exists v, summary m r = Ok v) <-> (m_start m = true -> m_end m = true) /\ (m_checker m <> "" /\ m_checker m <> "[") /\
  (forall h, m_hunters m = Some h -> h <> "" /\ h <> "[") /\ (r <> "" /\ r <> "[").
Proof.
  unfold summary. pose proof (C46_formatting_fails_iff (m_checker m)) as Hc. pose proof (C46_formatting_fails_iff r) as Hr.
  assert (Hh : (exists v, match m_hunters m with None => Ok VNone | Some h => rmap VLiteral (nested_string_formatting h) end = Ok v) <->
    (forall h, m_hunters m = Some h -> h <> "" /\ h <> "[")).
  { destruct (m_hunters m) as [h|]; [|split; [discriminate|eauto]]. pose proof (C46_formatting_fails_iff h) as G.
    split.
    - intros [v E] h' [= <-]. apply rmap_ok in E as (x & E & _). apply G. eauto.
    - intros F. destruct (proj2 G (F h eq_refl)) as [x ->]. cbn. eauto. }
  destruct (m_start m), (m_end m); cbn [andb negb]; try (split; [intros [v [=]]|intros (F & _); now discriminate F]).
  all: rewrite <- Hc, <- Hr, <- Hh; clear Hc Hr Hh.
  all: destruct (nested_string_formatting (m_checker m)); [|split; [intros [v [=]]|intros (_ & [? [=]] & _)]].
  all: destruct (match m_hunters m with None => Ok VNone | Some h => rmap VLiteral (nested_string_formatting h) end); [|split; [intros [v [=]]|intros (_ & _ & [? [=]] & _)]].
  all: destruct (nested_string_formatting r); [|split; [intros [v [=]]|intros (_ & _ & _ & [? [=]])]].
  all: split; [intros _; splits; eauto|eauto].
Qed.

Lemma save_ok m r c level plot d d' : (0 < level)%nat -> save_log m r c level plot d = (Ok tt, d') ->
  exists r' v n, summary m r' = Ok v /\ represent v = Ok n /\ d_yml d' = Some (Some n).
Proof.
  intros L. unfold save_log. rewrite (proj2 (Nat.ltb_lt 0 level) L).
  set (r' := match c with Some _ => _ | None => _ end). clearbody r'.
  destruct (summary m r') as [v|] eqn:Ev; [|discriminate]. destruct (represent v) as [n|] eqn:En; [|discriminate].
  intros E. exists r', v, n. splits; try assumption.
  destruct (Nat.ltb 1 level); [|inversion E; reflexivity]. destruct plot; [discriminate|]. cbn [d_yml d_png d_h5] in E.
  destruct (Nat.ltb 2 level); inversion E; reflexivity.
Qed.
(** Following a path in a value whose dictionaries have texts as keys. *)
Fixpoint ventry (k : string) (l : list (val * val)) : option val :=
  match l with (VStr s, v) :: l => if String.eqb s k then Some v else ventry k l | _ => None end.
Fixpoint vlook (v : val) (p : list string) : option val :=
  match p with
  | [] => Some v
  | k :: p => match v with VDict l => match ventry k l with Some u => vlook u p | None => None end | _ => None end
  end.
Lemma vlook_look p : forall v n u, represent v = Ok n -> vlook v p = Some u -> exists x, represent u = Ok x /\ look n p = Some x.
Proof.
  induction p as [|k p IH]; intros v n u E V; cbn [vlook] in V.
  - injection V as <-. eauto.
  - destruct v; try discriminate. destruct (ventry k l) as [w|] eqn:Ew; [|discriminate].
    cbn [represent] in E. apply rmap_ok in E as (ns & E & ->). apply mapM_ok in E. cbn [look].
    assert (G : exists y, represent w = Ok y /\ entry k ns = Some y).
    { clear IH V. induction E as [|[a b] nb l ns E F IH]; [discriminate|]. cbn [ventry] in Ew. destruct a; try discriminate.
      cbn [represent] in E. apply rmap_ok in E as (y & E & ->). rewrite entry_text. destruct (String.eqb s k); [injection Ew as ->; eauto|auto]. }
    destruct G as (y & Ey & ->). now apply (IH w).
Qed.
Lemma vlook_none k l n : represent (VDict l) = Ok n -> (forall a, In a (map fst l) -> exists s, a = VStr s /\ s <> k) -> look n [k] = None.
Proof.
  intros E K. cbn [represent] in E. apply rmap_ok in E as (ns & E & ->). apply mapM_ok in E. cbn [look].
  enough (entry k ns = None) as -> by reflexivity.
  induction E as [|[a b] nb l ns E F IH]; [reflexivity|]. destruct (K a (or_introl eq_refl)) as (s & -> & N).
  cbn [represent] in E. apply rmap_ok in E as (y & E & ->). rewrite entry_text. apply String.eqb_neq in N. rewrite N. apply IH.
  intros a H. apply K. now right.
Qed.
Lemma vlook_summary m r v : summary m r = Ok v ->
  (forall p x, In (p, x) (expected m) -> exists u, vlook v p = Some u /\ represent u = Ok x) /\
  (forall p u, In (p, u) (objects m) -> vlook v p = Some u) /\
  (forall n, represent v = Ok n -> (look n ["Checkpointing"] = None <-> m_chk m = None) /\ (look n ["Run Information"] = None <-> m_info m = None)) /\
  vlook v ["Assignment"; "Task"] = Some (VStr (type_name (m_task m))).
Proof.
  intros Ev. unfold summary in Ev. destruct (m_start m && negb (m_end m)); [discriminate|].
  destruct (nested_string_formatting (m_checker m)) as [ch|]; [|discriminate].
  destruct (match m_hunters m with None => _ | Some h => _ end) as [h|] eqn:Eh; [|discriminate].
  destruct (nested_string_formatting r) as [t|]; [|discriminate]. injection Ev as <-. splits.
  - intros p x I. cbn [expected In] in I. repeat (destruct I as [[= <- <-]|I]; [eexists; split; reflexivity|]). destruct I.
  - intros p u I. unfold objects in I. destruct (m_x m) as [xs|], (m_info m), (m_chk m) as [[? ?]|]; cbn [In app] in I;
      repeat (destruct I as [[= <- <-]|I]; [reflexivity|]); destruct I.
  - intros n E. split.
    + split.
      * intros Lk. destruct (m_chk m) as [[d l]|]; [|reflexivity]. exfalso.
        destruct (vlook_look ["Checkpointing"] _ _ (VDict [key "Directory" (VStr d); key "Checkpoints" (VList (map VStr l))]) E) as (x & _ & G);
          [destruct (m_info m); reflexivity|congruence].
      * intros Hn. rewrite Hn in E. apply (vlook_none _ _ _ E). intros a I. destruct (m_info m); cbn in I;
          repeat (destruct I as [<-|I]; [eexists; split; [reflexivity|discriminate]|]); destruct I.
    + split.
      * intros Lk. destruct (m_info m) as [w|]; [|reflexivity]. exfalso.
        destruct (vlook_look ["Run Information"] _ _ w E) as (x & _ & G); [reflexivity|congruence].
      * intros Hn. rewrite Hn in E. apply (vlook_none _ _ _ E). intros a I. destruct (m_chk m) as [[d l]|]; cbn in I;
          repeat (destruct I as [<-|I]; [eexists; split; [reflexivity|discriminate]|]); destruct I.
  - reflexivity.
Qed.

(** ** Reading the file again *)
Lemma every_F2 {A B} (f : A -> option B) l : forall bs, every f l = Some bs <-> Forall2 (fun a b => f a = Some b) l bs.
Proof.
  induction l as [|a l IH]; intros bs; cbn; split.
  - intros [= <-]. constructor.
  - intros H. inversion H. reflexivity.
  - destruct (f a) as [b|] eqn:E; [|discriminate]. destruct (every f l) as [bs'|]; [|discriminate].
    intros [= <-]. constructor; [exact E|]. now apply IH.
  - intros H. inversion H as [|? b ? bs' H1 H2]; subst. rewrite H1. apply IH in H2. now rewrite H2.
Qed.
Definition back (v : val) : Prop := forall w, basic v = Some w -> exists n, represent v = Ok n /\ reload n = Some w.
Lemma back_list l ws : Forall back l -> every basic l = Some ws ->
  exists ns, mapM represent l = Ok ns /\ every reload ns = Some ws.
Proof.
  intros F. revert ws. induction F as [|v l Hv F IH]; intros ws E; cbn in E.
  - injection E as <-. now exists [].
  - destruct (basic v) as [w|] eqn:Ev; [|discriminate]. destruct (every basic l) as [ws'|]; [|discriminate]. injection E as <-.
    destruct (Hv w Ev) as (n & R & L). destruct (IH ws' eq_refl) as (ns & Rs & Ls). exists (n :: ns). cbn. now rewrite R, Rs, L, Ls.
Qed.
Lemma round_trip v : back v.
Proof.
  induction v using val_ind'; unfold back; intros w E.
  - destruct v; try contradiction; cbn in E; try discriminate; try (injection E as <-; eexists; split; reflexivity).
    + destruct abstract; [|discriminate]. injection E as <-. eexists. split; reflexivity.
    + destruct v; try discriminate; injection E as <-; eexists; split; reflexivity.
  - cbn in E. destruct (every basic l) as [ws|] eqn:El; [|discriminate]. injection E as <-.
    destruct (back_list l ws H El) as (ns & R & L). cbn. rewrite R. cbn. eexists. split; [reflexivity|]. cbn. now rewrite L.
  - discriminate.
  - cbn in E. destruct (every basic l) as [ws|] eqn:El; [|discriminate]. injection E as <-.
    destruct (back_list l ws H El) as (ns & R & L). cbn. rewrite R. cbn. eexists. split; [reflexivity|]. cbn.
    assert (G : every (fun p : node * node => let '(a, b) := p in match reload b with Some VNone => reload a | _ => None end) (map (fun n => (n, null)) ns) = Some ws).
    { clear - L. revert ws L. induction ns as [|n ns IH]; intros ws L; cbn in *; [exact L|]. destruct (reload n); [|discriminate].
      destruct (every reload ns) as [ws'|]; [|discriminate]. now rewrite (IH _ eq_refl). }
    now rewrite G.
  - cbn in E. destruct (every basic l) as [ws|] eqn:El; [|discriminate]. injection E as <-.
    destruct (back_list l ws H El) as (ns & R & L). cbn. rewrite R. cbn. eexists. split; [reflexivity|]. cbn. now rewrite L.
  - cbn in E. destruct (every basic l) as [ws|] eqn:El; [|discriminate]. injection E as <-.
    destruct (back_list l ws H El) as (ns & R & L). cbn. rewrite R. cbn. eexists. split; [reflexivity|]. cbn. now rewrite L.
  - cbn [basic] in E. destruct (every _ l) as [ws|] eqn:El; [|discriminate]. injection E as <-. cbn [represent].
    match goal with |- context [mapM ?f l] => assert (G : exists ns, mapM f l = Ok ns /\
      every (fun p : node * node => let '(a, b) := p in match reload a, reload b with Some a, Some b => Some (a, b) | _, _ => None end) ns = Some ws) end.
    { revert ws El. induction H as [|[a b] l [Ha Hb] F IH]; intros ws El; cbn in El.
      - injection El as <-. now exists [].
      - cbn in Ha, Hb. destruct (basic a) as [wa|] eqn:Ea; [|discriminate]. destruct (basic b) as [wb|] eqn:Eb; [|discriminate].
        destruct (every _ l) as [ws'|]; [|discriminate]. injection El as <-.
        destruct (Ha wa Ea) as (na & Ra & La). destruct (Hb wb Eb) as (nb & Rb & Lb). destruct (IH ws' eq_refl) as (ns & Rs & Ls).
        exists ((na, nb) :: ns). cbn. rewrite Ra, Rb. cbn. rewrite Rs. now rewrite La, Lb, Ls. }
    destruct G as (ns & R & L). rewrite R. cbn. eexists. split; [reflexivity|]. cbn. now rewrite L.
  - discriminate.
  - discriminate.
  - discriminate.
Qed.
Lemma attrs_hidden shown (l : list (attr val)) ns k :
  Forall2 (fun a b => match a with
                     | Attr n c (Ok u) => if shown n && negb c then rmap (fun x => Some (text n, x)) (represent u) else Ok None
                     | Attr _ _ (Err _) => Ok None end = Ok b) l ns ->
  shown k = false -> entry k (somes ns) = None.
Proof.
  intros H S. induction H as [|[n c [u|e]] b l ns E H IH]; [reflexivity| |].
  - destruct (shown n && negb c) eqn:Sn; [|injection E as <-; exact IH]. apply rmap_ok in E as (y & E & ->). cbn [somes]. rewrite entry_text.
    destruct (String.eqb_spec n k) as [->|]; [rewrite S in Sn; discriminate|exact IH].
  - injection E as <-. exact IH.
Qed.
Lemma unpad_cons a s : (forall s', String a s <> pad ++ s') -> unpad (String a s) = String a (unpad s).
Proof.
  intros N. cbn [unpad]. destruct s as [|b s]; [reflexivity|]. destruct (Ascii.eqb_spec a " ") as [->|]; [|reflexivity].
  destruct (Ascii.eqb_spec b (ascii_of_nat 10)) as [->|]; [|reflexivity]. exfalso. now apply (N s).
Qed.
Lemma save_ok_told m r c level plot d d' : (0 < level)%nat -> save_log m r c level plot d = (Ok tt, d') ->
  exists v n, summary m (told r c) = Ok v /\ represent v = Ok n /\ d_yml d' = Some (Some n).
Proof.
  intros L. unfold save_log. rewrite (proj2 (Nat.ltb_lt 0 level) L).
  assert (match c with Some c0 => if String.eqb c0 "" then r else "Process Crash: " ++ c0 | None => r end = told r c) as ->
    by (destruct c as [[|a s]|]; reflexivity).
  destruct (summary m (told r c)) as [v|] eqn:Ev; [|discriminate]. destruct (represent v) as [n|] eqn:En; [|discriminate].
  intros E. exists v, n. splits; try assumption; try reflexivity.
  destruct (Nat.ltb 1 level); [|inversion E; reflexivity]. destruct plot; [discriminate|]. cbn [d_yml d_png d_h5] in E.
  destruct (Nat.ltb 2 level); inversion E; reflexivity.
Qed.
