(** * The checkpoint conversation: invariant *)
From Verif Require Import Prelude_Proofs.
From Verif Require Export Sync_Spec.

(** ** Lists *)
Lemma upd_length {A} i (f : A -> A) l : length (upd i f l) = length l.
Proof. revert i. induction l as [|a l IH]; intros [|i]; cbn; auto. Qed.
Lemma upd_nth {A} i (f : A -> A) l j : nth_error (upd i f l) j = if Nat.eqb i j then option_map f (nth_error l j) else nth_error l j.
Proof. revert i j. induction l as [|a l IH]; intros [|i] [|j]; cbn; auto. destruct (Nat.eqb i j); reflexivity. Qed.
Lemma upd_all_length {A} (p : nat -> bool) (f : A -> A) l : length (upd_all p f l) = length l.
Proof. unfold upd_all. rewrite map_length, combine_length, seq_length. lia. Qed.
Lemma upd_all_from {A} (p : nat -> bool) (f : A -> A) l k j :
  nth_error (map (fun ia : nat * A => if p (fst ia) then f (snd ia) else snd ia) (combine (seq k (length l)) l)) j
  = option_map (fun a => if p (k + j) then f a else a) (nth_error l j).
Proof.
  revert k j. induction l as [|a l IH]; intros k [|j]; cbn; auto.
  - rewrite Nat.add_0_r. reflexivity.
  - rewrite IH. replace (S k + j) with (k + S j) by lia. reflexivity.
Qed.
Lemma upd_all_nth {A} (p : nat -> bool) (f : A -> A) l j : nth_error (upd_all p f l) j = option_map (fun a => if p j then f a else a) (nth_error l j).
Proof. apply (upd_all_from p f l 0 j). Qed.
Arguments upd_all : simpl never.
Local Arguments nmem : simpl never.
Lemma drop_in i j l : In j (drop i l) <-> In j l /\ i <> j.
Proof. unfold drop. rewrite filter_In. destruct (Nat.eqb_spec i j); cbn; intuition congruence. Qed.
Lemma drop_nodup i l : NoDup l -> NoDup (drop i l).
Proof. apply NoDup_filter. Qed.
Lemma drop_length i l : In i l -> length (drop i l) < length l.
Proof.
  induction l as [|a l IH]; intros H; [destruct H|]. cbn. destruct (Nat.eqb_spec i a) as [->|N]; cbn.
  - assert (length (drop a l) <= length l) by (unfold drop; clear; induction l as [|b l IH]; cbn; [lia|]; destruct (negb _); cbn; lia). unfold drop in *. lia.
  - destruct H as [->|H]; [congruence|]. apply IH in H. unfold drop in *. lia.
Qed.

(** ** One optimizer *)
Definition onext (h : choice) (room_now room : bool) (o : opt) : opt :=
  match o_at o with
  | Loop => if o_stop o || Nat.eqb (o_left o) 0 then at_ Farewell o else if h_raise h then crash o else at_ Put (evaluated o)
  | Put => if room_now then at_ (Check false) o else o
  | Check f =>
      match o_in o with
      | [] => at_ (if f then Bye else Gate) o
      | m :: l =>
          match m with
          | Stop => stopped (set_in l o)
          | Prep => at_ (Wait f false) (reply Paused (set_in l o))
          | Save k => if h_raise h then crash (set_in l o) else saved k (set_in l o)
          | Pass | Share => set_in l o
          end
      end
  | Gate => if o_run o then at_ Loop o else o
  | Wait f got =>
      match o_in o with
      | [] => if got then at_ (Clear f) o else o
      | m :: l =>
          match m with
          | Stop => stopped (set_in l o)
          | Prep => at_ Lost (set_in l o)
          | Save k => if h_raise h then crash (set_in l o) else at_ (Wait f true) (saved k (set_in l o))
          | Pass => at_ (Wait f true) (set_in l o)
          | Share => set_in l o
          end
      end
  | Clear f => at_ (Held f) (set_run false o)
  | Held f => if o_run o then at_ (Check f) o else o
  | Farewell => at_ (Check true) (reply Ended o)
  | Bye => if room then at_ Dead o else o
  | Dead | Lost => o
  end.
Definition is_some {A} (x : option A) : bool := match x with Some _ => true | None => false end.

Lemma put_now_keeps c it s s' : put_nowait c it s = Some s' -> s_opts s' = s_opts s /\ s_seen s' = s_seen s /\ s_no s' = s_no s /\ s_m s' = s_m s.
Proof. unfold put_nowait. destruct (s_fast s); [destruct (Nat.leb _ _)|]; destruct (full c s); intro H; inversion H; subst; cbn; auto. Qed.
Lemma put_keeps c it s s' : put c it s = Some s' -> s_opts s' = s_opts s /\ s_seen s' = s_seen s /\ s_no s' = s_no s /\ s_m s' = s_m s.
Proof. unfold put. destruct (full c s); [discriminate|]. destruct (s_fast s); intro H; inversion H; subst; cbn; auto. Qed.

Lemma upd_upd {A} i (f g : A -> A) l : upd i f (upd i g l) = upd i (fun a => f (g a)) l.
Proof. revert i. induction l as [|a l IH]; intros [|i]; cbn; auto. rewrite IH. reflexivity. Qed.
Lemma upd_same {A} i (f : A -> A) l a : nth_error l i = Some a -> f a = a -> upd i f l = l.
Proof. revert i. induction l as [|b l IH]; intros [|i]; cbn; try discriminate; intros H E; [injection H as ->; rewrite E; reflexivity|]. rewrite IH; auto. Qed.
Lemma upd_ext {A} i (f g : A -> A) l a : nth_error l i = Some a -> f a = g a -> upd i f l = upd i g l.
Proof. revert i. induction l as [|b l IH]; intros [|i]; cbn; try discriminate; intros H E; [injection H as ->; rewrite E; reflexivity|]. erewrite IH; eauto. Qed.

Lemma ostep_opts c h i s o : nth_error (s_opts s) i = Some o ->
  s_opts (ostep c h i s) = upd i (onext h (is_some (put_nowait c (Res i) s)) (is_some (put c (End i) s))) (s_opts s).
Proof.
  intro E. unfold ostep. rewrite E.
  assert (K : forall f, f o = onext h (is_some (put_nowait c (Res i) s)) (is_some (put c (End i) s)) o ->
    upd i f (s_opts s) = upd i (onext h (is_some (put_nowait c (Res i) s)) (is_some (put c (End i) s))) (s_opts s)) by (intros; eapply upd_ext; eauto).
  assert (K0 : o = onext h (is_some (put_nowait c (Res i) s)) (is_some (put c (End i) s)) o ->
    s_opts s = upd i (onext h (is_some (put_nowait c (Res i) s)) (is_some (put c (End i) s))) (s_opts s)) by (intros; symmetry; eapply upd_same; eauto).
  destruct (o_at o) eqn:A; unfold change, set_opts; cbn [s_opts].
  - destruct (o_stop o || (o_left o =? 0)) eqn:B; [|destruct (h_raise h) eqn:B2]; cbn [s_opts]; apply K; unfold onext; rewrite A, B; try rewrite B2; reflexivity.
  - destruct (put_nowait c (Res i) s) as [s'|] eqn:P; cbn [s_opts is_some].
    + destruct (put_now_keeps _ _ _ _ P) as [-> _]. apply K. unfold onext. rewrite A. reflexivity.
    + apply K0. unfold onext. rewrite A. reflexivity.
  - destruct (o_in o) as [|m l] eqn:B; cbn [s_opts]; [apply K; unfold onext; rewrite A, B; reflexivity|].
    destruct m; try destruct (h_raise h) eqn:B2; cbn [s_opts]; rewrite ?upd_upd; apply K; unfold onext; rewrite A, B; try rewrite B2; reflexivity.
  - destruct (o_run o) eqn:B; cbn [s_opts]; [apply K| apply K0]; unfold onext; rewrite A, B; reflexivity.
  - destruct (o_in o) as [|m l] eqn:B; cbn [s_opts].
    + destruct got; cbn [s_opts]; [apply K| apply K0]; unfold onext; rewrite A, B; reflexivity.
    + destruct m; try destruct (h_raise h) eqn:B2; cbn [s_opts]; rewrite ?upd_upd; apply K; unfold onext; rewrite A, B; try rewrite B2; reflexivity.
  - apply K; unfold onext; rewrite A; reflexivity.
  - destruct (o_run o) eqn:B; cbn [s_opts]; [apply K| apply K0]; unfold onext; rewrite A, B; reflexivity.
  - apply K; unfold onext; rewrite A; reflexivity.
  - destruct (put c (End i) s) as [s'|] eqn:P; cbn [s_opts is_some].
    + destruct (put_keeps _ _ _ _ P) as [-> _]. apply K. unfold onext. rewrite A. reflexivity.
    + apply K0. unfold onext. rewrite A. reflexivity.
  - apply K0. unfold onext. rewrite A. reflexivity.
  - apply K0. unfold onext. rewrite A. reflexivity.
Qed.
Lemma ostep_keeps c h i s : s_seen (ostep c h i s) = s_seen s /\ s_no (ostep c h i s) = s_no s /\ s_m (ostep c h i s) = s_m s.
Proof.
  unfold ostep. destruct (nth_error _ _) as [o|]; auto.
  destruct (o_at o); unfold change, set_opts; cbn; auto.
  - destruct (_ || _); [|destruct (h_raise h)]; cbn; auto.
  - destruct (put_nowait _ _ _) eqn:P; auto. apply put_now_keeps in P. cbn. tauto.
  - destruct (o_in o) as [|[]]; cbn; auto. destruct (h_raise h); auto.
  - destruct (o_run o); auto.
  - destruct (o_in o) as [|[]]; cbn; auto; [destruct got; auto|]. destruct (h_raise h); auto.
  - destruct (o_run o); auto.
  - destruct (put _ _ _) eqn:P; auto. apply put_keeps in P. cbn. tauto.
Qed.

(** ** Stages of one optimizer as the manager sees it *)
Inductive stage := Free | Asked | Replied | Ordered (k : option nat) | Parked (k : option nat) | Gone | Rest | Any.
Definition quiet (l : list msg) : Prop := Forall (fun m => m = Stop \/ m = Share) l.
Definition around (m : msg) (l : list msg) : Prop := exists a b, l = a ++ m :: b /\ quiet a /\ quiet b.
Definition loose (p : place) : Prop := match p with Wait _ _ | Clear _ | Lost => False | _ => True end.
Definition order (k : option nat) : msg := match k with Some n => Save n | None => Pass end.
Definition done (k : option nat) (o : opt) : Prop := match k with Some n => In (n, o_made o) (o_saved o) | None => True end.
Definition ok (st : stage) (o : opt) : Prop :=
  match st with
  | Free => o_at o = Dead \/ (quiet (o_in o) /\ ~ In Paused (o_out o) /\ o_run o = true /\ loose (o_at o))
  | Asked => o_at o = Dead \/
      (o_run o = true /\ ((around Prep (o_in o) /\ ~ In Paused (o_out o) /\ loose (o_at o)) \/
                          (quiet (o_in o) /\ waiting o /\ exists a, o_out o = a ++ [Paused] /\ ~ In Paused a)))
  | Replied => quiet (o_in o) /\ o_out o = [] /\ o_run o = true /\ waiting o
  | Ordered k => (o_failed o = true /\ o_run o = true /\ (o_at o = Bye \/ o_at o = Dead)) \/
      (o_out o = [] /\
       ((o_run o = true /\ around (order k) (o_in o) /\ waiting o) \/
        (quiet (o_in o) /\ done k o /\
         ((o_run o = true /\ exists f, o_at o = Wait f true \/ o_at o = Clear f) \/ (o_run o = false /\ exists f, o_at o = Held f)))))
  | Parked k => quiet (o_in o) /\ o_out o = [] /\ done k o /\ o_run o = false /\ exists f, o_at o = Held f
  | Gone => o_at o = Dead
  | Rest => o_at o = Dead \/ (quiet (o_in o) /\ o_out o = [] /\ o_run o = false /\ exists f, o_at o = Held f)
  | Any => True
  end.

Lemma quiet_cons m l : quiet (m :: l) -> (m = Stop \/ m = Share) /\ quiet l.
Proof. intro H. inversion H; auto. Qed.
Lemma quiet_app a b : quiet a -> quiet b -> quiet (a ++ b).
Proof. intros. apply Forall_app; auto. Qed.
Lemma around_cons x m l : around x (m :: l) -> (m = x /\ quiet l) \/ ((m = Stop \/ m = Share) /\ around x l).
Proof.
  intros [[|y a] [b [E [Qa Qb]]]]; cbn in E; injection E as -> ->; [left; auto|]. apply quiet_cons in Qa as [Q1 Q2]. right. split; [exact Q1|]. exists a, b. auto.
Qed.
Lemma around_not_nil x : ~ around x [].
Proof. intros [[|] [? [E _]]]; discriminate. Qed.

Lemma onext_ok h a b st o : ok st o -> ok st (onext h a b o).
Proof.
  destruct st; cbn [ok]; auto.
  - intros [D|[Q [NP [R L]]]]; [left; unfold onext; rewrite D; exact D|]. right. unfold onext. destruct (o_at o) eqn:A; cbn in L; try contradiction.
    + destruct (_ || _); [cbn; auto|]. destruct (h_raise h); cbn; splits; auto. intro H. apply in_app_or in H. destruct H as [H|[H|[]]]; [auto|discriminate].
    + destruct a; [cbn; auto | rewrite A; auto].
    + destruct (o_in o) as [|m l] eqn:B; [destruct f; cbn; rewrite B; auto|]. apply quiet_cons in Q as [[->| ->] Q]; cbn; rewrite ?A; auto.
    + rewrite R. cbn. auto.
    + rewrite R. cbn. auto.
    + cbn. splits; auto. intro H. apply in_app_or in H. destruct H as [H|[H|[]]]; [auto|discriminate].
    + destruct b; cbn; rewrite ?A; auto.
    + rewrite A; auto.
  - intros [D|[R [[P [NP L]]|[Q [[f W] [o1 [O1 O2]]]]]]].
    + left. unfold onext. rewrite D. exact D.
    + unfold onext. destruct (o_at o) eqn:A; cbn in L; try contradiction.
      * right. destruct (_ || _); [cbn; auto|]. destruct (h_raise h); cbn; splits; auto. left. splits; auto. intro H. apply in_app_or in H. destruct H as [H|[H|[]]]; [auto|discriminate].
      * right. destruct a; [cbn; auto | rewrite A; auto].
      * right. destruct (o_in o) as [|m l] eqn:B; [destruct (around_not_nil _ P)|]. apply around_cons in P as [[-> Q]|[[->| ->] P]]; cbn; rewrite ?A; auto.
        split; [assumption|]. right. splits; auto. { exists f. reflexivity. } eexists. split; [reflexivity| exact NP].
      * right. rewrite R. cbn. auto.
      * right. rewrite R. cbn. auto.
      * right. cbn. split; [assumption|]. left. splits; auto. intro H. apply in_app_or in H. destruct H as [H|[H|[]]]; [auto|discriminate].
      * destruct b; cbn; rewrite ?A; auto 6.
      * rewrite A; auto.
    + right. unfold onext. rewrite W. destruct (o_in o) as [|m l] eqn:B.
      * rewrite B. split; [assumption|]. right. splits; auto. { exists f; auto. } exists o1; auto.
      * apply quiet_cons in Q as [[->| ->] Q]; cbn; (split; [assumption|]; right; splits; auto; [exists f; auto | exists o1; auto]).
  - intros [Q [O [R [f W]]]]. unfold onext. rewrite W. destruct (o_in o) as [|m l] eqn:B.
    + rewrite B. splits; auto. exists f; auto.
    + apply quiet_cons in Q as [[->| ->] Q]; cbn; splits; auto; exists f; auto.
  - intros [[F [R D]]|[O [[R [P [f W]]]|[Q [DN [[R [f [W|W]]]|[R [f W]]]]]]]].
    + left. unfold onext. destruct D as [D|D]; rewrite D; [destruct b|]; cbn; auto.
    + unfold onext. rewrite W. destruct (o_in o) as [|m l] eqn:B; [destruct (around_not_nil _ P)|]. apply around_cons in P as [[-> Q]|[[->| ->] P]].
      * destruct k as [k|]; cbn [order].
        -- destruct (h_raise h); cbn; [left; auto|]. right. split; [assumption|]. right. splits; auto. left. split; [assumption|]. eauto.
        -- cbn. right. split; [assumption|]. right. splits; auto. left. split; [assumption|]. eauto.
      * cbn. right. split; [assumption|]. left. splits; auto. exists f; auto.
      * cbn. right. split; [assumption|]. left. splits; auto. exists f; auto.
    + right. unfold onext. rewrite W. destruct (o_in o) as [|m l] eqn:B.
      * cbn. split; [assumption|]. right. rewrite B. splits; auto. left. split; [assumption|]. eauto.
      * apply quiet_cons in Q as [[->| ->] Q]; cbn; (split; [assumption|]; right; splits; auto; left; split; [assumption|]; eauto).
    + right. unfold onext. rewrite W. cbn. split; [assumption|]. right. splits; auto. right. split; [reflexivity|]. eauto.
    + right. unfold onext. rewrite W, R. split; [assumption|]. right. splits; auto. right. split; [assumption|]. eauto.
  - intros [Q [O [D [R [f W]]]]]. unfold onext. rewrite W, R. splits; auto. exists f; auto.
  - intro D. unfold onext. rewrite D. exact D.
  - intros [D|[Q [O [R [f W]]]]]; unfold onext.
    + rewrite D. auto.
    + rewrite W, R. right. splits; auto. exists f; auto.
Qed.

(** Messages of kind Stop and Share may come at any time. *)
Lemma around_snoc x m l : m = Stop \/ m = Share -> around x l -> around x (l ++ [m]).
Proof. intros Hm [a [b [-> [Qa Qb]]]]. exists a, (b ++ [m]). rewrite <- app_assoc. splits; auto. apply quiet_app; auto. constructor; auto. Qed.
Lemma quiet_snoc m l : m = Stop \/ m = Share -> quiet l -> quiet (l ++ [m]).
Proof. intros Hm Q. apply quiet_app; auto. constructor; auto. Qed.
Lemma send_ok m st o : m = Stop \/ m = Share -> ok st o -> ok st (send m o).
Proof.
  intros Hm H. destruct st; cbn in *; auto.
  - destruct H as [D|[Q H]]; [left; exact D|right]. split; [apply quiet_snoc; auto | exact H].
  - destruct H as [D|[R [[P H]|[Q H]]]]; [left; exact D| right; split; [exact R|left] | right; split; [exact R|right]].
    + split; [apply around_snoc; auto | exact H].
    + split; [apply quiet_snoc; auto | exact H].
  - destruct H as [Q H]. split; [apply quiet_snoc; auto | exact H].
  - destruct H as [D|[O [[R [P H]]|[Q H]]]]; [left; exact D| right; split; [exact O|left] | right; split; [exact O|right]].
    + splits; auto. apply around_snoc; auto.
    + split; [apply quiet_snoc; auto | exact H].
  - destruct H as [Q H]. split; [apply quiet_snoc; auto | exact H].
  - destruct H as [D|[Q H]]; [left; exact D| right]. split; [apply quiet_snoc; auto | exact H].
Qed.

(** ** The stage from the place of the manager *)
Definition target (no : nat) (v : vars) (i : nat) : option nat := if nmem i (v_not v) then None else Some no.
Definition stage_of (m : mplace) (no : nat) (i : nat) : stage :=
  match m with
  | Idle => Free
  | MSend todo asked => if nmem i asked then Asked else if nmem i todo then Free else Gone
  | MLoop v | MDrain _ _ v | MPoll _ v => if nmem i (v_wait v) then Asked else if nmem i (v_living v) then Replied else Gone
  | MFlush _ v | MEmpty v => if nmem i (v_living v) then Replied else Gone
  | MSave todo v => if nmem i (v_living v) then if nmem i todo then Replied else Ordered (target no v i) else Gone
  | MClear _ rem v => if nmem i rem then Ordered (target no v i) else if nmem i (v_living v) then Parked (target no v i) else Gone
  | MFiles v => if nmem i (v_living v) then Parked (target no v i) else Gone
  | MStop _ => Rest
  | MRelease todo => if nmem i todo then Rest else Free
  | MUnhandled | MNotEmpty | MNoFile => Any
  end.
Definition base (n : nat) (v : vars) : Prop :=
  NoDup (v_asked v) /\ (forall i, In i (v_asked v) -> i < n) /\ NoDup (v_wait v) /\ NoDup (v_living v) /\
  incl (v_wait v) (v_living v) /\ incl (v_living v) (v_asked v) /\ (forall i, In i (v_asked v) -> In i (v_living v) \/ In i (v_not v)).
Definition sublist (todo l : list nat) : Prop := NoDup todo /\ incl todo l.
Definition vok (n : nat) (m : mplace) : Prop :=
  match m with
  | Idle => True
  | MSend todo asked => NoDup (asked ++ todo) /\ forall i, In i (asked ++ todo) -> i < n
  | MLoop v | MDrain _ _ v => base n v
  | MPoll todo v => base n v /\ sublist todo (v_wait v)
  | MFlush _ v | MEmpty v => base n v /\ v_wait v = []
  | MSave todo v => base n v /\ sublist todo (v_asked v)
  | MClear todo rem v => base n v /\ sublist rem (v_living v) /\ sublist todo rem
  | MFiles v => base n v
  | MStop todo | MRelease todo => NoDup todo
  | _ => True
  end.
Record Inv (s : sys) : Prop := mkInv {
  inv_ok : forall i o, nth_error (s_opts s) i = Some o -> ok (stage_of (s_m s) (s_no s) i) o;
  inv_v : vok (length (s_opts s)) (s_m s);
  inv_q : (forall v, s_m s = MEmpty v -> s_queue s = []) /\ s_m s <> MNotEmpty /\ s_m s <> MNoFile }.

Lemma rest_free o : ok Rest o -> ok Free (set_run true o).
Proof. intros [D|[Q [O [R [f W]]]]]; [left; exact D|]. right. cbn. rewrite O, W. splits; cbn; auto. Qed.
Lemma parked_rest k o : ok (Parked k) o -> ok Rest o.
Proof. intros [Q [O [D [R W]]]]. right. splits; auto. Qed.

Lemma keep_opts s s' : Inv s -> s_opts s' = s_opts s -> s_no s' = s_no s ->
  (forall i o, nth_error (s_opts s) i = Some o -> ok (stage_of (s_m s) (s_no s) i) o -> ok (stage_of (s_m s') (s_no s) i) o) ->
  vok (length (s_opts s)) (s_m s') -> ((forall v, s_m s' = MEmpty v -> s_queue s' = []) /\ s_m s' <> MNotEmpty /\ s_m s' <> MNoFile) -> Inv s'.
Proof. intros [H1 H2 H3] E1 E2 K V Q. constructor; auto; rewrite ?E1, ?E2; auto. Qed.

Lemma seq_nodup n : NoDup (seq 0 n). Proof. apply seq_NoDup. Qed.
Lemma nmem_true i l : In i l -> nmem i l = true. Proof. apply nmem_in. Qed.
Lemma nth_lt {A} (l : list A) i a : nth_error l i = Some a -> i < length l.
Proof. intro H. apply nth_error_Some. congruence. Qed.

Lemma ostep_inv c h i s : Inv s -> Inv (ostep c h i s).
Proof.
  intro I. destruct (nth_error (s_opts s) i) as [o|] eqn:E; [|unfold ostep; rewrite E; exact I].
  destruct (ostep_keeps c h i s) as [_ [K1 K2]]. pose proof (ostep_opts c h i s o E) as K3.
  destruct I as [H1 H2 [H3 [H4 H5]]]. constructor; rewrite ?K1, ?K2, ?K3, ?upd_length; auto.
  - intros j o' Hj. rewrite upd_nth in Hj. destruct (Nat.eqb_spec i j) as [->|N]; [|auto].
    rewrite E in Hj. injection Hj as <-. apply onext_ok. auto.
  - splits; auto. intros v Hm. pose proof (H1 i o E) as Hok. rewrite Hm in Hok. cbn in Hok. specialize (H3 v Hm).
    assert (W : waiting o \/ o_at o = Dead) by (destruct (nmem i (v_living v)); [left; apply Hok | right; exact Hok]).
    unfold ostep. rewrite E. destruct W as [[f W]|W]; rewrite W; [|exact H3].
    destruct (o_in o) as [|m l]; [exact H3|]. destruct m; try destruct (h_raise h); exact H3.
Qed.

Lemma upd_ok i f l (P Q : nat -> opt -> Prop) :
  (forall j o, nth_error l j = Some o -> P j o) -> (forall j o, j <> i -> P j o -> Q j o) -> (forall o, nth_error l i = Some o -> P i o -> Q i (f o)) ->
  forall j o, nth_error (upd i f l) j = Some o -> Q j o.
Proof.
  intros H H1 H2 j o E. rewrite upd_nth in E. destruct (Nat.eqb_spec i j) as [->|N].
  - destruct (nth_error l j) as [a|] eqn:B; cbn in E; [|discriminate]. injection E as <-. auto.
  - auto.
Qed.
Lemma handle_ok h it s st : (forall j o, nth_error (s_opts s) j = Some o -> ok (st j) o) ->
  forall j o, nth_error (s_opts (handle h it s)) j = Some o -> ok (st j) o.
Proof.
  intros H j o E. destruct it as [i|i]; cbn in E; [|auto]. rewrite upd_all_nth, upd_all_nth in E.
  destruct (nth_error (s_opts s) j) as [a|] eqn:B; cbn in E; [|discriminate]. injection E as <-. specialize (H j a B).
  assert (K : ok (st j) (if h_kill h j then send Stop a else a)) by (destruct (h_kill h j); [apply send_ok; auto | exact H]).
  destruct (h_tell h j); [apply send_ok; auto | exact K].
Qed.
Lemma handle_length h it s : length (s_opts (handle h it s)) = length (s_opts s).
Proof. destruct it; cbn; auto. rewrite !upd_all_length. reflexivity. Qed.
Lemma handle_queue h it s : s_queue (handle h it s) = s_queue s /\ s_no (handle h it s) = s_no s /\ s_fast (handle h it s) = s_fast s /\ s_cache (handle h it s) = s_cache s.
Proof. destruct it; cbn; auto. Qed.
Lemma noted_same h n it v : v_asked (noted h n it v) = v_asked v /\ v_wait (noted h n it v) = v_wait v /\ v_living (noted h n it v) = v_living v /\ incl (v_not v) (v_not (noted h n it v)).
Proof.
  destruct it; cbn; [splits; auto|]; try (apply incl_appr, incl_refl). destruct (h_skip h); cbn; splits; auto; try apply incl_refl. apply incl_tl, incl_refl.
Qed.
Lemma base_noted n h m it v : base n v -> base n (noted h m it v).
Proof.
  destruct (noted_same h m it v) as [A [B [C D]]]. unfold base. rewrite A, B, C. intros [H1 [H2 [H3 [H4 [H5 [H6 H7]]]]]]. splits; auto.
  intros i Hi. destruct (H7 i Hi); auto.
Qed.
Lemma base_exclude n i v : base n v -> base n (exclude i v).
Proof. unfold base. cbn. intros [H1 [H2 [H3 [H4 [H5 [H6 H7]]]]]]. splits; auto. intros j Hj. destruct (H7 j Hj); auto. Qed.
Lemma base_replied n i v : base n v -> base n (replied i v).
Proof.
  unfold base. cbn. intros [H1 [H2 [H3 [H4 [H5 [H6 H7]]]]]]. splits; auto; [apply drop_nodup; auto|].
  intros j Hj. apply drop_in in Hj as [Hj _]. auto.
Qed.
Lemma base_gone n i v : base n v -> base n (gone i v).
Proof.
  unfold base. cbn. intros [H1 [H2 [H3 [H4 [H5 [H6 H7]]]]]]. splits; auto; try (apply drop_nodup; auto).
  - intros j Hj. apply drop_in in Hj as [Hj N]. apply drop_in. auto.
  - intros j Hj. apply drop_in in Hj as [Hj N]. auto.
  - intros j Hj. destruct (Nat.eq_dec i j) as [->|N]; [right; auto|]. destruct (H7 j Hj); [left; apply drop_in; auto | right; auto].
Qed.
Lemma sub_drop i todo l : sublist (i :: todo) l -> sublist todo (drop i l).
Proof.
  intros [N I]. inversion N; subst. split; auto. intros j Hj. apply drop_in. split; [apply I; right; auto|]. intros <-. contradiction.
Qed.
Lemma sub_tail i todo l : sublist (i :: todo) l -> sublist todo l.
Proof. intros [N I]. inversion N; subst. split; auto. intros j Hj. apply I. right; auto. Qed.
Lemma sub_refl l : NoDup l -> sublist l l.
Proof. intro. split; auto. apply incl_refl. Qed.
Lemma nmem_drop i j l : nmem j (drop i l) = nmem j l && negb (Nat.eqb i j).
Proof.
  destruct (nmem j (drop i l)) eqn:E.
  - apply nmem_in in E. apply drop_in in E as [E1 E2]. rewrite (nmem_true _ _ E1). apply Nat.eqb_neq in E2. rewrite E2. reflexivity.
  - destruct (nmem j l) eqn:E1; [|reflexivity]. apply nmem_in in E1. destruct (Nat.eqb_spec i j) as [|N]; [reflexivity|].
    rewrite (nmem_true j (drop i l)) in E; [discriminate|]. apply drop_in; auto.
Qed.
Lemma nmem_cons i j l : nmem i (j :: l) = Nat.eqb i j || nmem i l. Proof. reflexivity. Qed.
Lemma nmem_app i a b : nmem i (a ++ b) = nmem i a || nmem i b.
Proof. unfold nmem. apply existsb_app. Qed.

Lemma dead_at o : alive o = false -> o_at o = Dead.
Proof. unfold alive. destruct (o_at o); try discriminate. auto. Qed.
Lemma idle_inv c h s : s_m s = Idle -> Inv s -> Inv (mstep c h s).
Proof.
  intros M [H1 H2 H3]. unfold mstep. rewrite M. rewrite M in H1. cbn in H1.
  assert (U : forall i f, (forall o, ok Free o -> ok Free (f o)) -> Inv (change i f s)).
  { intros i f F. constructor; cbn; rewrite ?M; cbn; [ |auto|splits; congruence]. apply (upd_ok i f (s_opts s) (fun _ => ok Free) (fun _ => ok Free)); auto. }
  destruct (h_idle h).
  - apply U. intros o [D|[Q [N [R L]]]]; [left; exact D| right]. cbn. splits; auto. intro X. apply N. destruct (o_out o); [exact X| right; exact X].
  - destruct (s_queue s) eqn:Q; [constructor; rewrite ?M; auto; splits; congruence|]. constructor; cbn; auto. splits; congruence.
  - apply U. intros o Ho. apply send_ok; [destruct stop; auto | exact Ho].
  - constructor; cbn; rewrite ?M; cbn; auto; [|splits; congruence]. intros i o E.
    destruct (Nat.ltb_spec i (length (s_opts s))) as [L|L]; [rewrite nth_error_app1 in E by lia; eauto|].
    rewrite nth_error_app2 in E by lia. destruct (i - length (s_opts s)) as [|k]; cbn in E; [injection E as <-|destruct k; discriminate].
    right. cbn. splits; auto. constructor.
  - apply U. intros o Ho. left. reflexivity.
  - constructor; cbn; [| |splits; congruence].
    + intros i o E. rewrite (nmem_true i (all_ids s)); [apply (H1 _ _ E)|]. apply in_seq. apply nth_lt in E. lia.
    + split; [apply seq_nodup|]. intros i Hi. apply in_seq in Hi. lia.
  - constructor; rewrite ?M; [auto | exact I | splits; congruence].
Qed.

Ltac trivial_q := splits; try congruence.
Lemma mstep_inv c h s : Inv s -> Inv (mstep c h s).
Proof.
  intros I. pose proof I as [H1 H2 [H3 [H4 H5]]]. destruct (s_m s) eqn:M.
  - apply idle_inv; auto.
  - (* MSend *) unfold mstep. rewrite M. cbn in H1, H2. destruct todo as [|i todo].
    + constructor; cbn; [| |trivial_q].
      * intros i o E. specialize (H1 i o E). destruct (nmem i asked); exact H1.
      * rewrite app_nil_r in H2. destruct H2. unfold base; cbn. splits; auto; apply incl_refl.
    + destruct H2 as [ND LT]. assert (NI : ~ In i asked /\ ~ In i todo).
      { apply NoDup_remove_2 in ND. split; intro X; apply ND, in_or_app; auto. }
      destruct NI as [N1 N2]. apply nmem_false in N1. apply nmem_false in N2.
      unfold is_alive. destruct (nth_error (s_opts s) i) as [o|] eqn:E; [destruct (alive o) eqn:A|].
      * constructor; cbn; [| |trivial_q].
        -- intros j o' E'. rewrite nmem_app, nmem_cons, orb_false_r. rewrite upd_nth, (Nat.eqb_sym i j) in E'. destruct (Nat.eqb_spec j i) as [->|N].
           ++ rewrite orb_true_r. rewrite E in E'. injection E' as <-. specialize (H1 i o E). rewrite N1, nmem_cons, Nat.eqb_refl in H1. cbn in H1.
              destruct H1 as [D|[Q [NP [R L]]]]; [unfold alive in A; rewrite D in A; discriminate|]. right. cbn. split; [exact R|]. left. splits; auto.
              exists (o_in o), []. splits; auto. constructor.
           ++ rewrite orb_false_r. specialize (H1 j o' E'). rewrite nmem_cons in H1. rewrite (proj2 (Nat.eqb_neq j i) N) in H1. exact H1.
        -- rewrite upd_length, <- app_assoc. split; auto.
      * constructor; cbn; [| |trivial_q].
        -- intros j o' E'. specialize (H1 j o' E'). rewrite nmem_cons in H1. destruct (Nat.eqb_spec j i) as [->|N]; [|exact H1]. rewrite N1, N2. rewrite E in E'. injection E' as <-.
           unfold alive in A. destruct (o_at o) eqn:D; try discriminate. exact D.
        -- split; [apply NoDup_remove_1 in ND; exact ND|]. intros j Hj. apply LT. apply in_app_or in Hj. apply in_or_app. destruct Hj; [auto|right; right; auto].
      * exfalso. apply nth_error_None in E. specialize (LT i). rewrite in_app_iff in LT. assert (i < length (s_opts s)) by (apply LT; right; left; auto). lia.
  - (* MLoop *) unfold mstep. rewrite M. cbn in H1, H2. pose proof H2 as [B1 [B2 [B3 [B4 [B5 [B6 B7]]]]]].
    destruct (v_wait v) as [|w l] eqn:W; [|destruct (full c s)]; (constructor; cbn [set_m s_m s_opts s_no s_queue stage_of vok]; [ | |trivial_q]); rewrite ?W; auto.
    split; [exact H2|]. apply sub_refl. exact B3.
  - (* MDrain *) unfold mstep. rewrite M. cbn in H1, H2. destruct cur as [|it cur].
    + destruct k as [|k].
      * constructor; cbn [set_m s_m s_opts s_no s_queue stage_of vok]; [auto| |trivial_q]. split; auto. apply sub_refl. apply H2.
      * unfold pop. destruct (s_queue s) as [|ch q] eqn:Q; (constructor; cbn [set_m s_m s_opts s_no s_queue stage_of vok]; [auto|auto|trivial_q]). split; auto. apply sub_refl. apply H2.
    + destruct (noted_same h (length (s_opts s)) it v) as [A [B [C D]]]. destruct (handle_queue h it s) as [Q1 [Q2 _]].
      constructor; cbn [set_m s_m s_opts s_no s_queue stage_of vok]; rewrite ?B, ?C, ?Q1, ?Q2, ?handle_length; [|apply base_noted; auto|trivial_q].
      apply handle_ok. exact H1.
  - (* MPoll *) unfold mstep. rewrite M. cbn in H1, H2. destruct H2 as [BV SV]. destruct todo as [|i todo].
    + constructor; cbn [set_m s_m s_opts s_no s_queue stage_of vok]; [auto|auto|trivial_q].
    + destruct (nth_error (s_opts s) i) as [o|] eqn:E; [|exact I]. assert (IW : In i (v_wait v)) by (apply SV; left; auto).
      assert (Hi := H1 i o E). rewrite (nmem_true _ _ IW) in Hi. cbn in Hi.
      destruct (alive o) eqn:A.
      * assert (Hi' : o_run o = true /\ (around Prep (o_in o) /\ ~ In Paused (o_out o) /\ loose (o_at o) \/ quiet (o_in o) /\ waiting o /\ (exists a : list rep, o_out o = a ++ [Paused] /\ ~ In Paused a))).
        { destruct Hi as [D|Hi]; [unfold alive in A; rewrite D in A; discriminate | exact Hi]. } clear Hi. destruct Hi' as [R Hi].
        destruct (o_out o) as [|r l] eqn:O.
        -- constructor; cbn [set_m s_m s_opts s_no s_queue stage_of vok]; [auto| |trivial_q]. split; auto. eapply sub_tail; eauto.
        -- destruct r.
           ++ constructor; cbn [change set_opts set_m s_m s_opts s_no s_queue stage_of vok exclude v_wait v_living]; rewrite ?upd_length; [| |trivial_q].
              2: split; [apply base_exclude; auto | eapply sub_tail; eauto].
              eapply upd_ok; [exact H1 | auto |]. intros o' E' _. rewrite E in E'. injection E' as <-. rewrite (nmem_true _ _ IW).
              right. cbn. split; [exact R|]. destruct Hi as [[P [NP L]]|[Q [Wt [a [Ea Na]]]]].
              ** left. splits; auto. intro X. apply NP. right; auto.
              ** right. splits; auto. destruct a as [|x a]; cbn in Ea; injection Ea as Ex El; [discriminate|]. exists a. split; auto. intro X. apply Na. right; auto.
           ++ constructor; cbn [change set_opts set_m s_m s_opts s_no s_queue stage_of vok replied v_wait v_living]; rewrite ?upd_length; [| |trivial_q].
              2: split; [apply base_replied; auto | apply sub_drop; auto].
              eapply upd_ok; [exact H1 | |].
              ** intros j o' N Ho'. cbv beta in *. rewrite nmem_drop. rewrite (proj2 (Nat.eqb_neq i j)) by congruence. rewrite andb_true_r. exact Ho'.
              ** intros o' E' _. rewrite E in E'. injection E' as <-. rewrite nmem_drop, Nat.eqb_refl, andb_false_r.
                 rewrite (nmem_true i (v_living v)) by (apply BV; auto). destruct Hi as [[P [NP L]]|[Q [Wt [a [Ea Na]]]]]; [destruct NP; left; auto|].
                 cbn. splits; auto. destruct a as [|x a]; cbn in Ea; [injection Ea as El; exact El|]. injection Ea as Ex El. destruct Na. left; auto.
           ++ constructor; cbn; [auto|auto|trivial_q].
      * constructor; cbn [set_m s_m s_opts s_no s_queue stage_of vok gone v_wait v_living]; [| |trivial_q].
        2: split; [apply base_gone; auto | apply sub_drop; auto].
        intros j o' E'. rewrite !nmem_drop. destruct (Nat.eqb_spec i j) as [<-|N]; rewrite ?andb_false_r, ?andb_true_r; [|apply H1; auto].
        rewrite E in E'. injection E' as <-. unfold alive in A. destruct (o_at o) eqn:D; try discriminate. exact D.
  - (* MFlush *) unfold mstep. rewrite M. cbn in H1, H2. destruct cur as [|it cur].
    + unfold pop. destruct (s_queue s) as [|ch q] eqn:Q; (constructor; cbn [set_m s_m s_opts s_no s_queue stage_of vok]; [auto|auto|trivial_q]).
    + destruct (noted_same h (length (s_opts s)) it v) as [A [B [C D]]]. destruct (handle_queue h it s) as [Q1 [Q2 _]].
      constructor; cbn [set_m s_m s_opts s_no s_queue stage_of vok]; rewrite ?B, ?C, ?Q1, ?Q2, ?handle_length; [|split; [apply base_noted|]; apply H2|trivial_q].
      apply handle_ok. exact H1.
  - (* MEmpty *) unfold mstep. rewrite M. cbn in H1, H2. rewrite (H3 v eq_refl). destruct H2 as [BV W].
    constructor; cbn [set_m s_m s_opts s_no s_queue stage_of vok]; [| |trivial_q].
    + intros i o E. specialize (H1 i o E). destruct (nmem i (v_living v)) eqn:L; [|exact H1]. apply nmem_in in L. rewrite nmem_true by (apply BV; auto). exact H1.
    + split; auto. apply sub_refl. apply BV.
  - (* MSave *) unfold mstep. rewrite M. cbn in H1, H2. destruct H2 as [BV SV]. destruct todo as [|i todo].
    + constructor; cbn [set_m s_m s_opts s_no s_queue stage_of vok]; [| |trivial_q].
      * intros i o E. specialize (H1 i o E). cbn in H1. destruct (nmem i (v_living v)); exact H1.
      * pose proof BV as [B1 [B2 [B3 [B4 _]]]]. splits; auto; apply sub_refl; auto.
    + assert (NI : nmem i todo = false) by (apply nmem_false; destruct SV as [X _]; inversion X; auto).
      assert (LT : i < length (s_opts s)) by (apply BV, SV; left; auto).
      unfold is_alive. destruct (nth_error (s_opts s) i) as [o|] eqn:E; [|apply nth_error_None in E; lia].
      assert (Hi := H1 i o E). rewrite nmem_cons, Nat.eqb_refl in Hi. cbn [orb] in Hi.
      destruct (nmem i (v_living v)) eqn:L.
      * cbn [ok] in Hi. destruct Hi as [Q [O [R [f Wt]]]]. unfold alive. rewrite Wt.
        constructor; cbn [change set_opts set_m s_m s_opts s_no s_queue stage_of vok]; rewrite ?upd_length; [| |trivial_q].
        2: split; [auto | eapply sub_tail; eauto].
        eapply upd_ok; [exact H1 | |].
        -- intros j o' N Ho'. cbv beta in Ho'. rewrite nmem_cons in Ho'. rewrite (proj2 (Nat.eqb_neq j i) N) in Ho'. exact Ho'.
        -- intros o' E' _. rewrite E in E'. injection E' as <-. rewrite L, NI. right. cbn. split; [exact O|]. left. splits; [exact R| |exists f; exact Wt].
           exists (o_in o), []. unfold target. destruct (nmem i (v_not v)); cbn; splits; auto; constructor.
      * cbn in Hi. unfold alive. rewrite Hi. constructor; cbn [change set_opts set_m s_m s_opts s_no s_queue stage_of vok]; [| |trivial_q].
        2: split; [auto | eapply sub_tail; eauto].
        intros j o' E'. specialize (H1 j o' E'). rewrite nmem_cons in H1. destruct (Nat.eqb_spec j i) as [->|N]; [|exact H1]. rewrite L in *. exact H1.
  - (* MClear *) unfold mstep. rewrite M. cbn in H1, H2. destruct H2 as [BV [SR ST]]. destruct todo as [|i todo].
    + destruct rem as [|r rem]; (constructor; cbn [set_m s_m s_opts s_no s_queue stage_of vok]; [exact H1| |trivial_q]); auto. splits; auto. apply sub_refl. apply SR.
    + destruct (nth_error (s_opts s) i) as [o|] eqn:E; [|exact I]. assert (IR : In i rem) by (apply ST; left; auto).
      assert (Hi := H1 i o E). rewrite (nmem_true _ _ IR) in Hi. destruct (o_run o) eqn:R.
      * constructor; cbn [set_m s_m s_opts s_no s_queue stage_of vok]; [exact H1| |trivial_q]. splits; auto. eapply sub_tail; eauto.
      * constructor; cbn [set_m s_m s_opts s_no s_queue stage_of vok]; [| |trivial_q].
        -- intros j o' E'. rewrite nmem_drop. destruct (Nat.eqb_spec i j) as [<-|N]; rewrite ?andb_false_r, ?andb_true_r; [|apply H1; auto].
           rewrite E in E'. injection E' as <-. rewrite (nmem_true i (v_living v)) by (apply SR; auto). cbn in Hi |- *.
           destruct Hi as [[_ [X _]]|[O [[X _]|[Q [D [[X _]|[_ F]]]]]]]; try congruence. splits; auto.
        -- splits; auto; [|apply sub_drop; auto]. split; [apply drop_nodup; apply SR|]. intros j Hj. apply drop_in in Hj as [Hj _]. apply SR; auto.
  - (* MFiles *) unfold mstep. rewrite M. cbn in H1, H2.
    destruct (forallb _ _) eqn:FA.
    + assert (K : forall m, (forall i o, nth_error (s_opts s) i = Some o -> ok Rest o -> ok (stage_of m (s_no s) i) o) -> vok (length (s_opts s)) m ->
        (forall v, m <> MEmpty v) -> m <> MNotEmpty -> m <> MNoFile -> Inv (set_m m s)).
      { intros m G1 G2 G3 G4 G5. constructor; cbn [set_m s_m s_opts s_no s_queue]; auto. 2: splits; auto; intros v' X; destruct (G3 v' X).
        intros i o E. apply G1; auto. specialize (H1 i o E). destruct (nmem i (v_living v)); [eapply parked_rest; eauto | left; exact H1]. }
      destruct (h_conv h); apply K; try discriminate; cbn; auto; try apply seq_nodup.
      intros i o E Ho. rewrite (nmem_true i (all_ids s)); [exact Ho|]. apply in_seq. apply nth_lt in E. lia.
    + exfalso. rewrite (proj2 (forallb_forall _ _)) in FA; [discriminate|]. intros i Hi.
      destruct H2 as [B1 [B2 [B3 [B4 [B5 [B6 B7]]]]]]. specialize (B2 i Hi). specialize (B7 i Hi). destruct (nmem i (v_not v)) eqn:N; [reflexivity|].
      destruct (nth_error (s_opts s) i) as [o|] eqn:E; [|apply nth_error_None in E; lia]. specialize (H1 i o E).
      destruct B7 as [L|L]; [|apply nmem_in in L; congruence]. rewrite (nmem_true _ _ L) in H1. unfold target in H1. rewrite N in H1. cbn in H1.
      cbn. apply nmem_true. apply in_map_iff. exists (s_no s, o_made o). split; [reflexivity | apply H1].
  - (* MStop *) unfold mstep. rewrite M. cbn in H1, H2. destruct todo as [|i todo].
    + constructor; cbn [set_m s_m s_opts s_no s_queue stage_of vok]; [| |trivial_q]; [|apply seq_nodup].
      intros i o E. rewrite (nmem_true i (all_ids s)); [exact (H1 i o E)|]. apply in_seq. apply nth_lt in E. lia.
    + apply NoDup_cons_iff in H2 as [NI H2]. destruct (is_alive i s); (constructor; cbn [change set_opts set_m s_m s_opts s_no s_queue stage_of vok]; [| |trivial_q]; auto).
      apply (upd_ok i (send Stop) (s_opts s) (fun _ => ok Rest) (fun _ => ok Rest)); [exact H1 | auto |]. intros o _ Ho. apply (send_ok Stop Rest); auto.
  - (* MRelease *) unfold mstep. rewrite M. cbn in H1, H2. destruct todo as [|i todo].
    + constructor; cbn [s_m s_opts s_no s_queue stage_of vok]; [| |trivial_q]; auto.
    + apply NoDup_cons_iff in H2 as [NI H2]. apply nmem_false in NI.
      unfold is_alive. destruct (nth_error (s_opts s) i) as [o|] eqn:E; [destruct (alive o) eqn:A|].
      * constructor; cbn [change set_opts set_m s_m s_opts s_no s_queue stage_of vok]; [| |trivial_q]; auto.
        eapply upd_ok; [exact H1 | |].
        -- intros j o' N Ho'. cbv beta in Ho'. rewrite nmem_cons in Ho'. rewrite (proj2 (Nat.eqb_neq j i) N) in Ho'. exact Ho'.
        -- intros o' _ Ho'. cbv beta in Ho'. rewrite nmem_cons, Nat.eqb_refl in Ho'. cbn [orb] in Ho'. rewrite NI. apply rest_free. exact Ho'.
      * constructor; cbn [change set_opts set_m s_m s_opts s_no s_queue stage_of vok]; [| |trivial_q]; auto.
        intros j o' E'. specialize (H1 j o' E'). rewrite nmem_cons in H1. destruct (Nat.eqb_spec j i) as [->|N]; [|exact H1]. rewrite NI. rewrite E in E'. injection E' as <-.
        left. apply dead_at. exact A.
      * constructor; cbn [change set_opts set_m s_m s_opts s_no s_queue stage_of vok]; [| |trivial_q]; auto.
        intros j o' E'. specialize (H1 j o' E'). rewrite nmem_cons in H1. destruct (Nat.eqb_spec j i) as [->|N]; [|exact H1]. congruence.
  - unfold mstep. rewrite M. exact I.
  - congruence.
  - congruence.
Qed.

Lemma step_inv c l s : Inv s -> Inv (step c l s).
Proof. unfold step. destruct (fst l); [apply ostep_inv | apply mstep_inv]. Qed.
Lemma start_inv : Inv start.
Proof. constructor; cbn; [intros [|]; discriminate | exact I | splits; congruence]. Qed.
Lemma steps_inv c ls s : Inv s -> Inv (steps c ls s).
Proof. revert s. induction ls as [|l ls IH]; intros s H; [exact H|]. apply IH, step_inv, H. Qed.
Lemma reachable_inv c s : reachable c s -> Inv s.
Proof. intros [ls <-]. apply steps_inv, start_inv. Qed.
