(** * The end of a run *)
From Verif Require Import Prelude_Proofs.
From Verif Require Export SyncLive_Proofs Ending_Spec.
Local Arguments nmem : simpl never.
Local Arguments upd : simpl never.

(** ** An optimizer that has been stopped *)
Definition late (p : place) : bool := match p with Farewell | Check true | Bye | Dead | Lost | Wait true _ | Clear true | Held true => true | _ => false end.
Definition doomed (o : opt) : Prop := o_stop o = true \/ In Stop (o_in o) \/ late (o_at o) = true.
(** Messages it can still put. *)
Definition puts (o : opt) : nat :=
  match o_at o with
  | Dead | Lost => 0
  | Put => 2
  | Loop => if o_stop o || Nat.eqb (o_left o) 0 then 1 else 2
  | Gate => if o_stop o then 1 else 2
  | _ => 1
  end.
Definition bump (a b : bool) (o : opt) : nat := match o_at o with Put => if a then 1 else 0 | Bye => if b then 1 else 0 | _ => 0 end.
(** Evaluations it can still make. *)
Definition more (o : opt) : nat :=
  match o_at o with Loop => if o_stop o || Nat.eqb (o_left o) 0 then 0 else 1 | Gate => if o_stop o then 0 else 1 | _ => 0 end.
(** Steps it can still make. *)
Definition r_place (o : opt) : nat :=
  match o_at o with
  | Dead | Lost => 0
  | Bye => 1
  | Check f => if f then 2 else 9
  | Held f => if f then 3 else 10
  | Clear f => if f then 4 else 11
  | Wait f _ => if f then 5 else 12
  | Farewell => 6
  | Loop => if o_stop o || Nat.eqb (o_left o) 0 then 7 else 14
  | Gate => if o_stop o then 8 else 15
  | Put => 13
  end.
Definition rank (o : opt) : nat := r_place o + sumf w_msg (o_in o).

Ltac cases o := destruct (o_at o) eqn:?A; rewrite ?A in *; cbn in *.
Lemma onext_doomed h a b o : doomed o -> doomed (onext h a b o).
Proof.
  unfold doomed, onext. intro D. destruct (o_at o) eqn:A.
  - destruct (_ || _); [cbn; auto|]. destruct (h_raise h); cbn; tauto.
  - destruct a; cbn; rewrite ?A; tauto.
  - destruct (o_in o) as [|m l] eqn:B; [destruct f; cbn; rewrite ?B; tauto|]. destruct m; try destruct (h_raise h); cbn; rewrite ?A; cbn in *;
      destruct D as [D|[[D|D]|D]]; try discriminate; auto.
  - destruct (o_run o); cbn; rewrite ?A; tauto.
  - destruct (o_in o) as [|m l] eqn:B; [destruct got; cbn; rewrite ?A, ?B; tauto|]. destruct m; try destruct (h_raise h); cbn; rewrite ?A; cbn in *;
      destruct D as [D|[[D|D]|D]]; try discriminate; auto.
  - cbn. tauto.
  - destruct (o_run o); cbn; rewrite ?A; tauto.
  - cbn. tauto.
  - destruct b; cbn; rewrite ?A; tauto.
  - rewrite A. tauto.
  - rewrite A. tauto.
Qed.
Lemma send_doomed o : doomed (send Stop o).
Proof. right. left. cbn. apply in_or_app. right. left. reflexivity. Qed.

Lemma gate_stop o : doomed o -> o_at o = Check false -> o_in o = [] -> o_stop o = true.
Proof. intros [D|[D|D]] A B; [exact D | rewrite B in D; destruct D | rewrite A in D; discriminate]. Qed.
Lemma onext_puts h a b o : doomed o -> puts (onext h a b o) + bump a b o <= puts o.
Proof.
  intro D. unfold puts, bump, onext. destruct (o_at o) eqn:A.
  - destruct (o_stop o || (o_left o =? 0)); [cbn; lia|]. destruct (h_raise h); cbn; lia.
  - destruct a; cbn; rewrite ?A; lia.
  - destruct (o_in o) as [|m l] eqn:B; [|destruct m; try destruct (h_raise h); cbn; rewrite ?A; lia]. destruct f; cbn; [lia|]. rewrite (gate_stop o D A B). lia.
  - destruct (o_run o); cbn; rewrite ?A; [|lia]. destruct (o_stop o); cbn; [lia|]. destruct (_ =? 0); lia.
  - destruct (o_in o) as [|m l] eqn:B; [destruct got; cbn; rewrite ?A; lia|]. destruct m; try destruct (h_raise h); cbn; rewrite ?A; lia.
  - cbn. lia.
  - destruct (o_run o); cbn; rewrite ?A; lia.
  - cbn. lia.
  - destruct b; cbn; rewrite ?A; lia.
  - rewrite A. lia.
  - rewrite A. lia.
Qed.
Lemma onext_more h a b o : doomed o -> o_made (onext h a b o) + more (onext h a b o) <= o_made o + more o.
Proof.
  intro D. unfold more, onext. destruct (o_at o) eqn:A.
  - destruct (o_stop o || (o_left o =? 0)); [cbn; lia|]. destruct (h_raise h); cbn; lia.
  - destruct a; cbn; rewrite ?A; lia.
  - destruct (o_in o) as [|m l] eqn:B; [|destruct m; try destruct (h_raise h); cbn; rewrite ?A; lia]. destruct f; cbn; [lia|]. rewrite (gate_stop o D A B). lia.
  - destruct (o_run o); cbn; rewrite ?A; [|lia]. destruct (o_stop o); cbn; [lia|]. destruct (_ =? 0); lia.
  - destruct (o_in o) as [|m l] eqn:B; [destruct got; cbn; rewrite ?A; lia|]. destruct m; try destruct (h_raise h); cbn; rewrite ?A; lia.
  - cbn. lia.
  - destruct (o_run o); cbn; rewrite ?A; lia.
  - cbn. lia.
  - destruct b; cbn; rewrite ?A; lia.
  - rewrite A. lia.
  - rewrite A. lia.
Qed.
Lemma more_one o : more o <= 1.
Proof. unfold more. destruct (o_at o); try lia; destruct (o_stop o); cbn; try lia; destruct (_ =? 0); lia. Qed.
Lemma onext_rank h a b o : doomed o -> onext h a b o = o \/ rank (onext h a b o) < rank o.
Proof.
  intro D. unfold rank, r_place, onext. destruct (o_at o) eqn:A.
  - right. destruct (o_stop o || (o_left o =? 0)); [cbn; lia|]. destruct (h_raise h); cbn; lia.
  - destruct a; [right; cbn; lia|left; reflexivity].
  - right. destruct (o_in o) as [|m l] eqn:B; [|destruct m; try destruct (h_raise h); cbn; rewrite ?A; destruct f; lia]. destruct f; cbn; rewrite B; [cbn; lia|]. rewrite (gate_stop o D A B). cbn. lia.
  - destruct (o_run o); [right|left; reflexivity]. cbn. destruct (o_stop o); cbn; [lia|]. destruct (_ =? 0); lia.
  - destruct (o_in o) as [|m l] eqn:B; [destruct got; [right; cbn; rewrite B; destruct f; cbn; lia|left; reflexivity]|]. right. destruct m; try destruct (h_raise h); cbn; rewrite ?A; destruct f; lia.
  - right. cbn. destruct f; lia.
  - destruct (o_run o); [right; cbn; destruct f; lia|left; reflexivity].
  - right. cbn. lia.
  - destruct b; [right; cbn; lia|left; reflexivity].
  - left. reflexivity.
  - left. reflexivity.
Qed.
Lemma onext_made h a b o : o_made (onext h a b o) + pending o = o_made o + pending (onext h a b o) + match o_at o with Put => if a then 1 else 0 | _ => 0 end.
Proof.
  unfold onext, pending. destruct (o_at o) eqn:A.
  - destruct (_ || _); [cbn; lia|]. destruct (h_raise h); cbn; lia.
  - destruct a; cbn; rewrite ?A; lia.
  - destruct (o_in o) as [|[]]; [destruct f|..]; try destruct (h_raise h); cbn; rewrite ?A; lia.
  - destruct (o_run o); cbn; rewrite ?A; lia.
  - destruct (o_in o) as [|[]]; [destruct got|..]; try destruct (h_raise h); cbn; rewrite ?A; lia.
  - cbn; lia.
  - destruct (o_run o); cbn; rewrite ?A; lia.
  - cbn; lia.
  - destruct b; cbn; rewrite ?A; lia.
  - rewrite A. lia.
  - rewrite A. lia.
Qed.
Lemma onext_alive h a b o : alive (onext h a b o) = true -> alive o = true.
Proof. unfold onext, alive. destruct (o_at o) eqn:A; rewrite ?A; auto. Qed.

(** ** A step of an optimizer in the system *)
Lemma sumf_upd {A} (w : A -> nat) i f l o : nth_error l i = Some o -> sumf w (upd i f l) + w o = sumf w l + w (f o).
Proof.
  revert i. induction l as [|a l IH]; intros [|i]; cbn; try discriminate.
  - intros [= ->]. unfold upd. cbn. lia.
  - intro E. specialize (IH i E). change (upd (S i) f (a :: l)) with (a :: upd i f l). cbn. lia.
Qed.
Lemma put_now_queue c it s s' : put_nowait c it s = Some s' -> length (s_queue s') <= S (length (s_queue s)).
Proof. unfold put_nowait. destruct (s_fast s); [destruct (Nat.leb _ _)|]; destruct (full c s); intro H; inversion H; subst; cbn; rewrite ?app_length; cbn; lia. Qed.
Lemma put_queue c it s s' : put c it s = Some s' -> length (s_queue s') = S (length (s_queue s)).
Proof. unfold put. destruct (full c s); [discriminate|]. destruct (s_fast s); intro H; inversion H; subst; cbn; rewrite ?app_length; cbn; lia. Qed.
Lemma ostep_queue c h i s o : nth_error (s_opts s) i = Some o ->
  length (s_queue (ostep c h i s)) <= length (s_queue s) + bump (is_some (put_nowait c (Res i) s)) (is_some (put c (End i) s)) o.
Proof.
  intro E. unfold ostep, bump. rewrite E. destruct (o_at o); unfold change, set_opts; cbn; try lia.
  - destruct (_ || _); [|destruct (h_raise h)]; cbn; lia.
  - destruct (put_nowait _ _ _) eqn:P; cbn; [|lia]. apply put_now_queue in P. lia.
  - destruct (o_in o) as [|[]]; cbn; try lia. destruct (h_raise h); cbn; lia.
  - destruct (o_run o); cbn; lia.
  - destruct (o_in o) as [|[]]; cbn; try lia; [destruct got; cbn; lia|]. destruct (h_raise h); cbn; lia.
  - destruct (o_run o); cbn; lia.
  - destruct (put _ _ _) eqn:P; cbn; [|lia]. apply put_queue in P. lia.
Qed.
Lemma upd_none {A} i (f : A -> A) l : nth_error l i = None -> upd i f l = l.
Proof. revert i. induction l as [|a l IH]; intros [|i]; unfold upd; cbn; auto; try discriminate. intro E. rewrite IH by exact E. reflexivity. Qed.
Lemma ostep_none c h i s : nth_error (s_opts s) i = None -> ostep c h i s = s.
Proof. intro E. unfold ostep. rewrite E. reflexivity. Qed.

(** ** Everyone who was told is doomed *)
Definition told (f : fin) (i : nat) : Prop := match f_at f with FSend todo => ~ In i todo | _ => True end.
Definition Told (f : fin) : Prop := forall i o, nth_error (s_opts (f_sys f)) i = Some o -> told f i -> doomed o.
Lemma dead_doomed o : alive o = false -> doomed o.
Proof. intro D. apply dead_at in D. right. right. rewrite D. reflexivity. Qed.
Lemma told_step c b l f : Told f -> Told (fstep c b l f).
Proof.
  intros T. destruct l as [[i|] [h lt]]; cbn.
  - intros j o E U. cbn in E. unfold told in U. cbn in U. destruct (nth_error (s_opts (f_sys f)) i) as [a|] eqn:Ei; [|rewrite ostep_none in E by exact Ei; apply (T j o E U)].
    rewrite (ostep_opts _ _ _ _ _ Ei), upd_nth in E. destruct (Nat.eqb_spec i j) as [<-|N]; [|apply (T j o E U)].
    rewrite Ei in E. injection E as <-. apply onext_doomed, (T i a Ei U).
  - destruct (f_at f) as [[|i todo]| |[|i todo]|] eqn:A.
    + intros j o E _. apply (T j o E). unfold told. rewrite A. intros [].
    + intros j o E U. cbn in E, U. destruct (Nat.eq_dec i j) as [<-|N].
      * unfold is_alive in E. destruct (nth_error (s_opts (f_sys f)) i) as [a|] eqn:Ei; [|rewrite Ei in E; discriminate].
        destruct (alive a) eqn:Al; cbn in E; [rewrite upd_nth, Nat.eqb_refl, Ei in E; injection E as <-; apply send_doomed|].
        rewrite Ei in E. injection E as <-. apply dead_doomed, Al.
      * assert (E' : nth_error (s_opts (f_sys f)) j = Some o) by (destruct (is_alive i (f_sys f)); cbn in E; [rewrite upd_nth in E; destruct (Nat.eqb_spec i j); [congruence|]|]; exact E).
        apply (T j o E'). unfold told. rewrite A. intros [X|X]; [congruence | exact (U X)].
    + destruct (s_queue (f_sys f)); intros j o E _; apply (T j o E); unfold told; rewrite A; exact I.
    + intros j o E _. apply (T j o E). unfold told. rewrite A. exact I.
    + destruct (is_alive i (f_sys f)) eqn:Al; [destruct (lt && b_timeout b)|]; intros j o E _; cbn in E; try (apply (T j o E); unfold told; rewrite A; exact I).
      destruct (b_proc b); [|apply (T j o E); unfold told; rewrite A; exact I].
      cbn in E. rewrite upd_nth in E. destruct (Nat.eqb_spec i j) as [<-|N]; [|apply (T j o E); unfold told; rewrite A; exact I].
      destruct (nth_error (s_opts (f_sys f)) i); [|discriminate]. injection E as <-. right. right. reflexivity.
    + exact T.
Qed.
Lemma told_start s : Told (ending s).
Proof. intros i o E U. cbn in E, U. destruct U. apply in_seq. apply nth_lt in E. lia. Qed.
Lemma fsteps_app c b x y f : fsteps c b (x ++ y) f = fsteps c b y (fsteps c b x f).
Proof. revert f. induction x as [|l x IH]; intro f; cbn; auto. Qed.
Lemma fsteps_inv (Q : fin -> Prop) c b ls f : (forall l f, Q f -> Q (fstep c b l f)) -> Q f -> Q (fsteps c b ls f).
Proof. intro S. revert f. induction ls as [|l ls IH]; intros f H; cbn; auto. Qed.
Lemma reachable_told c b s f : ending_reachable c b s f -> Told f.
Proof. intros [ls <-]. apply fsteps_inv; [intros; apply told_step; auto | apply told_start]. Qed.

(** ** At most one more evaluation *)
Lemma told_keeps c b l f i : told f i -> told (fstep c b l f) i.
Proof.
  unfold told. destruct l as [[j|] [h lt]]; cbn; auto. destruct (f_at f) as [[|j todo]| |[|j todo]|] eqn:A; intro H; cbn; auto.
  - intro X. apply H. right. exact X.
  - destruct (s_queue (f_sys f)); cbn; auto.
  - destruct (is_alive j (f_sys f)); [destruct (lt && b_timeout b)|]; cbn; rewrite ?A; auto.
  - rewrite A. exact I.
Qed.
Definition bound (i : nat) (n : nat) (f : fin) : Prop :=
  Told f /\ told f i /\ forall o, nth_error (s_opts (f_sys f)) i = Some o -> o_made o + more o <= n.
Lemma bound_step c b l f i n : bound i n f -> bound i n (fstep c b l f).
Proof.
  intros [T [U H]]. split; [apply told_step, T|]. split; [apply told_keeps, U|]. intros o E. destruct l as [[j|] [h lt]]; cbn in E.
  - destruct (nth_error (s_opts (f_sys f)) j) as [a|] eqn:Ej; [|rewrite ostep_none in E by exact Ej; auto].
    rewrite (ostep_opts _ _ _ _ _ Ej), upd_nth in E. destruct (Nat.eqb_spec j i) as [<-|N]; [|auto]. rewrite Ej in E. injection E as <-.
    pose proof (onext_more h (is_some (put_nowait c (Res j) (f_sys f))) (is_some (put c (End j) (f_sys f))) a (T j a Ej U)). specialize (H a Ej). lia.
  - destruct (f_at f) as [[|j todo]| |[|j todo]|] eqn:A; cbn in E; auto.
    + destruct (is_alive j (f_sys f)); cbn in E; auto. rewrite upd_nth in E. destruct (Nat.eqb_spec j i) as [<-|N]; auto.
      destruct (nth_error (s_opts (f_sys f)) j) as [a|]; [|discriminate]. injection E as <-. apply (H a eq_refl).
    + destruct (s_queue (f_sys f)); cbn in E; auto.
    + destruct (is_alive j (f_sys f)); [destruct (lt && b_timeout b)|]; cbn in E; auto. destruct (b_proc b); auto.
      cbn in E. rewrite upd_nth in E. destruct (Nat.eqb_spec j i) as [<-|N]; auto. destruct (nth_error (s_opts (f_sys f)) j) as [a|]; [|discriminate]. injection E as <-.
      specialize (H a eq_refl). cbn. lia.
Qed.

(** ** After the joins *)
Definition Joined (f : fin) : Prop :=
  match f_at f with
  | FJoin todo => forall i o, nth_error (s_opts (f_sys f)) i = Some o -> ~ In i todo -> alive o = false
  | FDone => all_dead (f_sys f)
  | _ => True
  end.
Lemma ostep_dead c h i s j : (forall o, nth_error (s_opts s) j = Some o -> alive o = false) ->
  forall o, nth_error (s_opts (ostep c h i s)) j = Some o -> alive o = false.
Proof.
  intros D o E. destruct (nth_error (s_opts s) i) as [a|] eqn:Ei; [|rewrite ostep_none in E by exact Ei; auto].
  rewrite (ostep_opts _ _ _ _ _ Ei), upd_nth in E. destruct (Nat.eqb_spec i j) as [<-|N]; [|auto]. rewrite Ei in E. injection E as <-.
  destruct (alive (onext _ _ _ a)) eqn:Al; [|reflexivity]. apply onext_alive in Al. rewrite (D a Ei) in Al. discriminate.
Qed.
Lemma joined_step c b l f : b_proc b = true \/ b_timeout b = false -> Joined f -> Joined (fstep c b l f).
Proof.
  intros B J. unfold Joined in *. destruct l as [[i|] [h lt]]; cbn.
  - destruct (f_at f); auto.
    + intros j o E N. eapply ostep_dead; [|exact E]. intros a Ea. apply (J j a Ea N).
    + intros j o E. eapply ostep_dead; [|exact E]. intros a Ea. apply (J j a Ea).
  - destruct (f_at f) as [[|i todo]| |[|i todo]|] eqn:A; cbn; auto.
    + destruct (s_queue (f_sys f)); cbn; auto. intros j o E N. destruct N. apply in_seq. apply nth_lt in E. lia.
    + intros j o E. apply (J j o E). intros [].
    + destruct (is_alive i (f_sys f)) eqn:Al.
      * destruct (lt && b_timeout b) eqn:L; [|rewrite A; exact J]. apply andb_prop in L as [_ L]. destruct B as [B|B]; [|congruence]. rewrite B. cbn.
        intros j o E N. rewrite upd_nth in E. destruct (Nat.eqb_spec i j) as [<-|Ne]; [destruct (nth_error (s_opts (f_sys f)) i); [|discriminate]; injection E as <-; reflexivity|].
        apply (J j o E). intros [X|X]; [congruence|exact (N X)].
      * cbn. intros j o E N. destruct (Nat.eq_dec i j) as [<-|Ne]; [unfold is_alive in Al; rewrite E in Al; exact Al|]. apply (J j o E). intros [X|X]; [congruence|exact (N X)].
    + rewrite A. exact J.
Qed.

(** ** The measure *)
Definition phase (f : fin) : nat := match f_at f with FSend _ => 0 | FPurge => length (s_opts (f_sys f)) + 2 | FJoin todo => S (length todo) | FDone => 0 end.
Definition W (f : fin) : nat := 2 * sumf rank (s_opts (f_sys f)) + length (s_queue (f_sys f)) + phase f.
Definition sent (f : fin) : Prop := match f_at f with FSend _ => False | _ => True end.
Lemma sent_told f i : sent f -> told f i.
Proof. unfold sent, told. destruct (f_at f); tauto. Qed.
Lemma sent_step c b l f : sent f -> sent (fstep c b l f).
Proof.
  unfold sent. destruct l as [[j|] [h lt]]; cbn; auto. destruct (f_at f) as [| |[|j todo]|] eqn:A; cbn; auto; try tauto.
  - destruct (s_queue (f_sys f)); exact (fun x => x).
  - destruct (is_alive j (f_sys f)); [destruct (lt && b_timeout b)|]; cbn; rewrite ?A; auto.
  - rewrite A. auto.
Qed.
Lemma fin_eta f : mkFin (f_sys f) (f_at f) (f_lost f) = f. Proof. destruct f; reflexivity. Qed.
Lemma ostep_len' c h i s : length (s_opts (ostep c h i s)) = length (s_opts s). Proof. apply ostep_len. Qed.
Lemma ready_next c h i s o : nth_error (s_opts s) i = Some o -> ready c i s = true ->
  onext h (is_some (put_nowait c (Res i) s)) (is_some (put c (End i) s)) o <> o.
Proof.
  unfold ready. intros E. rewrite E. unfold onext. destruct (o_at o) eqn:A; try discriminate.
  - intros _ X. destruct (_ || _); [|destruct (h_raise h)]; rewrite <- X in A; discriminate.
  - intros ->. intro X. rewrite <- X in A. discriminate.
  - intros _ X. destruct (o_in o) as [|m l] eqn:B; [rewrite <- X in A; destruct f; discriminate|].
    assert (Y : o_in o = l) by (rewrite <- X; destruct m; try destruct (h_raise h); reflexivity). rewrite B in Y. apply (f_equal (@length msg)) in Y. cbn in Y. lia.
  - intros ->. intro X. rewrite <- X in A. discriminate.
  - intros R X. destruct (o_in o) as [|m l] eqn:B; [destruct got; [rewrite <- X in A; discriminate|discriminate]|].
    assert (Y : o_in o = l) by (rewrite <- X; destruct m; try destruct (h_raise h); reflexivity). rewrite B in Y. apply (f_equal (@length msg)) in Y. cbn in Y. lia.
  - intros _ X. rewrite <- X in A. discriminate.
  - intros ->. intro X. rewrite <- X in A. discriminate.
  - intros _ X. rewrite <- X in A. discriminate.
  - intros ->. intro X. rewrite <- X in A. discriminate.
Qed.
Lemma W_opt c b i h lt f : Told f -> sent f -> ready c i (f_sys f) = true -> W (fstep c b (Some i, (h, lt)) f) < W f.
Proof.
  intros T S R. pose proof R as R'. unfold ready in R'. destruct (nth_error (s_opts (f_sys f)) i) as [o|] eqn:E; [|discriminate]. clear R'.
  unfold W, phase. cbn. rewrite ostep_len, (ostep_opts _ _ _ _ _ E).
  pose proof (ostep_queue c h i _ _ E) as Q. set (nx := onext h _ _) in *.
  pose proof (sumf_upd rank i nx _ _ E) as Su. assert (D : doomed o) by (apply (T i o E), sent_told, S).
  destruct (onext_rank h (is_some (put_nowait c (Res i) (f_sys f))) (is_some (put c (End i) (f_sys f))) o D) as [X|X]; [destruct (ready_next c h i _ _ E R X)|]. fold nx in X.
  assert (B : bump (is_some (put_nowait c (Res i) (f_sys f))) (is_some (put c (End i) (f_sys f))) o <= 1).
  { clear. unfold bump. destruct (o_at o); try lia; match goal with |- context [if ?x then _ else _] => destruct x; lia end. }
  lia.
Qed.
Lemma dead_rank o : rank (at_ Dead o) <= rank o.
Proof. unfold rank. cbn. lia. Qed.
Lemma W_mgr c b h lt f : Told f -> sent f -> fstep c b (None, (h, lt)) f = f \/ W (fstep c b (None, (h, lt)) f) < W f.
Proof.
  intros T S. unfold sent in S. cbn. destruct (f_at f) as [| |[|i todo]|] eqn:A; try tauto; [| |].
  - right. unfold W, phase. rewrite A. destruct (s_queue (f_sys f)) as [|ch q] eqn:Q; cbn; rewrite ?Q; cbn; [|lia]. unfold all_ids. rewrite seq_length. lia.
  - right. unfold W, phase. rewrite A. cbn. lia.
  - destruct (is_alive i (f_sys f)) eqn:Al.
    + destruct (lt && b_timeout b); [right|left; reflexivity]. unfold W, phase. rewrite A. cbn. destruct (b_proc b); cbn; [|lia].
      unfold is_alive in Al. destruct (nth_error (s_opts (f_sys f)) i) as [o|] eqn:E; [|discriminate]. pose proof (sumf_upd rank i (at_ Dead) _ _ E). pose proof (dead_rank o). lia.
    + right. unfold W, phase. rewrite A. cbn. lia.
Qed.
Lemma W_step c b l f : Told f -> sent f -> fstep c b l f = f \/ W (fstep c b l f) < W f.
Proof.
  intros T S. destruct l as [[i|] [h lt]]; [|apply W_mgr; auto].
  destruct (ready c i (f_sys f)) eqn:R; [right; apply W_opt; auto|]. left. cbn. rewrite (unready_step _ _ _ _ R). apply fin_eta.
Qed.

(** ** Eventually *)
Lemma reaches (Q G : fin -> Prop) c b sigma f0 :
  (forall l f, Q f -> Q (fstep c b l f)) -> (forall l f, Q f -> fstep c b l f = f \/ W (fstep c b l f) < W f) ->
  (forall f, Q f -> G f \/ exists E : flabel -> Prop, (forall k, exists j, k <= j /\ E (sigma j)) /\ forall l, E l -> W (fstep c b l f) < W f) ->
  forall w k, W (frun c b sigma k f0) <= w -> Q (frun c b sigma k f0) -> exists j, k <= j /\ G (frun c b sigma j f0).
Proof.
  intros H1 H2 H3. induction w as [w IH] using lt_wf_ind. intros k Hw Qk.
  destruct (H3 _ Qk) as [Gk|[E [F L]]]; [exists k; auto|].
  assert (X : forall d k', k <= k' -> frun c b sigma k' f0 = frun c b sigma k f0 -> (exists j, k' <= j <= k' + d /\ E (sigma j)) -> exists j, k <= j /\ W (frun c b sigma j f0) < W (frun c b sigma k f0) /\ Q (frun c b sigma j f0)).
  { induction d as [|d IHd]; intros k' Hk Ek [j [Hj Ej]].
    - assert (j = k') by lia. subst j. exists (S k'). cbn. rewrite Ek. splits; [lia | apply L, Ej | apply H1, Qk].
    - destruct (Nat.eq_dec j k') as [->|N].
      + exists (S k'). cbn. rewrite Ek. splits; [lia | apply L, Ej | apply H1, Qk].
      + destruct (H2 (sigma k') _ Qk) as [Same|Less].
        * apply (IHd (S k')); [lia | cbn; rewrite Ek; exact Same | exists j; split; [lia|exact Ej]].
        * exists (S k'). cbn. rewrite Ek. splits; [lia | exact Less | apply H1, Qk]. }
  destruct (F k) as [j0 [J0 E0]]. destruct (X (j0 - k) k (le_n _) eq_refl) as [j [Hj [Wj Qj]]]; [exists j0; split; [lia|exact E0]|].
  destruct (IH (W (frun c b sigma j f0)) ltac:(lia) j (le_n _) Qj) as [j' [Hj' G']]. exists j'. split; [lia|exact G'].
Qed.
(** The signals are sent. *)
Lemma sends c b sigma f0 : ffair sigma -> forall todo k, f_at (frun c b sigma k f0) = FSend todo -> exists j, k <= j /\ f_at (frun c b sigma j f0) = FPurge.
Proof.
  intros F todo. assert (X : forall d k todo, (exists j, k <= j <= k + d /\ fst (sigma j) = None) -> f_at (frun c b sigma k f0) = FSend todo ->
    exists j, k < j /\ f_at (frun c b sigma j f0) = match todo with [] => FPurge | _ :: todo' => FSend todo' end).
  { induction d as [|d IH]; intros k t [j [Hj Ej]] A.
    - assert (j = k) by lia. subst j. exists (S k). split; [lia|]. cbn. destruct (sigma k) as [o [h lt]]. cbn in Ej. subst o. cbn. rewrite A. destruct t; reflexivity.
    - destruct (fst (sigma k)) as [i|] eqn:Fk.
      + destruct (IH (S k) t) as [j' [Hj' E']]; [exists j; split; [destruct (Nat.eq_dec j k) as [->|]; [congruence|lia]|exact Ej] | cbn; destruct (sigma k) as [o [h lt]]; cbn in Fk; subst o; exact A|].
        exists j'. split; [lia|exact E'].
      + exists (S k). split; [lia|]. cbn. destruct (sigma k) as [o [h lt]]. cbn in Fk. subst o. cbn. rewrite A. destruct t; reflexivity. }
  assert (Y : forall todo k, f_at (frun c b sigma k f0) = FSend todo -> exists j, k < j /\ f_at (frun c b sigma j f0) = match todo with [] => FPurge | _ :: todo' => FSend todo' end).
  { intros t k A. destruct (F None k) as [j0 [J0 E0]]. apply (X (j0 - k) k t); auto. exists j0. split; [lia|exact E0]. }
  induction todo as [|i todo IH]; intros k A; destruct (Y _ k A) as [j [Hj Ej]].
  - exists j. split; [lia|exact Ej].
  - destruct (IH j Ej) as [j' [Hj' E']]. exists j'. split; [lia|exact E'].
Qed.

(** ** Room for everyone *)
Definition Room (n : nat) (f : fin) : Prop :=
  length (filter alive (s_opts (f_sys f))) <= n /\ (forall i o, nth_error (s_opts (f_sys f)) i = Some o -> ok Free o) /\
  match f_at f with FJoin _ => length (s_queue (f_sys f)) + sumf puts (s_opts (f_sys f)) <= 2 * n | _ => True end.
Lemma filter_upd i (f : opt -> opt) l : (forall o, alive (f o) = true -> alive o = true) -> length (filter alive (upd i f l)) <= length (filter alive l).
Proof.
  intro H. revert i. induction l as [|a l IH]; intros [|i]; try (unfold upd; cbn; lia).
  - unfold upd. cbn. specialize (H a). destruct (alive (f a)), (alive a); cbn; try lia; specialize (H eq_refl); discriminate.
  - change (upd (S i) f (a :: l)) with (a :: upd i f l). cbn. specialize (IH i). destruct (alive a); cbn; lia.
Qed.
Lemma puts_two o : puts o <= if alive o then 2 else 0.
Proof. unfold puts, alive. destruct (o_at o); try lia; destruct (o_stop o); cbn; try lia; destruct (_ =? 0); lia. Qed.
Lemma sum_puts l : sumf puts l <= 2 * length (filter alive l).
Proof. induction l as [|a l IH]; cbn; [lia|]. pose proof (puts_two a). destruct (alive a); cbn; lia. Qed.
Lemma room_step n c b l f : Told f -> b_timeout b = false -> Room n f -> Room n (fstep c b l f).
Proof.
  intros T NT [R1 [R2 R3]]. destruct l as [[i|] [h lt]]; cbn [fstep].
  - destruct (nth_error (s_opts (f_sys f)) i) as [o|] eqn:E; [|rewrite (ostep_none c h i _ E), fin_eta; split; auto].
    unfold Room. cbn [f_sys f_at f_lost]. rewrite (ostep_opts _ _ _ _ _ E). set (nx := onext h _ _). splits.
    + etransitivity; [apply filter_upd; intro; apply onext_alive | exact R1].
    + intros j o' E'. rewrite upd_nth in E'. destruct (Nat.eqb_spec i j) as [<-|N]; [|apply (R2 j o' E')]. rewrite E in E'. injection E' as <-. apply onext_ok, (R2 i o E).
    + destruct (f_at f) eqn:A; auto. pose proof (ostep_queue c h i _ _ E) as Q. pose proof (sumf_upd puts i nx _ _ E) as Su.
      assert (D : doomed o) by (apply (T i o E); unfold told; rewrite A; exact I).
      pose proof (onext_puts h (is_some (put_nowait c (Res i) (f_sys f))) (is_some (put c (End i) (f_sys f))) o D) as P. fold nx in P. lia.
  - destruct (f_at f) as [[|i todo]| |[|i todo]|] eqn:A.
    + unfold Room. cbn [f_sys f_at f_lost]. auto.
    + unfold Room. cbn [f_sys f_at f_lost]. destruct (is_alive i (f_sys f)); cbn [change set_opts s_opts]; auto. splits; auto.
      * etransitivity; [apply filter_upd; intro; auto | exact R1].
      * intros j o' E'. rewrite upd_nth in E'. destruct (Nat.eqb_spec i j) as [<-|N]; [|apply (R2 j o' E')]. destruct (nth_error (s_opts (f_sys f)) i) as [o|] eqn:E; [|discriminate]. injection E' as <-. apply send_ok; auto.
        apply (R2 i o E).
    + destruct (s_queue (f_sys f)) as [|ch q] eqn:Q; unfold Room; cbn [f_sys f_at f_lost s_opts s_queue]; splits; auto. rewrite Q. cbn. pose proof (sum_puts (s_opts (f_sys f))). lia.
    + unfold Room. cbn [f_sys f_at f_lost]. auto.
    + rewrite NT, andb_false_r. destruct (is_alive i (f_sys f)); [split; [|rewrite A]; auto|]. unfold Room. cbn [f_sys f_at f_lost]. auto.
    + split; [|rewrite A]; auto.
Qed.
Lemma sumf_ge {A} (w : A -> nat) l i o : nth_error l i = Some o -> w o <= sumf w l.
Proof. revert i. induction l as [|a l IH]; intros [|i]; cbn; try discriminate; [intros [= ->]; lia|]. intro E. specialize (IH i E). lia. Qed.
Lemma not_full_puts c i s : full c s = false -> is_some (put_nowait c (Res i) s) = true /\ is_some (put c (End i) s) = true.
Proof. unfold put_nowait, put. intros ->. destruct (s_fast s); [destruct (Nat.leb _ _)|]; auto. Qed.
Lemma room_ready n c f todo i o : Room n f -> (match c_cap c with None => True | Some q => 2 * n <= q end) -> f_at f = FJoin todo ->
  nth_error (s_opts (f_sys f)) i = Some o -> alive o = true -> ready c i (f_sys f) = true.
Proof.
  intros [R1 [R2 R3]] C A E Al. rewrite A in R3. pose proof (sumf_ge puts _ _ _ E) as P. unfold ready. rewrite E.
  assert (NF : 0 < puts o -> full c (f_sys f) = false).
  { intro Po. unfold full. destruct (c_cap c) as [q|]; [|reflexivity]. apply Nat.leb_gt. lia. }
  destruct (R2 i o E) as [D|[_ [_ [U L]]]]; [unfold alive in Al; rewrite D in Al; discriminate|].
  destruct (o_at o) eqn:B; auto; try (destruct L); try (unfold alive in Al; rewrite B in Al; discriminate); unfold puts in NF; rewrite B in NF; destruct (not_full_puts c i (f_sys f) (NF ltac:(lia))); auto.
Qed.

(** ** Accounting *)
Definition tally (i : nat) (f : fin) : nat := results i (posted (f_sys f)) + results i (f_lost f) + pend i (f_sys f).
Lemma tally_step c b l f i : b_proc b = false -> evaluations i (f_sys (fstep c b l f)) + tally i f = evaluations i (f_sys f) + tally i (fstep c b l f).
Proof.
  intro NP. unfold tally, evaluations, pend. change unput with pending in *. destruct l as [[j|] [h lt]]; cbn [fstep f_sys f_lost].
  - destruct (nth_error (s_opts (f_sys f)) j) as [a|] eqn:Ej; [|rewrite (ostep_none c h j _ Ej); lia].
    rewrite (ostep_opts _ _ _ _ _ Ej), upd_nth. pose proof (ostep_posted c h j _ _ Ej) as P. destruct (Nat.eqb_spec j i) as [<-|N].
    + rewrite Ej. cbn [option_map]. pose proof (onext_made h (is_some (put_nowait c (Res j) (f_sys f))) (is_some (put c (End j) (f_sys f))) a) as M.
      destruct P as [[A [B P]]|[A P]]; rewrite P, ?results_one, ?Nat.eqb_refl.
      * rewrite A, B in M. rewrite B. lia.
      * destruct (o_at a) eqn:O; try lia. rewrite (A eq_refl) in *. lia.
    + destruct P as [[A [B P]]|[A P]]; rewrite P; [|lia]. rewrite results_one. destruct (Nat.eqb_spec i j); [congruence|]. lia.
  - destruct (f_at f) as [[|j todo]| |[|j todo]|] eqn:A; cbn [f_sys f_lost]; try lia.
    + destruct (is_alive j (f_sys f)); [|lia]. rewrite posted_change. cbn [change set_opts s_opts]. rewrite upd_nth. destruct (Nat.eqb_spec j i) as [<-|N]; [|lia].
      destruct (nth_error (s_opts (f_sys f)) j) as [a|]; cbn [option_map]; [|lia]. change (o_made (send Stop a)) with (o_made a). change (pending (send Stop a)) with (pending a). lia.
    + destruct (s_queue (f_sys f)) as [|ch q] eqn:Q; cbn [f_sys f_lost s_opts]; [lia|]. unfold posted. cbn [s_seen s_m s_queue s_cache]. rewrite Q. cbn [concat]. rewrite !results_app. lia.
    + rewrite NP. destruct (is_alive j (f_sys f)); [destruct (lt && b_timeout b)|]; cbn [f_sys f_lost]; lia.
Qed.
Lemma seen_step c b l f : s_seen (f_sys (fstep c b l f)) = s_seen (f_sys f) /\ s_m (f_sys (fstep c b l f)) = s_m (f_sys f).
Proof.
  destruct l as [[j|] [h lt]]; cbn [fstep f_sys].
  - destruct (ostep_keeps c h j (f_sys f)) as [A [_ B]]. auto.
  - destruct (f_at f) as [[|j todo]| |[|j todo]|]; cbn; auto.
    + destruct (is_alive j (f_sys f)); auto.
    + destruct (s_queue (f_sys f)); auto.
    + destruct (is_alive j (f_sys f)); [destruct (lt && b_timeout b); [destruct (b_proc b)|]|]; auto.
Qed.
Lemma tally_steps c b ls f i : b_proc b = false -> evaluations i (f_sys (fsteps c b ls f)) + tally i f = evaluations i (f_sys f) + tally i (fsteps c b ls f).
Proof. intro NP. revert f. induction ls as [|l ls IH]; intro f; cbn; [lia|]. specialize (IH (fstep c b l f)). pose proof (tally_step c b l f i NP). lia. Qed.
Lemma seen_steps c b ls f : s_seen (f_sys (fsteps c b ls f)) = s_seen (f_sys f) /\ s_m (f_sys (fsteps c b ls f)) = s_m (f_sys f).
Proof. revert f. induction ls as [|l ls IH]; intro f; cbn; [auto|]. destruct (IH (fstep c b l f)) as [-> ->]. apply seen_step. Qed.
