(** * What holds in all sessions, whatever came in while a checkpoint was made: proofs *)
From Verif Require Import Prelude Prelude_Proofs Logger_Model Logger_Spec Manager_Model Manager_Spec Manager_Proofs Manager_Trace Restart_Model Restart_Proofs
  Logged_Proofs Resumed_Model Resumed_Spec Resumed_Proofs.
From Coq Require Import Lia.
Open Scope nat_scope.

(** What holds at each event. *)
Definition fact (R : list iterres -> list iterres -> Prop) (c : core) (e : event) (h : hist) : Prop :=
  k_f c = length (accepted h) /\ k_hunts c = hunts h /\ LG R (setups h) (accepted h) (k_log c) /\
  match e with
  | EvAccept r => ~ In (ir_opt r) (kills h)
  | EvKill _ i => ~ In i (kills h)
  | EvStart _ _ _ => ~ In EvStopSpawn (map snd h)
  | EvSaveManager => length (setups h) = k_o c /\ length (starts h) = k_o c /\ k_last_hunt c = at_last_hunt h /\
                     k_victims c = kills h /\ incl (kills h) (k_grave c) /\ (In EvStopSpawn (map snd h) -> k_spawn c = false)
  | EvSend i OSave => In i (map fst (starts h))
  | _ => True
  end.
(** What holds at the hunts and starts of the session. *)
Definition now (g : config) (w : world) (c : core) (e : event) (h : hist) : Prop :=
  match e with
  | EvStart _ _ n => obeys w -> living_slots c + n <= g_max_jobs g
  | EvHunt => g_killing g = true /\ g_hunt_freq g <= length (accepted h) - at_last_hunt h
  | EvKill (Some b) v => (exists t, w_kill w t c b v = Ok true) /\ has_iter_history v (k_log c) = true /\ v <> b
  | EvSetup i cls => exists t c0 n cf, w_sel w t c0 n = Ok (SOpt cf) /\ cf_class cf = cls /\ i = S (k_o c0) /\ k_f c0 = length (accepted h)
  | EvStopSpawn => exists t n, w_sel w t c n = Ok SFalse
  | EvJudge a _ => exists t, w_check w t c = Ok a
  | _ => True
  end.

(** [a] optimizers counted, [b] set up, [d] started; those running have at most [cap] slots. *)
Record J (R : list iterres -> list iterres -> Prop) (g : config) (w : world) (a b d cap : nat) (s : mstate) : Prop := mkJ {
  j_f : k_f (st_core s) = length (accepted (st_hist s));
  j_hunts : k_hunts (st_core s) = hunts (st_hist s);
  j_last : k_last_hunt (st_core s) = at_last_hunt (st_hist s);
  j_vict : k_victims (st_core s) = kills (st_hist s);
  j_grave : incl (kills (st_hist s)) (k_grave (st_core s));
  j_spawn : In EvStopSpawn (map snd (st_hist s)) -> k_spawn (st_core s) = false;
  j_setups : map fst (setups (st_hist s)) = seq 1 b;
  j_starts : map fst (starts (st_hist s)) = seq 1 d;
  j_packs : forall i, In i (dkeys (k_packs (st_core s))) -> 1 <= i <= k_o (st_core s);
  j_facts : snaps (fact R) (st_hist s);
  j_now : snaps_now (now g w) (st_hist s);
  j_chain : chain (st_hist s) (st_core s);
  j_nodup : NoDup (dkeys (k_packs (st_core s)));
  j_slots : obeys w -> living_slots (st_core s) <= cap;
  j_o : k_o (st_core s) = a;
  j_log : LG R (setups (st_hist s)) (accepted (st_hist s)) (k_log (st_core s)) }.

Lemma seq_len {A} (l : list (nat * A)) n : map fst l = seq 1 n -> length l = n.
Proof. intro H. apply (f_equal (@length _)) in H. now rewrite map_length, seq_length in H. Qed.

(** Updates of attributes which the invariant does not mention. *)
Record q (c c' : core) : Prop := mkQ {
  q_f : k_f c' = k_f c; q_hunts : k_hunts c' = k_hunts c; q_last : k_last_hunt c' = k_last_hunt c; q_vict : k_victims c' = k_victims c;
  q_grave : incl (k_grave c) (k_grave c'); q_spawn : k_spawn c' = k_spawn c; q_o : k_o c' = k_o c;
  q_packs : incl (dkeys (k_packs c')) (dkeys (k_packs c)); q_conv : k_conv c <= k_conv c';
  q_nodup : NoDup (dkeys (k_packs c)) -> NoDup (dkeys (k_packs c'));
  q_slots : living_slots c' <= living_slots c;
  q_alive : NoDup (dkeys (k_packs c)) -> forall i h', nget i (k_packs c') = Some h' -> c_alive h' = true -> exists h, nget i (k_packs c) = Some h /\ c_alive h = true;
  q_log : forall R reg acc, LG R reg acc (k_log c) -> LG R reg acc (k_log c') }.
Lemma q_refl c : q c c.
Proof. split; eauto using incl_refl. Qed.
Lemma q_trans a b c : q a b -> q b c -> q a c.
Proof.
  intros [] []. split; try congruence; try lia; auto; try (eapply incl_tran; eassumption).
  intros Hn i h' Hg Ha. destruct (q_alive1 (q_nodup0 Hn) _ _ Hg Ha) as (h1 & Hg1 & Ha1). eauto.
Qed.
(** An entry is replaced by one of the same size which runs only if the old one did. *)
Lemma q_put i h h' c : nget i (k_packs c) = Some h -> c_slots h' = c_slots h -> (c_alive h' = true -> c_alive h = true) ->
  q c (set_kpacks (nset i h' (k_packs c)) c).
Proof.
  intros E Hs Ha. split; cbn; auto using incl_refl; rewrite ?(dkeys_nset_old _ _ _ _ E); auto using incl_refl.
  - unfold living_slots. cbn. apply (sum_slots_nset i h h' (k_packs c) (fun h => if c_alive h then c_slots h else 0)); [exact E|].
    destruct (c_alive h'); [rewrite (Ha eq_refl), Hs; auto|lia].
  - intros _ j x Hg Hx. destruct (Nat.eq_dec j i) as [->|Hn].
    + rewrite nget_nset_same in Hg. injection Hg as <-. eauto.
    + rewrite nget_nset_other in Hg by exact Hn. eauto.
Qed.

Lemma q_later c c' : q c c' -> later c c'.
Proof. intros []. split; try (apply Nat.eq_le_incl; congruence); auto; congruence. Qed.
(** An event noted, then an update. *)
Lemma chain_note c e c' h : e <> EvHunt -> later c c' -> k_hunts c' = k_hunts c -> chain h c -> chain ((c, e) :: h) c'.
Proof.
  intros He Hl Hh Hc. cbn [chain]. split; [|split; assumption]. rewrite Hh. unfold hunts. cbn.
  assert (Hx : k_hunts c = hunts h) by (destruct h as [|[? ?] ?]; apply Hc). destruct e; try exact Hx. contradiction.
Qed.
Ltac chained := apply chain_note; [discriminate|split; cbn; auto using incl_refl, nadd_incl, nadd_len|reflexivity|assumption].

(** Methods of the log that change neither histories nor types. *)
Definition calm {A} (m : M logger A) : Prop := forall R reg acc l, LG R reg acc l -> LG R reg acc (snd (m l)).
Lemma calm_meta i k v : k <> "opt_type"%string -> calm (put_metadata i k v).
Proof. intros H R reg acc l. now apply LG_meta. Qed.
Lemma calm_msg i m : calm (put_message i m).
Proof. intros R reg acc l. apply LG_msg. Qed.
Lemma calm_clear o : calm (clear_cache o).
Proof. intros R reg acc l. apply LG_clear. Qed.
Lemma calm_close : calm log_close.
Proof. intros R reg acc l. apply LG_close. Qed.
Ltac calms := first [apply calm_msg | apply calm_clear | apply calm_close | apply calm_meta; discriminate].

Section Always.
  Context (R : list iterres -> list iterres -> Prop) (R_nil : R [] []) (R_snoc : forall a b x, R a b -> R (a ++ [x]) (b ++ [x])).
  Context (g : config) (w : world) (limit : nat).

  Lemma J_q a b d cap c c' h : q c c' -> J R g w a b d cap (mkMS c h) -> J R g w a b d cap (mkMS c' h).
  Proof.
    intros [] []. cbn [st_core st_hist] in *. split; cbn [st_core st_hist]; auto; try congruence.
    - eapply incl_tran; eassumption.
    - intro H. rewrite q_spawn0. auto.
    - intros i Hi. rewrite q_o0. auto.
    - eapply chain_later; [exact j_chain0|apply q_later; now split|assumption].
    - intro Ho. specialize (j_slots0 Ho). lia.
  Qed.
  (** An event that changes no count. *)
  Definition dull (e : event) : bool := match e with EvSetup _ _ | EvStart _ _ _ | EvAccept _ | EvKill _ _ | EvHunt | EvStopSpawn | EvSaveManager | EvJudge _ _ | EvSend _ OSave | EvLoad => false | _ => true end.
  Lemma J_dull a b d cap c e h : dull e = true -> J R g w a b d cap (mkMS c h) -> J R g w a b d cap (mkMS c ((c, e) :: h)).
  Proof.
    intros He []. cbn [st_core st_hist] in *.
    assert (Hc : chain ((c, e) :: h) c) by (apply chain_note; auto using later_refl; intros ->; discriminate He).
    destruct e; try discriminate He; try destruct m; try discriminate He;
      split; try exact Hc; cbn in *; auto; try (intros [[=]|H]; auto); splits; auto; try exact I; unfold fact; splits; auto.
  Qed.

  (** Methods that only change such attributes. *)
  Definition Q {A} (m : M mstate A) : Prop := forall s, q (st_core s) (st_core (snd (m s))) /\ st_hist (snd (m s)) = st_hist s.
  Lemma Q_ret {A} (x : A) : Q (ret x). Proof. intro s. split; [apply q_refl|reflexivity]. Qed.
  Lemma Q_raise {A} e : Q (@raise mstate A e). Proof. intro s. split; [apply q_refl|reflexivity]. Qed.
  Lemma Q_lift {A} (x : res A) : Q (lift x). Proof. intro s. split; [apply q_refl|reflexivity]. Qed.
  Lemma Q_getc {A} (f : core -> A) : Q (getc f). Proof. intro s. split; [apply q_refl|reflexivity]. Qed.
  Lemma Q_fun {A} (f : core -> res A) : Q (fun s => (f (st_core s), s)). Proof. intro s. split; [apply q_refl|reflexivity]. Qed.
  Lemma Q_logm {A} (m : M logger A) : calm m -> Q (logm m).
  Proof.
    intros Hm s. unfold logm. pose proof (fun R0 reg acc => Hm R0 reg acc (k_log (st_core s))) as H. destruct (m _) as [r l]. cbn in H.
    split; [split; cbn; eauto using incl_refl|reflexivity].
  Qed.
  Lemma Q_modc f : (forall c, q c (f c)) -> Q (modc f). Proof. intros H s. split; [apply H|reflexivity]. Qed.
  Lemma Q_bind {A B} (m : M mstate A) (f : A -> M mstate B) : Q m -> (forall x, Q (f x)) -> Q (bind m f).
  Proof.
    intros Hm Hf s. unfold bind. destruct (Hm s) as [H1 H2]. destruct (m s) as [[x|e] s1]; [|now split]. cbn [snd] in *.
    destruct (Hf x s1) as [H3 H4]. split; [eapply q_trans; eassumption|congruence].
  Qed.
  Lemma Q_try {A} (m : M mstate A) f h : Q m -> (forall e, Q (h e)) -> Q (try_except m f h).
  Proof.
    intros Hm Hh s. unfold try_except. destruct (Hm s) as [H1 H2]. destruct (m s) as [[x|e] s1]; [now split|]. destruct (f e); [|now split].
    cbn [snd] in *. destruct (Hh e s1) as [H3 H4]. split; [eapply q_trans; eassumption|congruence].
  Qed.
  Lemma Q_tick : Q (tick w limit).
  Proof.
    intro s. unfold tick. destruct (Nat.leb _ _); [split; [apply q_refl|reflexivity]|].
    pose proof (apply_moves_rel (w_moves w (k_tick (st_core s))) (st_core s)) as [k1 ch1 d1 s1 q1 fl1 p1 e1 e2 e3 e4 e5 e6 e7 e8 e9 e10 e11 e12 e13 e14 e15].
    destruct (w_intr w _); (split; [|reflexivity]); cbn; split; cbn; auto; try congruence; try (apply Nat.eq_le_incl; congruence); try (rewrite ?k1, ?e1; auto using incl_refl; fail).
    all: intros _ i h' Hg Ha; destruct (ch1 _ _ Hg) as (h & H1 & _ & H2); eauto.
  Qed.

  (** Methods that keep the invariant. *)
  Section Keep.
    Context (a b d cap : nat).
    Notation JJ := (J R g w a b d cap).
    Definition K {A} (m : M mstate A) : Prop := forall s, JJ s -> JJ (snd (m s)).
    Lemma K_Q {A} (m : M mstate A) : Q m -> K m.
    Proof. intros H [c h] HJ. destruct (H (mkMS c h)) as [H1 H2]. destruct (snd (m (mkMS c h))) as [c' h']. cbn in *. subst h'. eapply J_q; eassumption. Qed.
    Lemma K_ret {A} (x : A) : K (ret x). Proof. apply K_Q, Q_ret. Qed.
    Lemma K_raise {A} e : K (@raise mstate A e). Proof. apply K_Q, Q_raise. Qed.
    Lemma K_lift {A} (x : res A) : K (lift x). Proof. apply K_Q, Q_lift. Qed.
    Lemma K_getc {A} (f : core -> A) : K (getc f). Proof. apply K_Q, Q_getc. Qed.
    Lemma K_fun {A} (f : core -> res A) : K (fun s => (f (st_core s), s)). Proof. apply K_Q, Q_fun. Qed.
    Lemma K_logm {A} (m : M logger A) : calm m -> K (logm m). Proof. intro H. apply K_Q, Q_logm, H. Qed.
    Lemma K_modc f : (forall c, q c (f c)) -> K (modc f). Proof. intro H. apply K_Q, Q_modc, H. Qed.
    Lemma K_tick : K (tick w limit). Proof. apply K_Q, Q_tick. Qed.
    Lemma K_note e : dull e = true -> K (note e).
    Proof. intros He [c h] HJ. cbn. now apply J_dull. Qed.
    Lemma K_act e f : dull e = true -> (forall c, q c (f c)) -> K (act e f).
    Proof. intros He Hf [c h] HJ. cbn. eapply J_q; [apply Hf|]. now apply J_dull. Qed.
    Lemma K_bind {A B} (m : M mstate A) (f : A -> M mstate B) : K m -> (forall x, K (f x)) -> K (bind m f).
    Proof. intros Hm Hf s HJ. unfold bind. specialize (Hm s HJ). destruct (m s) as [[x|e] s1]; [|exact Hm]. now apply Hf. Qed.
    Lemma K_for_each {A} (l : list A) f : (forall x, K (f x)) -> K (for_each l f).
    Proof. intro H. induction l as [|x l IH]; cbn; [apply K_ret|]. apply K_bind; auto. Qed.
    Lemma K_try {A} (m : M mstate A) f h : K m -> (forall e, K (h e)) -> K (try_except m f h).
    Proof. intros Hm Hh s HJ. unfold try_except. specialize (Hm s HJ). destruct (m s) as [[x|e] s1]; [exact Hm|]. destruct (f e); [now apply Hh|exact Hm]. Qed.
    (** Look, then act on what was seen. *)
    Lemma K_look {A B} (f : core -> A) (F : A -> M mstate B) : (forall s, JJ s -> JJ (snd (F (f (st_core s)) s))) -> K (bind (getc f) F).
    Proof. intros H s HJ. exact (H s HJ). Qed.
    Lemma K_then {A B} (m : M mstate A) (F : A -> M mstate B) s : (forall x, K (F x)) -> JJ (snd (m s)) -> JJ (snd (bind m F s)).
    Proof. intros H HJ. unfold bind. destruct (m s) as [[x|e] s1]; [now apply H|exact HJ]. Qed.

    Create HintDb kb.
    Hint Resolve K_tick : kb.
    Ltac qq := intros; try (match goal with |- context [match ?x with _ => _ end] => destruct x end); split; cbn; eauto using incl_refl, nadd_incl.
    Ltac kk := repeat first
      [ apply K_ret | apply K_raise | apply K_lift | apply K_getc | apply K_logm; calms | apply K_fun
      | apply (K_fun (fun c => get_best_iter None (k_log c)))
      | solve [auto with kb]
      | apply K_note; reflexivity | apply K_act; [reflexivity|qq] | apply K_modc; qq
      | apply K_for_each; intros | apply K_try; [|intros] | apply K_bind; [|intros]
      | match goal with |- K (match ?x with _ => _ end) => destruct x end
      | match goal with |- K (if ?x then _ else _) => destruct x end
      | match goal with |- K (let '_ := ?x in _) => destruct x end ].

    Lemma K_ext : K (ext w limit).
    Proof. unfold ext. kk. Qed.
    Hint Resolve K_ext : kb.
    Lemma K_alive i : K (is_alive w limit i).
    Proof. unfold is_alive. kk. Qed.
    Hint Resolve K_alive : kb.
    Lemma K_send i m : m <> OSave -> K (send w limit i m).
    Proof. intro H. unfold send. kk. apply K_note. destruct m; try reflexivity. contradiction. Qed.
    Lemma K_send_stop i : K (send w limit i OStop).
    Proof. apply K_send. discriminate. Qed.
    Lemma K_send_crash i : K (send w limit i OCrash).
    Proof. apply K_send. discriminate. Qed.
    Lemma K_send_pass i : K (send w limit i OPass).
    Proof. apply K_send. discriminate. Qed.
    Lemma K_send_pause i : K (send w limit i OPause).
    Proof. apply K_send. discriminate. Qed.
    Lemma K_send_best i x fx : K (send w limit i (OBest x fx)).
    Proof. apply K_send. discriminate. Qed.
    Hint Resolve K_send_stop K_send_crash K_send_pass K_send_pause K_send_best : kb.
    Lemma K_living ids : K (living w limit ids).
    Proof. induction ids; cbn; kk. Qed.
    Hint Resolve K_living : kb.
    (** An entry of the dictionary of children is replaced. *)
    Lemma J_child i h h' s : nget i (k_packs (st_core s)) = Some h -> c_slots h' = c_slots h -> c_alive h' = c_alive h -> JJ s ->
      JJ (mkMS (set_kpacks (nset i h' (k_packs (st_core s))) (st_core s)) (st_hist s)).
    Proof.
      intros E H1 H2 HJ. apply (J_q a b d cap (st_core s)); [|destruct s; exact HJ]. apply (q_put i h); auto. congruence.
    Qed.
    Lemma K_signals i : K (check_signals w limit i).
    Proof.
      unfold check_signals, in_grave, put_end. apply K_bind; [kk|]. intros [|]; [kk|]. apply K_bind; [kk|]. intros _.
      apply K_look. intros s HJ. destruct (nget i (k_packs (st_core s))) as [h|] eqn:E; [|exact HJ].
      destruct (c_sigs h) as [|sg sgs]; [exact HJ|]. apply K_then; [|cbn; eapply J_child; [eassumption|reflexivity|reflexivity|assumption]]. intros _.
      destruct sg; kk.
    Qed.
    Hint Resolve K_signals : kb.
    Lemma K_inspect : K (inspect_children g w limit).
    Proof. unfold inspect_children, inspect_child, inspect_dead, inspect_hang, inspect_zombie, pack_ids, in_grave, put_end, bury. kk. Qed.
    Hint Resolve K_inspect : kb.

    Lemma K_shutdown i hn s : JJ s -> ~ In i (k_grave (st_core s)) ->
      (forall b, hn = Some b -> (exists t, w_kill w t (st_core s) b i = Ok true) /\ has_iter_history i (k_log (st_core s)) = true /\ i <> b) ->
      JJ (snd (shutdown_job g w limit i hn s)).
    Proof.
      intros HJ Hi Hhn. unfold shutdown_job, put_end. apply K_then; [intros _; kk|]. destruct s as [c h]. destruct HJ. cbn in *.
      assert (Hk : ~ In i (kills h)) by (intro H; auto). unfold bury.
      split; try chained; cbn; auto.
      - rewrite j_vict0. unfold nadd. apply nmem_false in Hk. now rewrite Hk.
      - intros x Hx. apply in_nadd. apply in_app_iff in Hx as [Hx|[<-|[]]]; auto.
      - intros [[=]|H]; auto.
      - split; [|exact j_facts0]. unfold fact. splits; auto.
      - split; [|exact j_now0]. destruct hn as [hn|]; [now apply Hhn|exact I].
    Qed.
    Lemma tick_log s : k_log (st_core (snd (tick w limit s))) = k_log (st_core s).
    Proof.
      unfold tick. destruct (Nat.leb _ _); [reflexivity|]. pose proof (er_log _ _ _ (apply_moves_rel (w_moves w (k_tick (st_core s))) (st_core s))) as H.
      destruct (w_intr w _); exact H.
    Qed.
    Lemma K_hunt_loop h ids : K (hunt_loop g w limit h ids).
    Proof.
      induction ids as [|v ids IH]; cbn [hunt_loop]; unfold in_grave; [kk|].
      apply K_bind; [kk|]. intros dd. apply K_look. intros s HJ.
      destruct (negb dd && has_iter_history v (k_log (st_core s)) && negb (v =? h)) eqn:Ep; [|now apply IH].
      apply andb_true_iff in Ep as [Ep E3]. apply andb_true_iff in Ep as [_ E2]. apply negb_true_iff, Nat.eqb_neq in E3.
      rewrite <- tick_log in E2. unfold bind at 1. pose proof (K_tick s HJ) as H1. destruct (tick w limit s) as [[t|e] s1]; [|exact H1]. cbn [snd] in *.
      clear s HJ. unfold getc, gets, lift, bind at 1 2. destruct (w_kill w t (st_core s1) h v) as [k|e] eqn:Ek; [|exact H1]. unfold bind at 1.
      destruct (k && negb (nmem v (k_grave (st_core s1)))) eqn:E; [|now apply IH].
      apply andb_true_iff in E as [-> E]. apply negb_true_iff, nmem_false in E.
      apply K_then; [|apply K_shutdown; auto; intros b0 [= <-]; eauto]. intros _. kk.
    Qed.
    Lemma K_share x : K (share_loop w limit x).
    Proof. unfold share_loop, pack_ids. kk. Qed.
    Hint Resolve K_share : kb.
    Lemma K_update : K (update_best g w limit).
    Proof. unfold update_best. kk. Qed.
    Lemma J_accept r s : JJ s -> ~ In (ir_opt r) (k_victims (st_core s)) -> has_iter_history (ir_opt r) (k_log (st_core s)) = true ->
      JJ (snd (accept r s)).
    Proof.
      intros HJ Hr Hh. destruct s as [c h]. destruct HJ. cbn [st_core st_hist] in *.
      pose proof (LG_put R (setups h) (accepted h) r (k_log c) R_snoc j_log0 Hh) as Hput.
      unfold accept, act, modify, bind, logm. cbn [st_core st_hist k_log set_kf]. destruct (put_iteration r (k_log c)) as [x l]. cbn [snd] in *.
      split; try chained; cbn [st_core st_hist]; cbn in *; auto.
      - rewrite app_length. cbn. lia.
      - intros [[=]|H]; auto.
      - split; [|exact j_facts0]. unfold fact. splits; auto. congruence.
    Qed.
    Lemma J_hunt hunter s : JJ s -> g_killing g = true -> g_hunt_freq g <= k_f (st_core s) - k_last_hunt (st_core s) ->
      JJ (snd (start_hunt g w limit hunter s)).
    Proof.
      intros HJ H1 H2. unfold start_hunt, pack_ids. apply K_then; [intros _; apply K_bind; [kk|]; intros ids; apply K_hunt_loop|].
      destruct s as [c h]. destruct HJ. cbn [st_core st_hist] in *. split; try chained; cbn in *; auto.
      - intros [[=]|H]; auto.
      - split; [|exact j_facts0]. unfold fact. splits; auto.
      - split; [|exact j_now0]. split; [exact H1|]. now rewrite <- j_f0, <- j_last0.
      - unfold hunts in *. cbn in *. split; [congruence|]. split; [|exact j_chain0]. split; cbn; auto using incl_refl.
    Qed.
    Lemma K_item qi : K (process_item g w limit qi).
    Proof.
      destruct qi as [r|i]; cbn [process_item].
      - apply K_look. intros s HJ. destruct (nmem (ir_opt r) (k_victims (st_core s))) eqn:E; [exact HJ|]. apply nmem_false in E.
        match goal with |- JJ (snd (bind (getc ?f) ?F s)) => change (JJ (snd (F (f (st_core s)) s))) end. cbv beta.
        assert (Hafter : forall s, JJ s -> ~ In (ir_opt r) (k_victims (st_core s)) -> has_iter_history (ir_opt r) (k_log (st_core s)) = true ->
          JJ (snd ((accept r ;;; update_best g w limit ;;; c <- getc (fun c => c) ;;
             let best_id := match r_origin (k_result c) with Some (b, _) => b | None => 0 end in
             if (0 <? best_id) && g_killing g && (g_hunt_freq g <=? k_f c - k_last_hunt c) then
               vs <- start_hunt g w limit best_id ;; ret (1, [] : list nat, vs)
             else ret (1, [], [])) s))).
        { clear s HJ E. intros s HJ E Eh. apply K_then; [|now apply J_accept]. intros _. apply K_bind; [apply K_update|]. intros _.
          apply K_look. intros s3 J3. cbv zeta.
          match goal with |- context [if ?c then _ else _] => destruct c eqn:Ec end; [|exact J3].
          apply andb_true_iff in Ec as [Ec E3]. apply andb_true_iff in Ec as [_ E2]. apply Nat.leb_le in E3.
          apply K_then; [intros; kk|]. now apply J_hunt. }
        destruct (has_iter_history (ir_opt r) (k_log (st_core s))) eqn:Eh; [now apply Hafter|].
        match goal with |- context [bind ?m (fun x => logm (add_iter_history (ir_opt r) x))] => set (hs := m) end.
        assert (Hq : Q hs /\ k_log (st_core (snd (hs s))) = k_log (st_core s)).
        { unfold hs. destruct (ir_extras r); [split; [apply Q_ret|reflexivity]|]. split; [apply Q_bind; [apply Q_tick|intros; apply Q_lift]|].
          pose proof (tick_log s) as H. unfold bind. destruct (tick w limit s) as [[t|e] s1]; exact H. }
        destruct Hq as [Hq Hl]. pose proof (Hq s) as [Hq1 _]. pose proof (K_Q hs Hq s HJ) as J1. unfold bind at 1 2.
        destruct (hs s) as [[hd|e] s1]; [|exact J1]. cbn [snd] in *. rewrite <- Hl in Eh. rewrite <- (q_vict _ _ Hq1) in E. clear hs Hq Hq1 Hl HJ s.
        pose proof (LG_hist R _ _ (ir_opt r) hd _ (j_log _ _ _ _ _ _ _ _ J1) Eh) as H1.
        pose proof (has_hist R _ _ (ir_opt r) hd _ (j_log _ _ _ _ _ _ _ _ J1) Eh) as H2.
        unfold logm. destruct (add_iter_history (ir_opt r) hd (k_log (st_core s1))) as [o l]. cbn [fst snd] in *.
        assert (J2 : JJ (mkMS (set_klog l (st_core s1)) (st_hist s1))).
        { destruct s1 as [c h]. destruct J1. cbn [st_core st_hist] in *. split; cbn [st_core st_hist]; auto.
          eapply chain_later; [eassumption| |reflexivity]. split; cbn; auto using incl_refl. }
        destruct o as [[]|e]; [|exact J2]. apply Hafter; auto.
      - kk.
    Qed.
    Hint Resolve K_item : kb.
    Lemma K_chunk l : forall acc, K (process_chunk g w limit l acc).
    Proof. induction l as [|x l IH]; intros acc; cbn [process_chunk]; kk. Qed.
    Hint Resolve K_chunk : kb.
    Lemma K_get : K (queue_get w limit).
    Proof. unfold queue_get. kk. Qed.
    Hint Resolve K_get : kb.
    Lemma K_loop fuel : forall max acc, K (process_loop g w limit fuel max acc).
    Proof. induction fuel as [|fuel IH]; intros max acc; cbn [process_loop]; kk. Qed.
    Hint Resolve K_loop : kb.
    Lemma K_results max : K (process_results g w limit max).
    Proof. unfold process_results. kk. Qed.
    Hint Resolve K_results : kb.
    Lemma K_shutdowns : K (manual_shutdowns g w limit).
    Proof.
      unfold manual_shutdowns, manual_shutdown. apply K_bind; [kk|]. intros _. apply K_bind; [kk|]. intros files. apply K_for_each. intros n.
      destruct (stop_id n) as [z|]; [|kk]. cbv zeta. apply K_look. intros s HJ.
      match goal with |- context [if ?c then _ else _] => destruct c eqn:E end; [|exact HJ].
      apply andb_true_iff in E as [_ E]. apply negb_true_iff, nmem_false in E.
      set (s1 := mkMS (remove_file n (st_core s)) (st_hist s)). change (JJ (snd (shutdown_job g w limit (Z.to_nat z) None s1))).
      apply K_shutdown; [|exact E|discriminate]. apply (J_q a b d cap (st_core s)); [qq|destruct s; exact HJ].
    Qed.
    Hint Resolve K_shutdowns : kb.
    Lemma K_drain fuel : K (drain_loop w limit fuel).
    Proof. induction fuel; cbn [drain_loop]; kk. Qed.
    Lemma K_checker : K (checker_call w limit).
    Proof. unfold checker_call. kk. Qed.
    Lemma K_purge i : K (purge_one w limit i).
    Proof.
      unfold purge_one, in_grave. kk.
      - intros y Hy. apply in_dkeys_ndel in Hy. apply Hy.
      - apply NoDup_ndel.
      - pose proof (living_ndel i c) as H. exact H.
      - intros Hn j h' Hg Ha. exists h'. split; [|exact Ha]. destruct (Nat.eq_dec j i) as [->|Hj].
        + rewrite nget_ndel_same in Hg by exact Hn. discriminate.
        + rewrite nget_ndel_other in Hg by exact Hj. exact Hg.
    Qed.
    Lemma K_put i (f : child -> child) : (forall h, c_slots (f h) = c_slots h /\ c_alive (f h) = c_alive h) ->
      K (modc (fun c => match nget i (k_packs c) with Some h => set_kpacks (nset i (f h) (k_packs c)) c | None => c end)).
    Proof.
      intro Hf. apply K_modc. intro c. destruct (nget i (k_packs c)) as [h|] eqn:E; [|apply q_refl]. destruct (Hf h). apply (q_put i h); auto. congruence.
    Qed.
    Hint Resolve K_drain K_checker K_purge : kb.
    Lemma K_stop_all x : K (stop_all_children w limit x).
    Proof. destruct x; unfold stop_all_children, stop_one, put_end, pack_ids, bury; kk. Qed.
    Hint Resolve K_stop_all : kb.
    Lemma K_finish r : K (finish r).
    Proof. unfold finish. kk. Qed.

    (** *** Checkpoints *)
    Lemma K_pause ids : K (pause_all w limit ids).
    Proof. induction ids; cbn [pause_all]; kk. Qed.
    Lemma K_sync_one i x : K (sync_one w limit i x).
    Proof.
      unfold sync_one, put_end. destruct x as [[no wait] live]. apply K_bind; [kk|]. intros [|]; [|kk]. apply K_bind; [kk|]. intros _.
      apply K_look. intros s HJ. destruct (nget i (k_packs (st_core s))) as [h|] eqn:E; [|exact HJ].
      destruct (c_sigs h) as [|sg sgs]; [destruct (c_closed h); exact HJ|]. apply K_then; [|cbn; eapply J_child; [eassumption|reflexivity|reflexivity|assumption]]. intros _.
      destruct sg; unfold bury; kk.
    Qed.
    Hint Resolve K_pause K_sync_one : kb.
    Lemma K_round ids : forall x, K (sync_round w limit ids x).
    Proof. induction ids as [|i ids IH]; intros x; cbn [sync_round]; kk. Qed.
    Hint Resolve K_round : kb.
    Lemma K_sync fuel : forall n x, K (sync_loop g w limit fuel n x).
    Proof. induction fuel as [|fuel IH]; intros n x; cbn [sync_loop]; kk. Qed.
    Lemma K_hold_round ids : K (hold_round w limit ids).
    Proof. induction ids; cbn [hold_round]; kk. Qed.
    Hint Resolve K_sync K_hold_round : kb.
    Lemma K_hold fuel : forall ids, K (hold_loop w limit fuel ids).
    Proof. induction fuel as [|fuel IH]; intros ids; cbn [hold_loop]; kk. Qed.
    Hint Resolve K_hold : kb.
    Lemma K_toggle i : K (toggle_one w limit i).
    Proof.
      unfold toggle_one. apply K_bind; [kk|]. intros [|]; [|kk]. apply (K_put i (fun h => mkCh (c_slots h) (c_alive h) (c_code h) (c_sigs h) (c_closed h) true)). auto.
    Qed.
    Hint Resolve K_toggle : kb.
    (** Nothing is half started. *)
    Context (Eb : b = a) (Ed : d = a).
    Lemma K_send_save i : K (send w limit i OSave).
    Proof.
      unfold send. apply K_bind; [kk|]. intros _. apply K_look. intros s HJ.
      destruct (nget i (k_packs (st_core s))) as [h|] eqn:E; [|exact HJ]. destruct (c_closed h); [exact HJ|].
      assert (Hi : In i (dkeys (k_packs (st_core s)))) by (apply nget_some_in; eauto).
      destruct s as [c h0]. destruct HJ. cbn [st_core st_hist] in *. split; try chained; cbn in *; auto.
      - intros [[=]|H]; auto.
      - split; [|exact j_facts0]. unfold fact. splits; auto. rewrite j_starts0. apply in_seq. specialize (j_packs0 _ Hi). lia.
    Qed.
    Hint Resolve K_send_save : kb.
    Lemma K_optimizers : K (checkpoint_optimizers g w limit).
    Proof. unfold checkpoint_optimizers, confirm_one, save_one, pack_ids. kk. Qed.
    Hint Resolve K_optimizers : kb.
    Lemma K_saved : K (note EvSaveManager).
    Proof.
      intros [c h] []. cbn [st_core st_hist] in *. split; try chained; cbn in *; auto.
      - intros [[=]|H]; auto.
      - split; [|exact j_facts0]. unfold fact. splits; auto; [rewrite (seq_len _ _ j_setups0)|rewrite (seq_len _ _ j_starts0)]; congruence.
    Qed.
    Hint Resolve K_saved : kb.
    Lemma K_checkpoint : K (checkpoint g w limit).
    Proof. unfold checkpoint, pack_ids. kk. Qed.
    Hint Resolve K_checkpoint : kb.
    Lemma K_manual : K (manual_checkpoints g w limit).
    Proof. unfold manual_checkpoints. kk. Qed.
    Lemma K_periodic : K (periodic_checkpoint g w limit).
    Proof. unfold periodic_checkpoint. kk. Qed.
    Lemma K_judge dead : K (
        chk <- checker_call w limit ;;
        act (EvJudge chk dead) (fun c => set_kconverged (chk || (dead && negb (k_spawn c))) c) ;;;
        periodic_checkpoint g w limit ;;;
        ret chk).
    Proof.
      intros s HJ. unfold checker_call, getc, gets, lift. unfold bind at 1 2. pose proof (K_tick s HJ) as H1. destruct (tick w limit s) as [[t|e] s1]; [|exact H1].
      cbn [snd] in H1. unfold bind at 1. destruct (w_check w t (st_core s1)) as [chk|e] eqn:Ec; [|exact H1]. apply K_then; [intros _; pose proof K_periodic; kk|].
      destruct s1 as [c h]. destruct H1. cbn [st_core st_hist] in *. split; try chained; cbn in *; auto.
      - intros [[=]|H]; auto.
      - split; [|exact j_facts0]. unfold fact. splits; auto.
      - split; [eauto|exact j_now0].
    Qed.
    Lemma K_rest : K (
        ids <- pack_ids ;;
        for_each ids (fun i => check_signals w limit i ;;; ret tt) ;;;
        process_results g w limit (Some 10) ;;;
        manual_shutdowns g w limit ;;;
        manual_checkpoints g w limit ;;;
        inspect_children g w limit ;;;
        ids <- pack_ids ;;
        for_each ids (purge_one w limit) ;;;
        ids <- pack_ids ;;
        l <- living w limit ids ;;
        let all_dead := Nat.eqb (length l) 0 in
        chk <- checker_call w limit ;;
        act (EvJudge chk all_dead) (fun c => set_kconverged (chk || (all_dead && negb (k_spawn c))) c) ;;;
        periodic_checkpoint g w limit ;;;
        ret chk).
    Proof.
      pose proof K_manual. unfold pack_ids. do 7 (apply K_bind; [kk|intros ?]). apply K_bind; [kk|intros _]. apply K_bind; [kk|intros ids']. apply K_bind; [kk|intros l].
      cbv zeta. apply K_judge.
    Qed.
  End Keep.

  (** ** Starting optimizers *)
  Notation mj := (g_max_jobs g).
  Definition whole (s : mstate) : Prop := exists n, J R g w n n n mj s.
  Definition half (s : mstate) : Prop := exists a b d, J R g w a b d mj s /\ d <= b /\ b <= a /\ a <= S d.
  Lemma J_cap a b d x y s : x <= y -> J R g w a b d x s -> J R g w a b d y s.
  Proof. intros Hx []. split; auto. intro Ho. specialize (j_slots0 Ho). lia. Qed.
  Lemma whole_half s : whole s -> half s.
  Proof. intros [n H]. exists n, n, n. splits; auto. Qed.
  Definition H3 {A} (P : mstate -> Prop) (m : M mstate A) (Z : A -> mstate -> Prop) : Prop :=
    forall s, P s -> match m s with (Ok x, s') => Z x s' | (Err _, s') => half s' end.
  Lemma H3_bind {A B} P (m : M mstate A) Z (f : A -> M mstate B) Z' : H3 P m Z -> (forall x, H3 (Z x) (f x) Z') -> H3 P (bind m f) Z'.
  Proof. intros Hm Hf s HP. unfold bind. specialize (Hm s HP). destruct (m s) as [[x|e] s1]; [|exact Hm]. now apply Hf. Qed.
  Lemma H3_K {A} (m : M mstate A) : (forall n, K n n n mj m) -> H3 whole m (fun _ => whole).
  Proof. intros H s [n HJ]. specialize (H n s HJ). destruct (m s) as [[x|e] s1]; [now exists n|]. apply whole_half. now exists n. Qed.
  Lemma Q_ext : Q (ext w limit).
  Proof. unfold ext. apply Q_bind; [apply Q_tick|]. intros x. destruct (w_err w x); [apply Q_raise|apply Q_ret]. Qed.
  Section Fill.
  Context (cap : nat) (Hcap : cap <= mj).
  (** New optimizers are still wanted. *)
  Definition JS (a b d : nat) (s : mstate) : Prop := J R g w a b d cap s /\ k_spawn (st_core s) = true.
  Lemma H3_Q {A} a b d (m : M mstate A) : d <= b <= a -> a <= S d -> Q m -> H3 (JS a b d) m (fun _ => JS a b d).
  Proof.
    intros [L1 L2] L3 H s [HJ Hs]. destruct (H s) as [H1 _]. pose proof (K_Q a b d cap m H s HJ) as H2. destruct (m s) as [[x|e] s1]; cbn in *.
    - split; [exact H2|]. rewrite (q_spawn _ _ H1). exact Hs.
    - exists a, b, d. split; [eapply J_cap; eassumption|auto].
  Qed.
  Definition set_up (avail n : nat) (o : option (nat * string * nat)) (s : mstate) : Prop :=
    match o with None => J R g w n n n cap s | Some (i, _, sl) => i = S n /\ (obeys w -> sl <= avail) /\ JS (S n) (S n) n s end.
  Lemma H3_QX {A} a b d (m : M mstate A) (X : hist -> Prop) : d <= b <= a -> a <= S d -> Q m ->
    H3 (fun s => JS a b d s /\ X (st_hist s)) m (fun _ s => JS a b d s /\ X (st_hist s)).
  Proof.
    intros L1 L2 H s [HJ HX]. pose proof (H3_Q a b d m L1 L2 H s HJ) as H1. destruct (H s) as [_ H2]. destruct (m s) as [[x|e] s1]; [|exact H1].
    split; [exact H1|]. cbn in H2. rewrite H2. exact HX.
  Qed.
  Lemma setup_ok avail n : H3 (JS n n n) (setup_new_optimizer w limit avail) (set_up avail n).
  Proof.
    unfold setup_new_optimizer. eapply H3_bind; [apply H3_Q; auto; apply Q_tick|]. intros t. cbn beta.
    eapply H3_bind with (Z := fun _ => JS n n n).
    { intros [c h] [HJ Hs]. cbn. split; [|exact Hs]. now apply J_dull. }
    intros _. eapply H3_bind with (Z := fun c0 s => JS n n n s /\ st_core s = c0); [intros s HJ; split; [exact HJ|reflexivity]|]. intros c0. cbn beta.
    eapply H3_bind with (Z := fun sel s => JS n n n s /\ st_core s = c0 /\ w_sel w t c0 avail = Ok sel).
    { intros s [HJ E0]. pose proof (H3_Q n n n (lift (w_sel w t c0 avail)) ltac:(lia) ltac:(lia) (Q_lift _) s HJ) as H. cbn in H |- *.
      destruct (w_sel w t c0 avail) as [sel|e] eqn:E; [|exact H]. auto. }
    intros sel. destruct sel as [| |cf].
    - intros [c h] ([[] Hs] & E0 & E). cbn [st_core st_hist] in *. subst c0. split; try chained; cbn in *; auto; split; eauto. unfold fact. splits; auto.
    - intros s [[HJ _] _]. exact HJ.
    - set (X := fun h : hist => k_o c0 = n /\ k_f c0 = length (accepted h) /\ w_sel w t c0 avail = Ok (SOpt cf)).
      eapply H3_bind with (Z := fun _ s => JS (S n) n n s /\ X (st_hist s)).
      { intros [c h] ([[] Hs] & E0 & E). cbn [st_core st_hist] in *. subst c0. split; [|split; cbn; auto]. split; [|exact Hs].
        split; try chained; cbn in *; auto; [intros i Hi; specialize (j_packs0 i Hi); lia|].
        eapply chain_later; [eassumption| |reflexivity]. split; cbn; auto using incl_refl. }
      intros _. eapply H3_bind; [apply (H3_QX (S n) n n _ X); auto; apply Q_ext|]. cbv beta. intros _. cbn beta.
      eapply H3_bind with (Z := fun i s => i = S n /\ JS (S n) n n s /\ X (st_hist s)).
      { intros s [[HJ Hs] HX]. cbn. split; [apply HJ|]. split; [split; assumption|exact HX]. }
      intros i. unfold add_to_log. eapply H3_bind with (Z := fun _ s => i = S n /\ JS (S n) (S n) n s /\ w_sel w t c0 avail = Ok (SOpt cf)).
      { intros s (-> & HJ & HX). pose proof (conj HJ HX) as HJX. clear HJ HX. revert s HJX.
        change (H3 (fun s => JS (S n) n n s /\ X (st_hist s)) (note (EvSetup (S n) (cf_class cf)) ;;; logm (add_optimizer (S n) (cf_class cf) "now"))
                   (fun _ s => S n = S n /\ JS (S n) (S n) n s /\ w_sel w t c0 avail = Ok (SOpt cf))).
        eapply H3_bind with (Z := fun _ s => JS (S n) (S n) n s /\ own (S n) (accepted (st_hist s)) = [] /\ In (S n, cf_class cf) (setups (st_hist s)) /\
                                             w_sel w t c0 avail = Ok (SOpt cf)).
        - intros [c h] [[[] Hs] (X1 & X2 & X3)]. cbn [st_core st_hist] in *. split.
          + split; [|exact Hs]. split; try chained; cbn in *; auto.
            * intros [[=]|H]; auto.
            * rewrite map_app, j_setups0. symmetry. apply (seq_S n 1).
            * split; [|exact j_facts0]. unfold fact. splits; auto.
            * split; [|exact j_now0]. exists t, c0, avail, cf. splits; auto.
            * eapply LG_reg; [|exact j_log0]. intros x Hx. apply in_app_iff. auto.
          + cbn. splits; auto; [|apply in_app_iff; right; left; reflexivity]. eapply own_none; [apply (lg_src _ _ _ _ j_log0)|]. rewrite j_setups0, in_seq. lia.
        - intros _ [c h] [[[] Hs] (Ho & Hin & Hw)]. cbn [st_core st_hist] in *. cbn. splits; auto. split; [|exact Hs]. split; cbn [st_core st_hist]; auto.
          + eapply chain_later; [eassumption| |reflexivity]. split; cbn; auto using incl_refl.
          + apply LG_add; auto. rewrite Ho. exact R_nil. }
      intros _ s (-> & HJ & Hw). cbn. splits; auto; try apply HJ. intro Hob. exact (Hob _ _ _ _ Hw).
  Qed.
  Lemma start_ok n cls slots : (obeys w -> cap + slots <= mj) ->
    H3 (JS (S n) (S n) n) (start_new_job w limit (S n) cls slots) (fun _ s => exists n, J R g w n n n (Nat.min (cap + slots) mj) s).
  Proof.
    intro Hsl. unfold start_new_job. eapply H3_bind; [apply H3_Q; auto; apply Q_ext|]. cbv beta. intros _.
    assert (Hd : forall h c i, k_o c = S n -> (forall i, In i (dkeys (k_packs c)) -> 1 <= i <= k_o c) -> In i (dkeys (nset (S n) h (k_packs c))) -> 1 <= i <= k_o c).
    { intros h c i Ho Hp. rewrite dkeys_nset. destruct (nmem _ _); [apply Hp|]. rewrite in_app_iff. cbn. intros [H|[<-|[]]]; [auto|lia]. }
    eapply H3_bind with (Z := fun _ => JS (S n) (S n) n).
    { intros [c h] [[] Hs]. cbn [st_core st_hist] in *. split; [|exact Hs]. split; try chained; cbn [st_core st_hist]; auto.
      - intros i Hi. exact (Hd _ c i j_o0 j_packs0 Hi).
      - eapply chain_later; [eassumption| |reflexivity]. split; cbn; auto using incl_refl.
      - apply NoDup_nset. assumption.
      - intro Ho. specialize (j_slots0 Ho). pose proof (living_nset (S n) (mkCh slots false 0 [] false true) c) as H. cbn [c_alive] in H. lia. }
    intros _. eapply H3_bind; [apply H3_Q; auto; apply Q_ext|]. cbv beta. intros _.
    intros [c h] [[] Hs]. cbn [st_core st_hist] in *. exists (S n). split; try chained; cbn [st_core st_hist]; auto.
    - cbn. intros [[=]|H]; auto.
    - cbn. rewrite map_app, j_starts0. symmetry. apply (seq_S n 1).
    - intros i Hi. exact (Hd _ c i j_o0 j_packs0 Hi).
    - split; [|exact j_facts0]. unfold fact. splits; auto. intro H. apply j_spawn0 in H. congruence.
    - split; [|exact j_now0]. intro Ho. specialize (j_slots0 Ho). specialize (Hsl Ho). lia.
    - apply NoDup_nset. assumption.
    - intro Ho. specialize (j_slots0 Ho). specialize (Hsl Ho).
      pose proof (living_nset (S n) (mkCh slots true 0 [] false true) c) as H. cbn [c_alive c_slots] in H. lia.
  Qed.
  End Fill.
  Lemma fill_ok fuel : forall count started, H3 (fun s => exists n, J R g w n n n (Nat.min count mj) s) (fill_loop g w limit fuel count started) (fun _ => whole).
  Proof.
    assert (Hw : forall s n count, J R g w n n n (Nat.min count mj) s -> whole s) by (intros s n count HJ; exists n; eapply J_cap; [|exact HJ]; lia).
    induction fuel as [|fuel IH]; intros count started; cbn [fill_loop]; [intros s [n Hs]; cbn; apply whole_half; eauto|].
    intros s [n HJ]. change (bind (getc k_spawn) ?f s) with (f (k_spawn (st_core s)) s). cbv beta.
    destruct ((count <? mj) && k_spawn (st_core s)) eqn:E; [|cbn; eauto]. apply andb_true_iff in E as [El E]. apply Nat.ltb_lt in El.
    assert (HJS : JS count n n n s) by (split; [eapply J_cap; [|exact HJ]; lia|assumption]). clear HJ E. revert s HJS.
    match goal with |- forall s, _ -> match ?m s with _ => _ end => change (H3 (JS count n n n) m (fun _ => whole)) end.
    eapply H3_bind; [apply setup_ok; lia|]. intros [[[i cls] slots]|]; [|intros s HJ; exists n; eapply J_cap; [|exact HJ]; lia].
    intros s (-> & Hsl & HJ). revert s HJ.
    match goal with |- forall s, _ -> match ?m s with _ => _ end => change (H3 (JS count (S n) (S n) n) m (fun _ => whole)) end.
    eapply H3_bind; [apply start_ok; [lia|intro Ho; specialize (Hsl Ho); lia]|]. cbv beta. intros _. apply IH.
  Qed.
  (** Those found alive are all that are. *)
  Lemma living_all ids : forall s, NoDup (dkeys (k_packs (st_core s))) ->
    match living w limit ids s with
    | (Ok l, s') => q (st_core s) (st_core s') /\ forall i h, nget i (k_packs (st_core s')) = Some h -> c_alive h = true -> In i ids -> In i l
    | _ => True
    end.
  Proof.
    induction ids as [|i ids IH]; intros s Hn; cbn [living]; [cbn; split; [apply q_refl|auto]|].
    unfold is_alive. unfold bind at 1 2. destruct (Q_tick s) as [Hq _]. destruct (tick w limit s) as [[t|e] s1]; [|exact I]. cbn [snd] in Hq.
    pose proof (q_nodup _ _ Hq Hn) as Hn1. specialize (IH s1 Hn1). unfold getc, gets, bind. cbv iota beta.
    destruct (living w limit ids s1) as [[l|e] s2]; [|exact I]. destruct IH as [Hq2 IH]. cbn. split; [eapply q_trans; eassumption|].
    intros j h Hg Ha [<-|Hj].
    - destruct (q_alive _ _ Hq2 Hn1 _ _ Hg Ha) as (h1 & E1 & E2). rewrite E1, E2. now left.
    - destruct (match nget i (k_packs (st_core s1)) with Some h0 => c_alive h0 | None => false end); [right|]; eapply IH; eassumption.
  Qed.
  Lemma slots_ok : H3 whole (fill_slots g w limit) (fun _ => whole).
  Proof.
    unfold fill_slots, pack_ids. intros s Hs. set (ids := dkeys (k_packs (st_core s))).
    match goal with |- match bind (getc ?f) ?F s with _ => _ end => change (match F ids s with (Ok x, s') => whole s' | (Err _, s') => half s' end) end. cbv beta.
    pose proof (H3_K (living w limit ids) (fun n => K_living n n n mj ids) s Hs) as H1.
    assert (Hn : NoDup (dkeys (k_packs (st_core s)))) by (destruct Hs as [n HJ]; apply HJ).
    pose proof (living_all ids s Hn) as H2. unfold bind at 1. destruct (living w limit ids s) as [[l|e] s1]; [|exact H1].
    destruct H2 as [Hq H2]. set (count := slots_of l (st_core s1)).
    match goal with |- match bind (getc ?f) ?F s1 with _ => _ end => change (match F count s1 with (Ok x, s') => whole s' | (Err _, s') => half s' end) end. cbv beta.
    assert (Hc : exists n, J R g w n n n (Nat.min count mj) s1).
    { destruct H1 as [n HJ]. exists n. destruct HJ. split; auto. intro Ho. apply Nat.min_glb; [|auto].
      unfold count, living_slots, slots_of. apply living_cover; [assumption|]. intros i h Hg Ha. apply (H2 i h Hg Ha).
      apply (q_packs _ _ Hq). apply nget_some_in. eauto. }
    clearbody count ids. clear - Hc R_nil R_snoc. revert s1 Hc.
    match goal with |- forall s, _ -> match ?m s with _ => _ end => change (H3 (fun s => exists n, J R g w n n n (Nat.min count mj) s) m (fun _ => whole)) end.
    eapply H3_bind with (Z := fun _ s => exists n, J R g w n n n (Nat.min count mj) s); [intros s Hs; exact Hs|]. intros bad. cbn beta.
    destruct bad; [intros s [n HJ]; apply whole_half; exists n; eapply J_cap; [|exact HJ]; lia|]. eapply H3_bind; [apply fill_ok|]. intros st. cbn beta.
    eapply H3_bind; [apply H3_K; intro; apply K_getc|]. intros ids'. eapply H3_bind; [apply H3_K; intro; apply K_living|]. intros l'. cbn beta.
    destruct st; [apply H3_K; intro; apply K_modc; intro c; destruct (_ =? _); [apply q_refl|split; cbn; eauto using incl_refl]|].
    destruct (_ =? 0); [apply H3_K; intro; apply K_raise|apply H3_K; intro; apply K_ret].
  Qed.
  Lemma iteration_ok : H3 whole (iteration g w limit) (fun _ => whole).
  Proof.
    unfold iteration. eapply H3_bind; [apply H3_K; intro; apply K_note; reflexivity|]. cbv beta. intros _.
    eapply H3_bind; [apply slots_ok|]. cbv beta. intros _. apply H3_K. intro n. apply K_rest; reflexivity.
  Qed.
  Lemma main_ok fuel : forall r, H3 whole (main_loop g w limit fuel r) (fun _ => whole).
  Proof.
    induction fuel as [|fuel IH]; intro r; cbn [main_loop]; [apply H3_K; intro; apply K_raise|].
    eapply H3_bind; [apply H3_K; intro; apply K_getc|]. intros [|]; [apply H3_K; intro; apply K_ret|].
    eapply H3_bind; [apply iteration_ok|]. intros chk. apply IH.
  Qed.
  (** *** Restarting those of a loaded manager: all together they fit *)
  Definition fits (s : mstate) : Prop := whole s /\ pack_slots (st_core s) <= mj.
  Definition PK {A} (m : M mstate A) : Prop := (forall n, K n n n mj m) /\ forall s, pack_slots (st_core (snd (m s))) = pack_slots (st_core s).
  Lemma H3_PK {A} (m : M mstate A) : PK m -> H3 fits m (fun _ => fits).
  Proof. intros [H1 H2] s [Hs Hp]. pose proof (H3_K m H1 s Hs) as H. specialize (H2 s). destruct (m s) as [[x|e] s1]; [split; [exact H|cbn in H2; congruence]|exact H]. Qed.
  Lemma PK_tick : PK (tick w limit).
  Proof.
    split; [intro; apply K_tick|]. intro s. unfold tick. destruct (Nat.leb _ _); [reflexivity|].
    pose proof (pack_slots_moves (w_moves w (k_tick (st_core s))) (st_core s)) as H. destruct (w_intr w _); exact H.
  Qed.
  Lemma PK_bind {A B} (m : M mstate A) (f : A -> M mstate B) : PK m -> (forall x, PK (f x)) -> PK (bind m f).
  Proof.
    intros [Hm Hp] Hf. split; [intro; apply K_bind; [apply Hm|intro x; apply (Hf x)]|]. intro s. specialize (Hp s). unfold bind.
    destruct (m s) as [[x|e] s1]; [|exact Hp]. cbn in Hp. rewrite <- Hp. apply (Hf x).
  Qed.
  Lemma PK_try {A} (m : M mstate A) f h : PK m -> (forall e, PK (h e)) -> PK (try_except m f h).
  Proof.
    intros [Hm Hp] Hf. split; [intro; apply K_try; [apply Hm|intro e; apply (Hf e)]|]. intro s. specialize (Hp s). unfold try_except.
    destruct (m s) as [[x|e] s1]; [exact Hp|]. cbn in Hp. destruct (f e); [|exact Hp]. rewrite <- Hp. apply (Hf e).
  Qed.
  Lemma PK_same {A} (m : M mstate A) : (forall n, K n n n mj m) -> (forall s, k_packs (st_core (snd (m s))) = k_packs (st_core s)) -> PK m.
  Proof. intros H1 H2. split; [exact H1|]. intro s. unfold pack_slots. now rewrite H2. Qed.
  Lemma PK_ext : PK (ext w limit).
  Proof. unfold ext. apply PK_bind; [apply PK_tick|]. intro x. destruct (w_err w x); apply PK_same; intros; try reflexivity; [apply K_raise|apply K_ret]. Qed.
  Lemma restart_ok i : H3 fits (restart_one w limit i) (fun _ => fits).
  Proof.
    unfold restart_one. eapply H3_bind; [apply H3_PK, PK_ext|]. cbv beta. intros _ [c h] [[n HJ] Hp]. cbn.
    destruct (nget i (k_packs c)) as [x|] eqn:E; [|split; [now exists n|exact Hp]].
    assert (Hp' : pack_slots (set_kpacks (nset i (mkCh (c_slots x) true 0 [] false true) (k_packs c)) c) <= mj) by (rewrite (pack_slots_nset i x); auto).
    split; [|exact Hp']. exists n. destruct HJ. cbn [st_core st_hist] in *. split; cbn [st_core st_hist]; auto.
    - intros j. cbn. rewrite (dkeys_nset_old _ _ _ _ E). apply j_packs0.
    - eapply chain_later; [eassumption| |reflexivity]. split; cbn; auto using incl_refl.
    - cbn. rewrite (dkeys_nset_old _ _ _ _ E). assumption.
    - intros _. eapply Nat.le_trans; [|exact Hp']. unfold living_slots, pack_slots. cbn [k_packs set_kpacks].
      generalize (nset i (mkCh (c_slots x) true 0 [] false true) (k_packs c)). intro l. clear. induction l as [|[j y] l IH]; cbn; [lia|]. destruct (c_alive y); lia.
  Qed.
  Lemma body_ok r : H3 fits (run_body g w limit r) (fun _ => whole).
  Proof.
    unfold run_body, pack_ids. eapply H3_bind; [apply H3_PK, PK_same; [intro; apply K_getc|reflexivity]|]. intros ids.
    eapply H3_bind with (Z := fun _ => fits).
    { cbv beta. induction ids as [|i ids IH]; cbn [for_each]; [intros s Hs; exact Hs|]. eapply H3_bind; [apply restart_ok|]. cbv beta. intros _. exact IH. }
    intros _. eapply H3_bind with (Z := fun _ => whole); [intros s [Hs _]; revert s Hs; apply main_ok|]. intros r'. cbn beta.
    eapply H3_bind; [apply H3_K; intro n; destruct (g_chk g && g_at_conv g); [apply K_checkpoint; reflexivity|apply K_ret]|]. cbv beta. intros _.
    eapply H3_bind; [apply H3_K; intro; apply K_stop_all|]. cbv beta. intros _. apply H3_K; intro; apply K_ret.
  Qed.
  Lemma half_K {A} (m : M mstate A) s : (forall a b d, K a b d mj m) -> half s -> half (snd (m s)).
  Proof. intros H (a & b & d & HJ & HL). exists a, b, d. split; [now apply H|exact HL]. Qed.
  Lemma start_manager_ok s : fits s -> half (snd (start_manager g w limit s)).
  Proof.
    intro Hs. unfold start_manager. set (m1 := try_except _ _ _).
    assert (H1 : H3 fits m1 (fun _ => fits)).
    { apply H3_PK. assert (Hc : forall x, PK (modc (set_kconverged x))) by (intro x; apply PK_same; [intro; apply K_modc; intro c; split; cbn; eauto using incl_refl|reflexivity]).
      assert (Hr : forall A (x : A), PK (ret x)) by (intros; apply PK_same; [intro; apply K_ret|reflexivity]).
      apply PK_try; [|intro; apply PK_bind; auto].
      apply PK_bind; [unfold checker_call; apply PK_bind; [apply PK_tick|]; intro t; apply PK_bind; [apply PK_same; [intro; apply K_getc|reflexivity]|];
        intro c; apply PK_same; [intro; apply K_lift|reflexivity]|]. intros chk.
      apply PK_bind; [apply PK_same; [intro; apply K_getc|reflexivity]|]. intros c. cbv zeta. apply PK_bind; auto. }
    specialize (H1 s Hs). unfold bind at 1. destruct (m1 s) as [[pre|e] s1]; [|exact H1]. clear m1.
    assert (Hrest : forall r, half (snd ((ext w limit ;;; (fun s => match run_body g w limit r s with
                 | (Ok r, s1) => finish r s1
                 | (Err OutOfFuel, s1) => (Err OutOfFuel, s1)
                 | (Err e, s1) =>
                     match stop_all_children w limit (Some (crash_text e)) s1 with
                     | (Err OutOfFuel, s2) => (Err OutOfFuel, s2)
                     | (_, s2) => finish (match e with KeyboardInterrupt => RInterrupt | _ => RCrash e end) s2
                     end
                 end)) s1))).
    { intro r. pose proof (H3_PK _ PK_ext s1 H1) as H2. unfold bind at 1.
      destruct (ext w limit s1) as [[u|e] s2]; [|exact H2]. clear s1 H1.
      pose proof (body_ok r s2 H2) as H4. destruct (run_body g w limit r s2) as [[r'|e] s3].
      { apply half_K; [intros; apply K_finish|]. apply whole_half. exact H4. }
      assert (H5 : half (snd (stop_all_children w limit (Some (crash_text e)) s3))) by (apply half_K; [intros; apply K_stop_all|exact H4]).
      destruct e; try exact H4; cbn [crash_text] in *;
      match goal with |- context [stop_all_children w limit ?y s3] => destruct (stop_all_children w limit y s3) as [x s4] end; cbn [snd] in H5;
      (destruct x as [u'|e']; [apply half_K; [intros; apply K_finish|exact H5]|]);
      destruct e'; try exact H5; (apply half_K; [intros; apply K_finish|exact H5]). }
    destruct pre as [[|]|]; [apply whole_half, H1|apply Hrest|apply Hrest].
  Qed.
End Always.

(** ** All sessions *)
Lemma fresh_fits R g w traj : fits R g w (fresh traj).
Proof.
  split; [|cbn; lia]. exists 0. split; cbn; auto using incl_refl; try (intros; contradiction); [constructor| |apply LG_init]. intros _. unfold living_slots. cbn. lia.
Qed.
Lemma seq_prefix {A} (l l' : list (nat * A)) n : map fst (l ++ l') = seq 1 n -> map fst l = seq 1 (length l).
Proof.
  intro H. rewrite map_app in H. assert (Hn : length l <= n) by (apply (f_equal (@length _)) in H; rewrite app_length, !map_length, seq_length in H; lia).
  replace n with (length l + (n - length l)) in H by lia. rewrite seq_app in H. revert H. generalize (map fst l') (seq (1 + length l) (n - length l)). intros l1 l2. assert (El : length (map fst l) = length (seq 1 (length l))) by now rewrite map_length, seq_length. revert El. generalize (map fst l) (seq 1 (length l)).
  intro x. induction x as [|y x IH]; intros [|z v] El E; try discriminate; [reflexivity|]. cbn in E. injection E as -> E. injection El as El. f_equal. auto.
Qed.
Lemma acc_app h1 h2 : accepted (h1 ++ h2) = accepted h2 ++ accepted h1.
Proof. induction h1 as [|[c e] h1 IH]; cbn; [now rewrite app_nil_r|]. destruct e; auto. now rewrite IH, app_assoc. Qed.
Lemma load_fits (R : list iterres -> list iterres -> Prop) g w g' w' s a b d cap k late builds conv c : J R g w a b d cap s -> written s k late ->
  (forall rs i acc, R rs (own i acc) -> R rs (own i (acc ++ late))) -> load g' k builds conv = Ok c ->
  fits R g' w' (begin k c).
Proof.
  intros HJ (h1 & ha & cl & hb & E1 & E2 & Hnear & Hlog & Hlate & Hnd & Hfound) HR Hload.
  destruct (load_ok _ _ _ _ _ Hload) as (packs & -> & Hkeys & Hsum). clear Hload. destruct HJ. rewrite E1 in *.
  pose proof (snaps_split _ _ _ _ _ j_facts0) as (F1 & F2 & FL & F3 & F4 & F5 & F6 & F7 & F8). cbn [fact] in *.
  assert (Hs : snaps (fact R) ((ck_core k, EvSaveManager) :: ck_hist k)).
  { clear - j_facts0. induction h1 as [|[c0 e0] h1 IH]; [exact j_facts0|]. apply IH. apply j_facts0. }
  assert (HL : LG R (setups (ck_hist k)) (accepted (ck_hist k)) (ck_log k)).
  { pose proof Hs as Hs'. rewrite E2 in Hs'. pose proof (snaps_split _ (_ :: ha) _ _ _ Hs') as (_ & _ & HL & _). rewrite Hlog.
    apply (LG_acc R _ (accepted hb)); [apply (lg_src _ _ _ _ FL)| |].
    - intros rs i Hr. rewrite E2, acc_app. cbn. rewrite <- Hlate. now apply HR.
    - eapply LG_reg; [|exact HL]. intros p Hp. rewrite E2, setups_app. cbn. apply in_app_iff. auto. }
  split; [|unfold pack_slots; cbn; rewrite slots_dormant; exact Hsum]. exists (k_o (ck_core k)). rewrite setups_app in j_setups0. rewrite starts_app in j_starts0. cbn in j_setups0, j_starts0.
  apply seq_prefix in j_setups0, j_starts0.
  assert (Hls : living_slots (loaded (ck_core k) (ck_log k) packs conv) = 0) by apply living_dormant.
  unfold begin. split; cbn [st_core st_hist]; unfold loaded; cbn; auto; try congruence.
  - intros [[=]|[[=]|H]]; auto.
  - intros i Hi. rewrite keys_dormant, Hkeys in Hi. apply filter_In in Hi as [Hi _]. apply Hfound in Hi.
    apply in_map_iff in Hi as [[ci e] [Ee Hi]]. cbn in Ee. subst e. apply in_split in Hi as [hp [hq ->]].
    rewrite E2, <- app_assoc in Hs. cbn [app] in Hs. pose proof (snaps_split _ (_ :: hp) _ _ _ Hs) as (_ & _ & _ & HP). cbn in HP.
    assert (Hin : In i (map fst (starts (ck_hist k)))).
    { rewrite E2, <- app_assoc, starts_app, map_app. apply in_app_iff. left. exact HP. }
    rewrite j_starts0 in Hin. apply in_seq in Hin. lia.
  - split; [|exact Hs]. unfold fact. splits; auto.
  - destruct (chain_split _ _ _ _ _ j_chain0) as [_ K].
    change (chain ((loaded (ck_core k) (ck_log k) packs conv, EvLoad) :: (ck_core k, EvSaveManager) :: ck_hist k) (loaded (ck_core k) (ck_log k) packs conv)).
    apply chain_note; [discriminate|apply later_refl|reflexivity|]. apply chain_note; [discriminate|split; cbn; auto using incl_refl|reflexivity|exact K].
  - rewrite keys_dormant, Hkeys. apply NoDup_filter. exact Hnd.
  - intros _. change (living_slots (loaded (ck_core k) (ck_log k) packs conv) <= g_max_jobs g'). lia.
Qed.
Lemma session_J (R : list iterres -> list iterres -> Prop) (P : list iterres -> Prop) g w s : R [] [] -> (forall a b x, R a b -> R (a ++ [x]) (b ++ [x])) ->
  (forall late, P late -> forall rs i acc, R rs (own i acc) -> R rs (own i (acc ++ late))) -> session P g w s ->
  exists a b d, J R g w a b d (g_max_jobs g) s /\ d <= b /\ b <= a /\ a <= S d.
Proof.
  intros R1 R2 R3 H. induction H as [g w s (limit & traj & ->)|g w s k late builds conv c g' w' limit _ (a & b & d & HJ & _) Hw Hp Hl].
  - apply (start_manager_ok R R1 R2 g w limit). apply fresh_fits.
  - apply (start_manager_ok R R1 R2 g' w' limit). exact (load_fits _ _ _ _ _ _ _ _ _ _ _ _ _ _ _ HJ Hw (R3 _ Hp) Hl).
Qed.
(** Some of the accepted evaluations are in the log, ... *)
Lemma session_always P g w s : session P g w s -> exists a b d, J sub g w a b d (g_max_jobs g) s /\ d <= b /\ b <= a /\ a <= S d.
Proof.
  apply session_J; [constructor| |].
  - intros a b x H. apply sub_app; [exact H|]. repeat constructor.
  - intros late _ rs i acc H. rewrite own_app, <- (app_nil_r rs). apply sub_app; [exact H|apply sub_none].
Qed.
(** ... all of them unless some came in late. *)
Lemma session_in_step g w s : in_step g w s -> exists a b d, J eq g w a b d (g_max_jobs g) s /\ d <= b /\ b <= a /\ a <= S d.
Proof. apply session_J; [reflexivity|intros a b x ->; reflexivity|]. intros late -> rs i acc ->. now rewrite app_nil_r. Qed.

Lemma written_starts P g w s k late : session P g w s -> written s k late ->
  map fst (starts (ck_hist k)) = seq 1 (length (starts (ck_hist k))) /\ forall i, In i (ck_found k) -> In i (map fst (starts (ck_hist k))).
Proof.
  intros Hs (h1 & ha & cl & hb & E1 & E2 & Hnear & Hlog & Hlate & Hnd & Hfound). destruct (session_always _ _ _ _ Hs) as (a & b & d & [] & _).
  rewrite E1 in *. rewrite starts_app in j_starts0. cbn in j_starts0. apply seq_prefix in j_starts0. split; [exact j_starts0|].
  intros i Hi. apply Hfound in Hi. apply in_map_iff in Hi as [[ci e] [Ee Hi]]. cbn in Ee. subst e. apply in_split in Hi as [hp [hq ->]].
  assert (Hf : snaps (fact sub) (h1 ++ (ck_core k, EvSaveManager) :: hp ++ (ci, EvSend i OSave) :: hq ++ (cl, EvSaveLog) :: hb)).
  { rewrite E2 in j_facts0. rewrite <- app_assoc in j_facts0. exact j_facts0. }
  assert (Hf' : snaps (fact sub) ((h1 ++ (ck_core k, EvSaveManager) :: hp) ++ (ci, EvSend i OSave) :: hq ++ (cl, EvSaveLog) :: hb)) by (rewrite <- app_assoc; exact Hf).
  apply snaps_split in Hf' as (_ & _ & _ & HP). cbn in HP. rewrite E2, <- app_assoc, starts_app, map_app. apply in_app_iff. left. exact HP.
Qed.
Lemma restarts_known P g w s k late : session P g w s -> written s k late -> exists saved, restarts (ck_found k) (ck_hist k) = Ok saved.
Proof.
  intros Hs Hw. destruct (written_starts _ _ _ _ _ _ Hs Hw) as [_ K]. induction (ck_found k) as [|i l IH]; [exists []; reflexivity|]. cbn.
  destruct (declared_in _ _ (K i (or_introl eq_refl))) as [n ->]. destruct IH as [r ->]; [intros j Hj; apply K; right; exact Hj|]. eauto.
Qed.
Lemma once_started P g w s k late : session P g w s -> written s k late -> NoDup (map fst (starts (ck_hist k))).
Proof. intros Hs Hw. destruct (written_starts _ _ _ _ _ _ Hs Hw) as [-> _]. apply seq_NoDup. Qed.
Lemma loaded_children P g w s k late builds conv g' c saved i h : session P g w s -> written s k late -> load g' k builds conv = Ok c ->
  map fst saved = ck_found k -> (forall i n, In (i, n) saved -> exists c cls, In (c, EvStart i cls n) (ck_hist k)) ->
  nget i (k_packs c) = Some h ->
  exists n, h = mkCh n false 0 [] false true /\ In i (ck_found k) /\ builds i = true /\
    (sum_nat (map snd saved) <= g_max_jobs g' -> In (i, n) saved) /\
    (g_max_jobs g' < sum_nat (map snd saved) -> n = g_max_jobs g' / length saved).
Proof.
  intros Hs Hw Hl Hf Hst Hg.
  pose proof (restarts_are _ _ saved (once_started _ _ _ _ _ _ Hs Hw) Hf Hst) as Hr. unfold load in Hl. rewrite Hr in Hl.
  unfold rebuild in Hl. destruct (apportion (g_max_jobs g') saved) as [out|] eqn:E; [|discriminate].
  destruct (apportion_spec _ _ _ E) as (H1 & _ & H3 & H4).
  assert (Hp : k_packs c = map dormant (filter (fun p => builds (fst p)) out)).
  { destruct (filter (fun p => builds (fst p)) out); [destruct out; [|discriminate]|]; injection Hl as <-; reflexivity. }
  rewrite Hp in Hg. destruct (dormant_child _ _ _ Hg) as (n & Hn & ->). apply filter_In in Hn as [Hn Hb]. exists n. splits; auto.
  - rewrite <- Hf, <- H1. apply in_map_iff. exists (i, n). auto.
  - intro Hle. rewrite <- (H3 Hle). exact Hn.
  - intro Hgt. apply (H4 Hgt _ _ Hn).
Qed.
