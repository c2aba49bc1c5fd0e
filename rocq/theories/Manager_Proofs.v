(** * Proofs about the manager *)
From Verif Require Import Prelude Prelude_Proofs Logger_Model Logger_Spec Logger_Proofs Manager_Model Manager_Spec.

Arguments dkeys : simpl never.
Arguments put_iteration : simpl never.

(** ** Moves of the outside *)
Record env_rel (ms : list move) (c c' : core) : Prop := mkER {
  er_keys : dkeys (k_packs c') = dkeys (k_packs c);
  er_child : forall i h', nget i (k_packs c') = Some h' ->
     exists h, nget i (k_packs c) = Some h /\ c_slots h' = c_slots h /\ (c_alive h' = true -> c_alive h = true);
  er_dead : forall i h, nget i (k_packs c) = Some h -> c_alive h = false -> nget i (k_packs c') = Some h;
  er_slots : living_slots c' <= living_slots c;
  er_queue : forall ch, In ch (k_queue c') -> In ch (k_queue c) \/
     (In (MPush ch) ms /\ forall q, In q ch -> 1 <= qid q <= k_o c);
  er_files : forall n, In n (k_files c') -> In n (k_files c) \/ In (MFile n) ms;
  er_chkpt : k_chkpt c' = true -> k_chkpt c = true \/ In MCheckpointFile ms;
  er_grave : k_grave c' = k_grave c;
  er_victims : k_victims c' = k_victims c;
  er_f : k_f c' = k_f c;
  er_o : k_o c' = k_o c;
  er_conv : k_conv c' = k_conv c;
  er_hunts : k_hunts c' = k_hunts c;
  er_last_hunt : k_last_hunt c' = k_last_hunt c;
  er_spawn : k_spawn c' = k_spawn c;
  er_crashed : k_crashed c' = k_crashed c;
  er_last_spawn : k_last_spawn c' = k_last_spawn c;
  er_result : k_result c' = k_result c;
  er_log : k_log c' = k_log c;
  er_last_iter : k_last_iter c' = k_last_iter c;
  er_converged : k_converged c' = k_converged c;
  er_tick : k_tick c' = k_tick c }.

Lemma env_rel_refl ms c : env_rel ms c c.
Proof. split; auto. intros. eauto. Qed.

Lemma env_rel_trans ms ms' a b c : env_rel ms a b -> env_rel ms' b c -> env_rel (ms ++ ms') a c.
Proof.
  intros H1 H2. destruct H1 as [k1 ch1 d1 s1 q1 fl1 p1 e1 e2 e3 e4 e5 e6 e7 e8 e9 e10 e11 e12 e13 e14 e15].
  destruct H2 as [k2 ch2 d2 s2 q2 fl2 p2 f1 f2 f3 f4 f5 f6 f7 f8 f9 f10 f11 f12 f13 f14 f15].
  split; try congruence; try lia.
  - intros i h' Hg. destruct (ch2 _ _ Hg) as [h1 [Hg1 [Hs1 Ha1]]].
    destruct (ch1 _ _ Hg1) as [h0 [Hg0 [Hs0 Ha0]]]. exists h0. splits; auto. congruence.
  - intros i h Hg Ha. apply d2; auto.
  - intros ch Hin. destruct (q2 ch Hin) as [H|[H H']].
    + destruct (q1 ch H) as [Ha|[Ha Hb]]; [left; exact Ha|]. right. split; [apply in_app_iff; auto| exact Hb].
    + right. split; [apply in_app_iff; auto|]. intros q Hq. rewrite <- e4. auto.
  - intros n Hn. destruct (fl2 n Hn) as [H|H]; [destruct (fl1 n H) as [Ha|Ha]; [auto|]|]; right; apply in_app_iff; auto.
  - intro H. destruct (p2 H) as [H'|H']; [destruct (p1 H') as [Ha|Ha]; [auto|]|]; right; apply in_app_iff; auto.
Qed.

Lemma sum_slots_nset i (h h' : child) d (P : child -> nat) :
  nget i d = Some h -> P h' <= P h ->
  sum_nat (map (fun p => P (snd p)) (nset i h' d)) <= sum_nat (map (fun p => P (snd p)) d).
Proof.
  intros Hg Hle. induction d as [|[j x] d IH]; [discriminate|]. cbn in *.
  destruct (Nat.eqb i j); cbn; [injection Hg as ->; lia|]. specialize (IH Hg). lia.
Qed.

Lemma on_child_rel ms i f c :
  (forall h, c_slots (f h) = c_slots h /\ (c_alive (f h) = true -> c_alive h = true)) -> env_rel ms c (on_child i f c).
Proof.
  intro Hf. unfold on_child. destruct (nget i (k_packs c)) as [h|] eqn:E; [|apply env_rel_refl].
  destruct (c_alive h) eqn:Ea; [|apply env_rel_refl].
  split; auto; cbn.
  - rewrite dkeys_nset. assert (H : In i (dkeys (k_packs c))) by (apply nget_some_in; eauto).
    apply nmem_in in H. rewrite H. reflexivity.
  - intros j h' Hg. rewrite nget_nset in Hg. destruct (Nat.eqb_spec j i) as [->|Hn].
    + injection Hg as <-. exists h. destruct (Hf h). auto.
    + eauto.
  - intros j h' Hg Ha. rewrite nget_nset_other; [exact Hg|]. intros ->. congruence.
  - unfold living_slots; cbn. eapply (sum_slots_nset i h (f h) (k_packs c) (fun h => if c_alive h then c_slots h else 0)); [exact E|].
    destruct (Hf h) as [Hs Hal]. rewrite Ea, Hs. destruct (c_alive (f h)); lia.
Qed.

Lemma apply_move_rel m c : env_rel [m] c (apply_move m c).
Proof.
  destruct m; cbn [apply_move]; try (apply on_child_rel; intro h; destruct (c_closed h); cbn; auto; fail);
    try (apply on_child_rel; intro h; cbn; auto; fail).
  - apply on_child_rel. intro h. cbn. split; [reflexivity| discriminate].
  - destruct (forallb _ ch) eqn:E; [|apply env_rel_refl].
    split; auto; cbn; eauto. intros ch' Hin. apply in_app_iff in Hin as [H|[<-|[]]]; [auto|].
    right. split; [auto|]. intros q Hq. rewrite forallb_forall in E. specialize (E q Hq).
    apply andb_true_iff in E as [H1 H2]. apply Nat.leb_le in H1, H2. lia.
  - split; auto; cbn; eauto. intros n' Hin. apply in_app_iff in Hin as [H|[<-|[]]]; auto.
  - split; auto; cbn; eauto.
Qed.

Lemma apply_moves_rel ms : forall c, env_rel ms c (apply_moves ms c).
Proof.
  induction ms as [|m ms IH]; intro c; [apply env_rel_refl|].
  cbn. exact (env_rel_trans [m] ms _ _ _ (apply_move_rel m c) (IH _)).
Qed.

(** ** More about the log *)
Lemma Inv_best reg h s : Inv reg h s ->
  exists b, get_best_iter None s = Ok b /\ first_best h (fun _ => true) (b_opt b) (b_x b) (b_fx b) (b_call b) /\
            (b_call b = 0 -> b = no_best) /\ (b_call b <> 0 -> In (b_opt b, b_type b) reg).
Proof.
  intros [_ Hr _ _ _ [b [Hb [Hsrc Hfb]]] _ _ _]. exists b. unfold get_best_iter. rewrite Hb. split; [reflexivity|].
  split; [exact Hfb|]. destruct Hsrc as [[_ ->]|[i [ty [Hin [Hget Hpos]]]]]; [split; [reflexivity| cbn; congruence]|].
  destruct (Hr i ty Hin) as [H0 [a [b' [Ha [Hb' [Ho [Ht Hfi]]]]]]].
  assert (b' = b) by congruence. subst b'. split; [lia|]. intros _. rewrite Ho, Ht. exact Hin.
Qed.

Lemma dkeys_nset_old {V} i (v v0 : V) d : nget i d = Some v0 -> dkeys (nset i v d) = dkeys d.
Proof.
  intro H. rewrite dkeys_nset. assert (Hi : In i (dkeys d)) by (apply nget_some_in; eauto).
  apply nmem_in in Hi. rewrite Hi. reflexivity.
Qed.

Lemma lstep_store_keys o s i : In i (dkeys (l_store (snd (lstep o s)))) ->
  In i (dkeys (l_store s)) \/ exists ty t, o = AddOpt i ty t.
Proof.
  destruct o as [j ty t|j hd|r|cl|j k v|j m]; cbn [lstep].
  - cbn. rewrite dkeys_nset. destruct (nmem j _); [auto|]. rewrite in_app_iff. intros [H|[->|[]]]; eauto.
  - unfold add_iter_history. destruct (nget j (l_store s)) eqn:E; cbn; [|auto]. rewrite (dkeys_nset_old _ _ _ _ E). auto.
  - intro H. left. destruct (put_iteration_store r s) as [E|[e [e' [E1 E2]]]]; rewrite ?E, ?E2 in H; [exact H|].
    rewrite (dkeys_nset_old _ _ _ _ E1) in H. exact H.
  - unfold clear_cache. destruct (l_traj s); [auto|]. destruct cl as [[|j]|]; cbn; [intros []| | intros []].
    destruct (nmemd (S j) (l_store s)); cbn; [|auto]. intro H. left. eapply in_dkeys_ndel; exact H.
  - unfold put_metadata. destruct (nget j (l_store s)) eqn:E; cbn; [|auto]. rewrite (dkeys_nset_old _ _ _ _ E). auto.
  - unfold put_message. destruct (nget j (l_store s)) eqn:E; cbn; [|auto]. rewrite (dkeys_nset_old _ _ _ _ E). auto.
Qed.

Lemma same_core_best s t : same_core s t -> get_best_iter None t = get_best_iter None s.
Proof. intros [_ [H2 [_ [H4 _]]]]. unfold get_best_iter. rewrite H2, H4. reflexivity. Qed.

Lemma first_best_prefix h1 h2 sel o x fx c o' x' fx' c' :
  first_best h1 sel o x fx c -> first_best (h1 ++ h2) sel o' x' fx' c' -> nle fx' fx = true.
Proof.
  intros H1 H2. pose proof (first_best_not_nan _ _ _ _ _ _ H1) as N1. pose proof (first_best_not_nan _ _ _ _ _ _ H2) as N2.
  destruct H1 as [[-> _]|[r [_ [Hn [Hs [_ [_ [Hf [Hlt _]]]]]]]]].
  - destruct fx'; try discriminate; reflexivity.
  - assert (Hin : In r (h1 ++ h2)) by (apply in_app_iff; left; eapply nth_error_In; exact Hn).
    destruct H2 as [[-> [_ [_ Hall]]]|[r' [_ [_ [_ [_ [_ [_ [_ [Hall _]]]]]]]]]].
    + specialize (Hall r Hin Hs). congruence.
    + specialize (Hall r Hin Hs). rewrite Hf in Hall. apply nlt_false_nle; assumption.
Qed.

(** ** Atomic steps of a run *)
Definition result_of (b : brec) (c : core) : result :=
  mkR (Some (b_x b)) (Some (b_fx b)) (Some (k_f c, k_o c, length (k_victims c), k_conv c)) (Some (b_opt b, b_type b)).

(** The result is up to date with the log. *)
Definition exact (c : core) : Prop :=
  (k_f c = 0 /\ k_result c = mkR None None None None) \/
  exists b a1 a2 a3, get_best_iter None (k_log c) = Ok b /\ 0 < k_f c /\
    k_result c = mkR (Some (b_x b)) (Some (b_fx b)) (Some (k_f c, a1, a2, a3)) (Some (b_opt b, b_type b)).

(** No optimizer is half started and no evaluation half processed. *)
Definition settled (s : mstate) : Prop :=
  length (setups (st_hist s)) = k_o (st_core s) /\ length (starts (st_hist s)) = k_o (st_core s) /\ exact (st_core s).

(** The log was written and no optimizer was set up since. *)
Definition log_written (h : hist) : Prop :=
  exists ha cl hb, h = ha ++ (cl, EvSaveLog) :: hb /\ setups ha = [] /\ starts ha = [] /\ ~ In EvLoad (map snd ha).

Definition noted (e : event) (f : core -> core) (s : mstate) : mstate :=
  mkMS (f (st_core s)) ((st_core s, e) :: st_hist s).
Definition upd (f : core -> core) (s : mstate) : mstate := mkMS (f (st_core s)) (st_hist s).

Definition plain_log_op (c : core) (o : lop) : Prop :=
  match o with
  | AddHist i _ | PutMeta i _ _ | PutMsg i _ => id_ok c i
  | ClearCache (Some i) => id_ok c i
  | _ => False
  end.

(** Attributes without influence on the statements. *)
Record minor (c c' : core) : Prop := mkMinor {
  mi_packs : k_packs c' = k_packs c; mi_grave : k_grave c' = k_grave c; mi_victims : k_victims c' = k_victims c;
  mi_f : k_f c' = k_f c; mi_o : k_o c' = k_o c; mi_conv : k_conv c' = k_conv c; mi_hunts : k_hunts c' = k_hunts c;
  mi_last_hunt : k_last_hunt c' = k_last_hunt c; mi_spawn : k_spawn c' = k_spawn c; mi_result : k_result c' = k_result c;
  mi_log : k_log c' = k_log c; mi_converged : k_converged c' = k_converged c;
  mi_queue : forall ch, In ch (k_queue c') -> In ch (k_queue c);
  mi_files : forall n, In n (k_files c') -> In n (k_files c);
  mi_chkpt : k_chkpt c' = true -> k_chkpt c = true }.

Inductive lab := Quiet | Spawn | Eval | Judge | Purge | Wake.

(** What passes through the pipe of the optimizer. *)
Definition talk (i : nat) (e : event) : Prop := match e with EvSend j _ | EvPaused j => j = i | _ => False end.

Ltac talks := try match goal with
  | H : In ?i (dkeys _), Ht : talk ?i ?e |- _ => destruct e; try contradiction Ht; cbn in Ht; subst end.

Section Steps.
  Context (g : config) (w : world).

  Inductive mstep : lab -> mstate -> mstate -> Prop :=
  | St_env s ms : (forall m, In m ms -> exists t, In m (w_moves w t)) ->
      mstep Quiet s (upd (fun c => set_ktick (S (k_tick c)) (apply_moves ms c)) s)
  | St_minor s f : minor (st_core s) (f (st_core s)) -> mstep Quiet s (upd f s)
  | St_pre s b : last_judgement (st_hist s) = None -> mstep Judge s (upd (set_kconverged b) s)
  | St_send s i e : In i (dkeys (k_packs (st_core s))) -> talk i e -> mstep Quiet s (noted e (fun c => c) s)
  | St_note s e : In e [EvSelect; EvSaveLog] -> settled s -> mstep Quiet s (noted e (fun c => c) s)
  | St_saved s : settled s -> log_written (st_hist s) -> mstep Quiet s (noted EvSaveManager (fun c => c) s)
  | St_iter s : settled s -> k_converged (st_core s) = false -> mstep Quiet s (noted EvIter (fun c => c) s)
  | St_judge s a d : settled s -> last_judgement (st_hist s) <> Some true -> (exists t, w_check w t (st_core s) = Ok a) ->
      (if d : bool then forall i h, nget i (k_packs (st_core s)) = Some h -> c_alive h = false else k_packs (st_core s) <> []) ->
      mstep Judge s (noted (EvJudge a d) (fun c => set_kconverged (a || (d && negb (k_spawn c))) c) s)
  | St_stop s : settled s -> mstep Quiet s (noted EvStopSpawn (set_kspawn false) s)
  | St_child s i h h' : nget i (k_packs (st_core s)) = Some h -> c_slots h' = c_slots h -> c_alive h' = c_alive h ->
      mstep Quiet s (upd (fun c => set_kpacks (nset i h' (k_packs c)) c) s)
  | St_purge s i : In i (k_grave (st_core s)) ->
      mstep Purge s (upd (fun c => set_kpacks (ndel i (k_packs c)) c) s)
  | St_conv s i : In i (dkeys (k_packs (st_core s))) -> ~ In i (k_grave (st_core s)) ->
      mstep Quiet s (upd (fun c => set_kconv (S (k_conv c)) (bury i c)) s)
  | St_conv_chk s i : In i (dkeys (k_packs (st_core s))) -> ~ no_checkpoints g w ->
      mstep Quiet s (upd (fun c => set_kconv (S (k_conv c)) (bury i c)) s)
  | St_bury s i : In i (dkeys (k_packs (st_core s))) -> mstep Quiet s (upd (bury i) s)
  | St_kill s hn i : In i (dkeys (k_packs (st_core s))) -> ~ In i (k_grave (st_core s)) ->
      (forall b, hn = Some b -> settled s /\ has_iter_history i (k_log (st_core s)) = true /\ i <> b /\
                 exists ty, r_origin (k_result (st_core s)) = Some (b, ty)) ->
      mstep Quiet s (noted (EvKill hn i) (fun c => bury i (set_kvictims (nadd i (k_victims c)) c)) s)
  | St_hunt s b ty : settled s -> r_origin (k_result (st_core s)) = Some (b, ty) -> 0 < b -> g_killing g = true ->
      g_hunt_freq g <= k_f (st_core s) - k_last_hunt (st_core s) ->
      mstep Quiet s (noted EvHunt (fun c => set_klast_hunt (k_f c) (set_khunts (S (k_hunts c)) c)) s)
  | St_log s o : plain_log_op (st_core s) o ->
      mstep Quiet s (upd (fun c => set_klog (snd (lstep o (k_log c))) c) s)
  | St_close s : mstep Quiet s (upd (fun c => set_klog (snd (log_close (k_log c))) c) s)
  | St_count s : settled s -> mstep Spawn s (upd (fun c => set_ko (S (k_o c)) c) s)
  | St_setup s i cls : i = k_o (st_core s) -> S (length (setups (st_hist s))) = i ->
      mstep Spawn s (noted (EvSetup i cls) (fun c => set_klog (snd (add_optimizer i cls "now" (k_log c))) c) s)
  | St_register s i slots : i = k_o (st_core s) -> length (setups (st_hist s)) = i -> S (length (starts (st_hist s))) = i ->
      mstep Spawn s (upd (fun c => set_kpacks (nset i (mkCh slots false 0 [] false true) (k_packs c)) c) s)
  | St_start s i cls slots : i = k_o (st_core s) -> length (setups (st_hist s)) = i -> S (length (starts (st_hist s))) = i ->
      k_spawn (st_core s) = true -> nget i (k_packs (st_core s)) = Some (mkCh slots false 0 [] false true) ->
      (exists l, setups (st_hist s) = l ++ [(i, cls)]) ->
      (obeys w -> living_slots (st_core s) + slots <= g_max_jobs g) ->
      mstep Spawn s (noted (EvStart i cls slots)
                           (fun c => set_kpacks (nset i (mkCh slots true 0 [] false true) (k_packs c)) c) s)
  | St_accept s r : settled s -> ~ In (ir_opt r) (k_victims (st_core s)) -> id_ok (st_core s) (ir_opt r) ->
      mstep Eval s (noted (EvAccept r) (fun c => set_klog (snd (put_iteration r (k_log c))) (set_kf (S (k_f c)) c)) s)
  | St_result s b : 0 < k_f (st_core s) -> get_best_iter None (k_log (st_core s)) = Ok b ->
      mstep Eval s (upd (fun c => set_kresult (result_of b c) c) s)
  | St_end s : mstep Eval s
      (noted EvEnd (fun c => set_kresult (mkR (match r_x (k_result c) with Some [] => None | x => x end)
                                              (r_fx (k_result c)) (r_stats (k_result c)) (r_origin (k_result c))) c) s)
  | St_restart s i h : nget i (k_packs (st_core s)) = Some h ->
      (obeys w -> living_slots (st_core s) + c_slots h <= g_max_jobs g) ->
      mstep Wake s (upd (fun c => set_kpacks (nset i (mkCh (c_slots h) true 0 [] false true) (k_packs c)) c) s).

  Inductive star (L : lab -> bool) : mstate -> mstate -> Prop :=
  | star_refl s : star L s s
  | star_step l s s1 s2 : L l = true -> mstep l s s1 -> star L s1 s2 -> star L s s2.

  Lemma star_trans L s1 s2 s3 : star L s1 s2 -> star L s2 s3 -> star L s1 s3.
  Proof. induction 1; intro H2; [exact H2|]. econstructor; eauto. Qed.

  Lemma star_one L l s s' : L l = true -> mstep l s s' -> star L s s'.
  Proof. intros. econstructor; [eassumption| eassumption| constructor]. Qed.

  Lemma star_sub (L L' : lab -> bool) s s' : (forall l, L l = true -> L' l = true) -> star L s s' -> star L' s s'.
  Proof. intros HL. induction 1; [constructor|]. econstructor; eauto. Qed.

  Lemma star_ind_inv L (I : mstate -> Prop) :
    (forall l s s', L l = true -> mstep l s s' -> I s -> I s') -> forall s s', star L s s' -> I s -> I s'.
  Proof. intro H. induction 1; intro; eauto. Qed.

  (** A method traces: its effect is a sequence of steps; [P] before, [Q] after, [E] when it raises. *)
  Definition tr (L : lab -> bool) (P : mstate -> Prop) {A} (m : M mstate A) (Q : A -> mstate -> Prop)
             (E : exn -> mstate -> Prop) : Prop :=
    forall s, P s -> star L s (snd (m s)) /\ match m s with (Ok a, s') => Q a s' | (Err e, s') => E e s' end.

  Lemma tr_conseq (L L' : lab -> bool) (P P' : mstate -> Prop) {A} (m : M mstate A) (Q Q' : A -> mstate -> Prop) (E E' : exn -> mstate -> Prop) :
    tr L P m Q E -> (forall l, L l = true -> L' l = true) -> (forall s, P' s -> P s) ->
    (forall a s, Q a s -> Q' a s) -> (forall e s, E e s -> E' e s) -> tr L' P' m Q' E'.
  Proof.
    intros H HL HP HQ HE s Hs. destruct (H s (HP s Hs)) as [H1 H2].
    split; [eapply star_sub; eassumption|]. destruct (m s) as [[a|e] s']; auto.
  Qed.

  Lemma tr_ret L (P : mstate -> Prop) {A} (a : A) (Q : A -> mstate -> Prop) E :
    (forall s, P s -> Q a s) -> tr L P (ret a) Q E.
  Proof. intros H s Hs. split; [constructor| cbn; auto]. Qed.

  Lemma tr_raise L (P : mstate -> Prop) {A} e Q (E : exn -> mstate -> Prop) :
    (forall s, P s -> E e s) -> tr L P (@raise mstate A e) Q E.
  Proof. intros H s Hs. split; [constructor| cbn; auto]. Qed.

  Lemma tr_bind L P {A B} (m : M mstate A) (f : A -> M mstate B) R Q E :
    tr L P m R E -> (forall a, tr L (R a) (f a) Q E) -> tr L P (bind m f) Q E.
  Proof.
    intros Hm Hf s Hs. unfold bind. destruct (Hm s Hs) as [H1 H2].
    destruct (m s) as [[a|e] s'] eqn:Em; cbn in *; [|auto].
    destruct (Hf a s' H2) as [H3 H4]. split; [eapply star_trans; eassumption| exact H4].
  Qed.

  Lemma tr_getc L (P : mstate -> Prop) {A} (f : core -> A) E :
    tr L P (getc f) (fun a s => P s /\ a = f (st_core s)) E.
  Proof. intros s Hs. split; [constructor| cbn; auto]. Qed.

  Lemma tr_lift L (P : mstate -> Prop) {A} (r : res A) (E : exn -> mstate -> Prop) :
    (forall e s, r = Err e -> P s -> E e s) -> tr L P (lift r) (fun a s => P s /\ r = Ok a) E.
  Proof. intros He s Hs. split; [constructor|]. cbn. destruct r; auto. Qed.

  Lemma tr_try L P {A} (m : M mstate A) f h R Q E :
    tr L P m Q R -> (forall e, f e = true -> tr L (R e) (h e) Q E) -> (forall e s, f e = false -> R e s -> E e s) ->
    tr L P (try_except m f h) Q E.
  Proof.
    intros Hm Hh He s Hs. unfold try_except. destruct (Hm s Hs) as [H1 H2].
    destruct (m s) as [[a|e] s'] eqn:Em; cbn in *; [auto|].
    destruct (f e) eqn:Ef; [|auto]. destruct (Hh e Ef s' H2) as [H3 H4]. split; [eapply star_trans; eassumption| exact H4].
  Qed.

  Lemma tr_for_each L P {A} (l : list A) (f : A -> M mstate unit) E :
    (forall a, In a l -> tr L P (f a) (fun _ => P) E) -> tr L P (for_each l f) (fun _ => P) E.
  Proof.
    induction l as [|a l IH]; intro H; cbn.
    - apply tr_ret. auto.
    - eapply tr_bind; [apply H; left; reflexivity|]. intros []. apply IH. intros b Hb. apply H. right. exact Hb.
  Qed.

  Lemma tr_step L l (P : mstate -> Prop) {A} (m : M mstate A) (F : mstate -> mstate) (a : A) (Q : A -> mstate -> Prop) E :
    L l = true -> (forall s, m s = (Ok a, F s)) -> (forall s, P s -> mstep l s (F s)) -> (forall s, P s -> Q a (F s)) ->
    tr L P m Q E.
  Proof.
    intros HL Hm Hst HQ s Hs. rewrite Hm. cbn. split; [eapply star_one; eauto| auto].
  Qed.

  (** Any fact which all steps keep may be carried along. *)
  Lemma tr_frame L (P F : mstate -> Prop) {A} (m : M mstate A) Q E :
    (forall l s s', L l = true -> mstep l s s' -> F s -> F s') ->
    tr L P m Q E -> tr L (fun s => P s /\ F s) m (fun a s => Q a s /\ F s) (fun e s => E e s /\ F s).
  Proof.
    intros HF Hm s [HP Hs]. destruct (Hm s HP) as [H1 H2]. split; [exact H1|].
    assert (HF' : F (snd (m s))) by (eapply star_ind_inv; eauto).
    destruct (m s) as [[a|e] s']; cbn in *; auto.
  Qed.

  (** ** Invariant: ids *)
  Record IdInv (s : mstate) : Prop := mkId {
    id_nodup : NoDup (dkeys (k_packs (st_core s)));
    id_packs : forall i, In i (dkeys (k_packs (st_core s))) -> id_ok (st_core s) i;
    id_gnodup : NoDup (k_grave (st_core s));
    id_grave : forall i, In i (k_grave (st_core s)) -> id_ok (st_core s) i;
    id_vict : k_victims (st_core s) = kills (st_hist s);
    id_vnodup : NoDup (kills (st_hist s));
    id_vgrave : forall i, In i (kills (st_hist s)) -> In i (k_grave (st_core s));
    id_queue : forall ch q, In ch (k_queue (st_core s)) -> In q ch -> id_ok (st_core s) (qid q);
    id_pushed : forall ch, In ch (k_queue (st_core s)) -> exists t, In (MPush ch) (w_moves w t);
    id_files : forall n, In n (k_files (st_core s)) -> exists t, In (MFile n) (w_moves w t);
    id_chk : no_checkpoints g w -> k_chkpt (st_core s) = false;
    id_setups : map fst (setups (st_hist s)) = seq 1 (length (setups (st_hist s)));
    id_starts : exists l, setups (st_hist s) = starts (st_hist s) ++ l;
    id_len : length (setups (st_hist s)) <= k_o (st_core s) <= S (length (starts (st_hist s))) }.

  Lemma id_ok_mono c c' i : k_o c <= k_o c' -> id_ok c i -> id_ok c' i.
  Proof. unfold id_ok. lia. Qed.

  Lemma IdInv_step l s s' : mstep l s s' -> IdInv s -> IdInv s'.
  Proof.
    intros Hst HI. pose proof HI as [Hnd Hp Hgn Hg Hv Hvn Hvg Hq Hpu Hfi Hck Hse [ls Hss] Hl].
    destruct Hst; talks; try (split; cbn; eauto; fail).
    - pose proof (apply_moves_rel ms (st_core s)) as [k1 ch1 d1 s1 q1 fl1 p1 e1 e2 e3 e4 e5 e6 e7 e8 e9 e10 e11 e12 e13 e14 e15].
      split; cbn; rewrite ?k1, ?e1, ?e2; auto; unfold id_ok in *; cbn; rewrite ?e4; eauto.
      + intros ch q Hin. destruct (q1 _ Hin) as [Ho|[_ Ho]]; [eauto|]. intro Hqi. apply Ho. exact Hqi.
      + intros ch Hin. destruct (q1 _ Hin) as [Ho|[Ho _]]; eauto.
      + intros n Hn. destruct (fl1 n Hn); eauto.
      + intro Hn. destruct (k_chkpt (apply_moves ms (st_core s))) eqn:E; [|reflexivity]. destruct (p1 eq_refl) as [Hc|Hc].
        * specialize (Hck Hn). congruence.
        * destruct (H _ Hc) as [t Ht]. exfalso. exact (proj2 Hn t Ht).
    - destruct H. split; cbn; unfold id_ok in *; rewrite ?mi_packs0, ?mi_grave0, ?mi_victims0, ?mi_o0; eauto.
      intro Hn. specialize (Hck Hn). destruct (k_chkpt (f (st_core s))); [|reflexivity]. exfalso. specialize (mi_chkpt0 eq_refl). congruence.
    - destruct H as [<-|[<-|[]]]; split; cbn; eauto.
    - split; cbn; eauto.
      + rewrite dkeys_nset. assert (In i (dkeys (k_packs (st_core s)))) as Hi by (apply nget_some_in; eauto).
        apply nmem_in in Hi. rewrite Hi. exact Hnd.
      + intros j Hj. apply Hp. rewrite dkeys_nset in Hj. assert (In i (dkeys (k_packs (st_core s)))) as Hi by (apply nget_some_in; eauto).
        apply nmem_in in Hi. rewrite Hi in Hj. exact Hj.
    - split; cbn; eauto; [apply NoDup_ndel; exact Hnd| intros j Hj; apply Hp; eapply in_dkeys_ndel; exact Hj].
    - split; cbn; eauto; [apply NoDup_nadd; exact Hgn| |].
      + intros j Hj. apply in_nadd in Hj as [->|Hj]; [apply Hp; assumption| apply Hg; exact Hj].
      + intros j Hj. apply in_nadd. right. eauto.
    - split; cbn; eauto; [apply NoDup_nadd; exact Hgn| |].
      + intros j Hj. apply in_nadd in Hj as [->|Hj]; [apply Hp; assumption| apply Hg; exact Hj].
      + intros j Hj. apply in_nadd. right. eauto.
    - split; cbn; eauto; [apply NoDup_nadd; exact Hgn| |].
      + intros j Hj. apply in_nadd in Hj as [->|Hj]; [apply Hp; assumption| apply Hg; exact Hj].
      + intros j Hj. apply in_nadd. right. eauto.
    - assert (~ In i (kills (st_hist s))) as Hni by (intro; auto).
      split; cbn; eauto.
      + apply NoDup_nadd; exact Hgn.
      + intros j Hj. apply in_nadd in Hj as [->|Hj]; [apply Hp; assumption| apply Hg; exact Hj].
      + unfold nadd. rewrite Hv. apply nmem_false in Hni. rewrite Hni. reflexivity.
      + apply NoDup_snoc; assumption.
      + intros j Hj. apply in_nadd. apply in_app_iff in Hj as [Hj|[->|[]]]; auto.
    - destruct H as [H1 [H2 H3]]. split; cbn; unfold id_ok in *; cbn; eauto; try lia.
      + intros i Hi. specialize (Hp i Hi). lia.
      + intros i Hi. specialize (Hg i Hi). lia.
      + intros ch q Hc Hqq. specialize (Hq _ _ Hc Hqq). lia.
    - split; cbn; eauto.
      + rewrite map_app, app_length, seq_app, Hse. cbn. f_equal. f_equal. lia.
      + exists (ls ++ [(i, cls)]). rewrite Hss, app_assoc. reflexivity.
      + rewrite app_length. cbn. lia.
    - split; cbn; eauto.
      + apply NoDup_nset. exact Hnd.
      + intros j Hj. rewrite dkeys_nset in Hj. destruct (nmem i _); [apply Hp; exact Hj|]. apply in_app_iff in Hj as [Hj|[<-|[]]]; [apply Hp; exact Hj|].
        unfold id_ok. cbn. lia.
    - split; cbn; eauto.
      + apply NoDup_nset. exact Hnd.
      + intros j Hj. rewrite dkeys_nset in Hj. destruct (nmem i _); [apply Hp; exact Hj|]. apply in_app_iff in Hj as [Hj|[<-|[]]]; [apply Hp; exact Hj|].
        unfold id_ok. cbn. lia.
      + destruct H4 as [l Hl']. exists []. rewrite app_nil_r. rewrite Hl' in *. rewrite app_length in H0. cbn in H0.
        assert (Hlen : length l = length (starts (st_hist s))) by lia.
        assert (length ls = 1) by (apply (f_equal (@length _)) in Hss; rewrite !app_length in Hss; cbn in Hss; lia).
        destruct ls as [|x [|? ?]]; try discriminate. apply app_inj_tail in Hss as [-> ->]. reflexivity.
      + rewrite app_length. cbn. lia.
    - split; cbn; eauto.
      + rewrite (dkeys_nset_old _ _ _ _ H). exact Hnd.
      + intros j Hj. rewrite (dkeys_nset_old _ _ _ _ H) in Hj. apply Hp. exact Hj.
  Qed.

  (** ** Invariant: the log and the counters agree with the history *)
  Record LogInv (s : mstate) : Prop := mkLI {
    lv_f : k_f (st_core s) = length (accepted (st_hist s));
    lv_log : Inv (rev (setups (st_hist s))) (accepted (st_hist s)) (k_log (st_core s));
    lv_store : forall i, In i (dkeys (l_store (k_log (st_core s)))) -> id_ok (st_core s) i }.

  Lemma in_setups s i : IdInv s -> In i (map fst (rev (setups (st_hist s)))) <-> 1 <= i <= length (setups (st_hist s)).
  Proof.
    intro HI. rewrite map_rev, <- in_rev, (id_setups _ HI), in_seq. lia.
  Qed.

  Lemma plain_log_core c o s : plain_log_op c o -> same_core s (snd (lstep o s)).
  Proof.
    destruct o as [j ty t|j hd|r|[j|]|j k v|j m]; cbn [plain_log_op lstep]; try tauto; intros _;
      auto using core_add_hist, core_clear, core_meta, core_msg.
  Qed.

  Lemma LogInv_step l s s' : mstep l s s' -> IdInv s -> LogInv s -> LogInv s'.
  Proof.
    intros Hst HI [Hf HL Hs].
    destruct Hst; talks; try (split; cbn; auto; fail).
    - pose proof (apply_moves_rel ms (st_core s)) as [k1 ch1 d1 s1 q1 fl1 p1 e1 e2 e3 e4 e5 e6 e7 e8 e9 e10 e11 e12 e13 e14 e15].
      split; cbn; unfold id_ok in *; cbn; rewrite ?e3, ?e12, ?e4; auto.
    - destruct H. split; cbn; unfold id_ok in *; rewrite ?mi_f0, ?mi_log0, ?mi_o0; auto.
    - destruct H as [<-|[<-|[]]]; split; cbn; auto.
    - split; cbn; auto.
      + eapply Inv_core; [eapply plain_log_core; exact H| exact HL].
      + intros i Hi. apply lstep_store_keys in Hi as [Hi|[ty [t ->]]]; [apply Hs; exact Hi| cbn in H; tauto].
    - split; cbn; auto.
      + eapply Inv_core; [apply core_clear| exact HL].
      + intros i Hi. apply (lstep_store_keys (ClearCache None)) in Hi as [Hi|[ty [t [=]]]]. apply Hs; exact Hi.
    - destruct H as [H1 [H2 H3]]. split; cbn; auto. intros i Hi. specialize (Hs i Hi). unfold id_ok in *. cbn. lia.
    - split; cbn; auto.
      + rewrite rev_app_distr. cbn. apply Inv_add; [exact HL| lia|]. rewrite (in_setups _ _ HI). lia.
      + intros j Hj. apply (lstep_store_keys (AddOpt i cls "now")) in Hj as [Hj|[ty [t [= <- _ _]]]]; [apply Hs; exact Hj|].
        unfold id_ok. cbn. lia.
    - destruct H as [S1 [S2 S3]]. split; cbn.
      + rewrite app_length. cbn. lia.
      + apply Inv_put; [exact HL| |].
        * rewrite (in_setups _ _ HI). unfold id_ok in H1. lia.
        * rewrite map_rev. apply NoDup_rev. rewrite (id_setups _ HI). apply seq_NoDup.
      + intros i Hi. apply (lstep_store_keys (PutIter r)) in Hi as [Hi|[ty [t [=]]]]. apply Hs; exact Hi.
  Qed.

  (** ** Invariant: the result *)
  Lemma result_weak cl acc r : result_best cl acc r -> weak_best cl acc r.
  Proof. destruct acc; [exact (fun H => H)|]. intros (o & x & fx & ty & call & rest & H). exists o, x, fx, ty, call, rest. intuition. Qed.

  Lemma weak_classes cl cl' acc r : (forall p, In p cl -> In p cl') -> weak_best cl acc r -> weak_best cl' acc r.
  Proof.
    intro Hc. destruct acc; [exact (fun H => H)|]. intros (o & x & fx & ty & call & rest & H).
    exists o, x, fx, ty, call, rest. intuition.
  Qed.

  Lemma exact_best s : LogInv s -> exact (st_core s) -> result_best (setups (st_hist s)) (accepted (st_hist s)) (k_result (st_core s)).
  Proof.
    intros [Hf HL _] [[H0 Hr]|(b & a1 & a2 & a3 & Hb & Hpos & Hr)].
    - rewrite Hf in H0. apply length_zero_iff_nil in H0. rewrite H0. exact Hr.
    - destruct (Inv_best _ _ _ HL) as [b' [Hb' [Hfb [Hz Hn]]]]. rewrite Hb in Hb'. injection Hb' as <-.
      rewrite Hf in Hpos, Hr. unfold result_best. destruct (accepted (st_hist s)) as [|r0 acc] eqn:E; [cbn in Hpos; lia|].
      rewrite <- E in *. exists (b_opt b), (b_x b), (b_fx b), (b_type b), (b_call b), (a1, a2, a3).
      rewrite Hr. cbn. splits; auto.
      + intro Hc. rewrite (Hz Hc). reflexivity.
      + intro Hc. apply in_rev. auto.
  Qed.

  Definition ResInv (s : mstate) : Prop :=
    exists acc, (acc = accepted (st_hist s) \/ exists r, acc ++ [r] = accepted (st_hist s)) /\
                weak_best (setups (st_hist s)) acc (k_result (st_core s)).

  Lemma best_result_of s b : LogInv s -> 0 < k_f (st_core s) -> get_best_iter None (k_log (st_core s)) = Ok b ->
    result_best (setups (st_hist s)) (accepted (st_hist s)) (result_of b (st_core s)).
  Proof.
    intros HL H0 Hb.
    assert (HL' : LogInv (upd (fun c => set_kresult (result_of b c) c) s)) by (destruct HL; split; auto).
    apply (exact_best _ HL'). right. exists b, (k_o (st_core s)), (length (k_victims (st_core s))), (k_conv (st_core s)). cbn. auto.
  Qed.

  Lemma ResInv_step l s s' : mstep l s s' -> LogInv s -> ResInv s -> ResInv s'.
  Proof.
    intros Hst HL [acc [Ha Hw]]. unfold ResInv.
    destruct Hst; talks; cbn; try (exists acc; auto; fail).
    - pose proof (apply_moves_rel ms (st_core s)) as [k1 ch1 d1 s1 q1 fl1 p1 e1 e2 e3 e4 e5 e6 e7 e8 e9 e10 e11 e12 e13 e14 e15].
      exists acc. rewrite e11. auto.
    - destruct H. exists acc. rewrite mi_result0. auto.
    - exists acc. destruct H as [<-|[<-|[]]]; cbn; auto.
    - exists acc. split; [exact Ha|]. eapply weak_classes; [|exact Hw]. intros p Hp. apply in_app_iff. auto.
    - exists (accepted (st_hist s)). split; [right; eauto|]. apply result_weak, exact_best; [exact HL| apply H].
    - exists (accepted (st_hist s)). split; [auto|]. apply result_weak, best_result_of; assumption.
    - exists acc. split; [exact Ha|]. destruct acc as [|r0 acc]; cbn in *; [rewrite Hw; reflexivity|].
      destruct Hw as (o & x & fx & ty & call & rest & H1 & H2 & H3 & H4 & H5).
      exists o, x, fx, ty, call, rest. splits; auto; try tauto.
      destruct H4 as [->|[-> ->]]; [destruct x; auto|auto].
  Qed.

  Lemma weak_value cl acc r : weak_best cl acc r -> nnan (value r) = false.
  Proof.
    destruct acc; cbn; [intros ->; reflexivity|]. intros (o & x & fx & ty & call & rest & H1 & _ & _ & _ & H5 & _).
    unfold value. rewrite H5. eapply first_best_not_nan; exact H1.
  Qed.

  Lemma weak_value_le cl cl' acc acc2 r r' : weak_best cl acc r -> weak_best cl' (acc ++ acc2) r' -> nle (value r') (value r) = true.
  Proof.
    intros H1 H2. pose proof (weak_value _ _ _ H2) as N2. destruct acc as [|r0 acc].
    - cbn in H1. rewrite H1. cbn. destruct (value r'); try discriminate; reflexivity.
    - destruct H1 as (o & x & fx & ty & call & rest & F1 & _ & _ & _ & E1 & _).
      destruct H2 as (o' & x' & fx' & ty' & call' & rest' & F2 & _ & _ & _ & E2 & _).
      unfold value. rewrite E1, E2. eapply (first_best_prefix (r0 :: acc) acc2); eassumption.
  Qed.

  Lemma value_step l s s' : mstep l s s' -> LogInv s -> ResInv s -> nle (value (k_result (st_core s'))) (value (k_result (st_core s))) = true.
  Proof.
    intros Hst HL HR. pose proof HR as [acc [Ha Hw]].
    assert (N : nnan (value (k_result (st_core s))) = false) by (eapply weak_value; exact Hw).
    destruct Hst; talks; cbn; try (apply nle_refl; exact N).
    - pose proof (apply_moves_rel ms (st_core s)) as [k1 ch1 d1 s1 q1 fl1 p1 e1 e2 e3 e4 e5 e6 e7 e8 e9 e10 e11 e12 e13 e14 e15].
      rewrite e11. apply nle_refl; exact N.
    - destruct H. rewrite mi_result0. apply nle_refl; exact N.
    - pose proof (result_weak _ _ _ (best_result_of _ _ HL H H0)) as Hn.
      change (b_fx b) with (value (result_of b (st_core s))).
      destruct Ha as [->|[r Ha]].
      + rewrite <- (app_nil_r (accepted (st_hist s))) in Hn. eapply (weak_value_le _ _ _ []); eassumption.
      + rewrite <- Ha in Hn. eapply weak_value_le; eassumption.
  Qed.

  (** ** Invariant: everything recorded in the history *)
  Fixpoint snaps (P : core -> event -> hist -> Prop) (h : hist) : Prop :=
    match h with [] => True | (c, e) :: h' => P c e h' /\ snaps P h' end.

  (** The same for the current session only. *)
  Fixpoint snaps_now (P : core -> event -> hist -> Prop) (h : hist) : Prop :=
    match h with [] => True | (_, EvLoad) :: _ => True | (c, e) :: h' => P c e h' /\ snaps_now P h' end.

  Lemma snaps_now_cons (P : core -> event -> hist -> Prop) c e h : P c e h -> snaps_now P h -> snaps_now P ((c, e) :: h).
  Proof. intros H1 H2. destruct e; cbn; auto. Qed.

  Lemma snaps_now_split P h1 c e h2 : e <> EvLoad -> ~ In EvLoad (map snd h1) -> snaps_now P (h1 ++ (c, e) :: h2) -> P c e h2.
  Proof.
    intros He. induction h1 as [|[c' e'] h1 IH]; cbn; intro Hn.
    - destruct e; try tauto.
    - destruct e'; try (intros [_ H]; apply IH; [tauto| exact H]). tauto.
  Qed.

  Lemma snaps_split P h1 c e h2 : snaps P (h1 ++ (c, e) :: h2) -> P c e h2.
  Proof. induction h1 as [|[c' e'] h1 IH]; cbn; tauto. Qed.

  Definition snap_ok (c : core) (e : event) (h : hist) : Prop :=
    k_f c = length (accepted h) /\ k_victims c = kills h /\ log_len (k_log c) = k_f c /\
    (decision e = true -> result_best (setups h) (accepted h) (k_result c) /\
                          length (setups h) = k_o c /\ length (starts h) = k_o c) /\
    match e with
    | EvStart i _ slots => ~ In EvStopSpawn (map snd h) /\ S (length (starts h)) = i /\
                           (obeys w -> living_slots c + slots <= g_max_jobs g)
    | EvAccept r => ~ In (ir_opt r) (kills h) /\ id_ok c (ir_opt r)
    | EvKill hn i => In i (dkeys (k_packs c)) /\ ~ In i (k_grave c) /\ ~ In i (kills h) /\
                     forall b, hn = Some b -> has_iter_history i (k_log c) = true /\ i <> b /\
                                              exists ty, r_origin (k_result c) = Some (b, ty)
    | EvHunt => g_hunt_freq g <= length (accepted h) - at_last_hunt h /\ g_killing g = true /\
                exists b ty, 0 < b /\ r_origin (k_result c) = Some (b, ty)
    | EvIter => last_judgement h <> Some true
    | EvJudge a d => last_judgement h <> Some true /\ (exists t, w_check w t c = Ok a) /\
                     if d then forall i h, nget i (k_packs c) = Some h -> c_alive h = false else k_packs c <> []
    | EvSaveManager => exact c /\ log_written h
    | EvSend i _ => In i (dkeys (k_packs c))
    | _ => True
    end.

  Record AuxInv (s : mstate) : Prop := mkAux {
    ax_hunt : k_last_hunt (st_core s) = at_last_hunt (st_hist s);
    ax_spawn : In EvStopSpawn (map snd (st_hist s)) -> k_spawn (st_core s) = false;
    ax_judge : forall b, last_judgement (st_hist s) = Some b -> k_converged (st_core s) = b;
    ax_conv : no_checkpoints g w -> ~ In EvLoad (map snd (st_hist s)) -> k_conv (st_core s) + length (k_victims (st_core s)) <= length (k_grave (st_core s));
    ax_slots : obeys w -> living_slots (st_core s) <= g_max_jobs g }.

  Lemma living_nset i h c :
    living_slots (set_kpacks (nset i h (k_packs c)) c) <= living_slots c + (if c_alive h then c_slots h else 0).
  Proof.
    unfold living_slots. cbn. induction (k_packs c) as [|[j x] d IH]; cbn; [lia|].
    destruct (Nat.eqb i j); cbn; [destruct (c_alive x); lia|]. lia.
  Qed.

  Lemma living_nset_old i h0 h c : nget i (k_packs c) = Some h0 -> c_alive h = c_alive h0 -> c_slots h = c_slots h0 ->
    living_slots (set_kpacks (nset i h (k_packs c)) c) = living_slots c.
  Proof.
    unfold living_slots. cbn. intros Hg Ha Hs. induction (k_packs c) as [|[j x] d IH]; cbn in *; [discriminate|].
    destruct (Nat.eqb i j); cbn; [injection Hg as ->; rewrite Ha, Hs; lia|]. rewrite IH; auto.
  Qed.

  Lemma living_ndel i c : living_slots (set_kpacks (ndel i (k_packs c)) c) <= living_slots c.
  Proof.
    unfold living_slots. cbn. induction (k_packs c) as [|[j x] d IH]; cbn; [lia|].
    destruct (Nat.eqb i j); cbn; lia.
  Qed.

  Lemma length_nadd_le i l : length l <= length (nadd i l).
  Proof. unfold nadd. destruct (nmem i l); [lia|]. rewrite app_length. lia. Qed.

  Lemma AuxInv_step l s s' : mstep l s s' -> IdInv s -> LogInv s -> AuxInv s -> AuxInv s'.
  Proof.
    intros Hst HI HL [Hh Hs Hj Hc Hls].
    destruct Hst; talks; try (split; cbn; auto; fail).
    - pose proof (apply_moves_rel ms (st_core s)) as [k1 ch1 d1 s1 q1 fl1 p1 e1 e2 e3 e4 e5 e6 e7 e8 e9 e10 e11 e12 e13 e14 e15].
      split; cbn; rewrite ?e7, ?e8, ?e14, ?e5, ?e2, ?e1; auto.
      intro Ho. specialize (Hls Ho). change (living_slots (apply_moves ms (st_core s)) <= g_max_jobs g). lia.
    - destruct H. split; cbn; unfold living_slots; rewrite ?mi_last_hunt0, ?mi_spawn0, ?mi_converged0, ?mi_conv0, ?mi_victims0, ?mi_grave0, ?mi_packs0; auto.
    - split; cbn; auto. rewrite H. discriminate.
    - split; cbn; auto. intros [?|?]; [discriminate|auto].
    - split; cbn; auto. intros [?|?]; [discriminate|auto].
    - destruct H as [<-|[<-|[]]]; split; cbn; auto; (intros [?|?]; [discriminate|auto]).
    - split; cbn; auto. intros [?|?]; [discriminate|auto].
    - split; cbn; auto. intros [?|?]; [discriminate|auto].
    - split; cbn; auto; [intros [?|?]; [discriminate|auto]|]. intros b [= <-]. reflexivity.
    - split; cbn; auto. intro Ho. specialize (Hls Ho). pose proof (living_nset_old _ _ _ _ H H1 H0) as Hle. unfold living_slots in *. cbn in *. lia.
    - split; cbn; auto. intro Ho. pose proof (living_ndel i (st_core s)) as Hle. specialize (Hls Ho). unfold living_slots in *. cbn in *. lia.
    - split; cbn; auto. intros Hn Hld. assert (Hld' : ~ In EvLoad (map snd (st_hist s))) by (cbn in Hld; tauto). specialize (Hc Hn Hld'). rewrite length_nadd by assumption. lia.
    - split; cbn; auto. intros Hn Hld. contradiction.
    - split; cbn; auto. intros Hn Hld. assert (Hld' : ~ In EvLoad (map snd (st_hist s))) by (cbn in Hld; tauto). specialize (Hc Hn Hld'). pose proof (length_nadd_le i (k_grave (st_core s))). lia.
    - split; cbn; auto; [intros [?|?]; [discriminate|auto]|].
      intros Hn Hld. assert (Hld' : ~ In EvLoad (map snd (st_hist s))) by (cbn in Hld; tauto). specialize (Hc Hn Hld'). rewrite (length_nadd i (k_grave (st_core s))) by assumption. rewrite length_nadd; [lia|].
      intro Hv. apply H0. apply (id_vgrave _ HI). rewrite <- (id_vict _ HI). exact Hv.
    - split; cbn; auto; [apply HL|]. intros [?|?]; [discriminate|auto].
    - split; cbn; auto. intros [?|?]; [discriminate|auto].
    - split; cbn; auto. intro Ho. pose proof (living_nset i (mkCh slots false 0 [] false true) (st_core s)) as Hle. specialize (Hls Ho).
      unfold living_slots in *. cbn in *. lia.
    - split; cbn; auto; [intros [?|?]; [discriminate|auto]|].
      intro Ho. pose proof (living_nset i (mkCh slots true 0 [] false true) (st_core s)) as Hle. specialize (H5 Ho).
      unfold living_slots in *. cbn in *. lia.
    - split; cbn; auto. intros [?|?]; [discriminate|auto].
    - split; cbn; auto. intros [?|?]; [discriminate|auto].
    - split; cbn; auto. intro Ho. pose proof (living_nset i (mkCh (c_slots h) true 0 [] false true) (st_core s)) as Hle. specialize (H0 Ho).
      unfold living_slots in *. cbn in *. lia.
  Qed.

  Lemma SnapInv_step l s s' : mstep l s s' -> IdInv s -> LogInv s -> AuxInv s ->
    snaps_now snap_ok (st_hist s) -> snaps_now snap_ok (st_hist s').
  Proof.
    intros Hst HI HL [Hh Hs Hj Hc Hls] HS.
    assert (Hbase : k_f (st_core s) = length (accepted (st_hist s)) /\ k_victims (st_core s) = kills (st_hist s) /\
                    log_len (k_log (st_core s)) = k_f (st_core s)).
    { splits; [apply HL| apply HI|]. unfold log_len. rewrite (I_count _ _ _ (lv_log _ HL)), (lv_f _ HL). reflexivity. }
    destruct Hbase as [B1 [B2 B3]].
    assert (Hset : settled s -> result_best (setups (st_hist s)) (accepted (st_hist s)) (k_result (st_core s)) /\
                    length (setups (st_hist s)) = k_o (st_core s) /\ length (starts (st_hist s)) = k_o (st_core s)).
    { intros [H1 [H2 H3]]. splits; auto. apply exact_best; assumption. }
    destruct Hst; talks; cbn [noted upd st_hist]; try exact HS; apply snaps_now_cons; try exact HS; unfold snap_ok; splits; auto; try discriminate.
    - destruct H as [<-|[<-|[]]]; exact I.
    - apply H.
    - intro Hjj. specialize (Hj _ Hjj). congruence.
    - intro Hd. cbn in Hd. destruct hn as [b|]; [|discriminate]. destruct (H1 b eq_refl) as [Hse _]. auto.
    - intro Hk. apply H0. apply (id_vgrave _ HI). exact Hk.
    - intros b Hb. destruct (H1 b Hb) as [_ Hr]. exact Hr.
    - rewrite <- Hh, <- B1. exact H3.
    - eauto.
    - intro Hin. specialize (Hs Hin). congruence.
    - rewrite <- B2. exact H0.
  Qed.

  (** The value of the result only ever decreases. *)
  Definition MonoInv (s : mstate) : Prop :=
    (forall c e, In (c, e) (st_hist s) -> nle (value (k_result (st_core s))) (value (k_result c)) = true) /\
    snaps (fun c _ h => forall c' e', In (c', e') h -> nle (value (k_result c)) (value (k_result c')) = true) (st_hist s).

  Lemma MonoInv_step l s s' : mstep l s s' -> LogInv s -> ResInv s -> MonoInv s -> MonoInv s'.
  Proof.
    intros Hst HL HR [H1 H2]. pose proof (value_step _ _ _ Hst HL HR) as Hv.
    assert (N : nle (value (k_result (st_core s))) (value (k_result (st_core s))) = true)
      by (apply nle_refl; destruct HR as [acc [_ Hw]]; eapply weak_value; exact Hw).
    assert (Hhist : st_hist s' = st_hist s \/ exists e, st_hist s' = (st_core s, e) :: st_hist s)
      by (destruct Hst; talks; cbn; eauto).
    unfold MonoInv. destruct Hhist as [E|[e E]]; rewrite E.
    - split; [|exact H2]. intros c e Hin. eapply nle_trans; [exact Hv| eapply H1; exact Hin].
    - split.
      + intros c e' [[= <- _]|Hin]; [exact Hv|]. eapply nle_trans; [exact Hv| eapply H1; exact Hin].
      + cbn. split; [exact H1| exact H2].
  Qed.

  (** ** Invariant: entries of the log *)
  Record KeepInv (s : mstate) : Prop := mkKeep {
    kp_keys : forall i, In i (dkeys (k_packs (st_core s))) -> 1 <= i <= length (setups (st_hist s));
    kp_store : l_traj (k_log (st_core s)) = true -> forall i, 1 <= i <= length (setups (st_hist s)) ->
               In i (dkeys (l_store (k_log (st_core s)))) }.

  Lemma lstep_traj o s : l_traj (snd (lstep o s)) = l_traj s.
  Proof.
    destruct o as [j ty t|j hd|r|cl|j k v|j m]; cbn [lstep].
    - reflexivity.
    - unfold add_iter_history. destruct (nget j _); reflexivity.
    - apply put_iteration_traj.
    - unfold clear_cache. destruct (l_traj s) eqn:E; [exact E|]. destruct cl as [[|j]|]; cbn; auto. destruct (nmemd _ _); auto.
    - unfold put_metadata. destruct (nget j _); reflexivity.
    - unfold put_message. destruct (nget j _); reflexivity.
  Qed.

  Lemma lstep_keeps o s i : l_traj s = true -> In i (dkeys (l_store s)) -> In i (dkeys (l_store (snd (lstep o s)))).
  Proof.
    intros Ht Hi. destruct o as [j ty t|j hd|r|cl|j k v|j m]; cbn [lstep].
    - cbn. rewrite dkeys_nset. destruct (nmem j _); [exact Hi|]. apply in_app_iff. auto.
    - unfold add_iter_history. destruct (nget j (l_store s)) eqn:E; cbn; [|exact Hi]. rewrite (dkeys_nset_old _ _ _ _ E). exact Hi.
    - destruct (put_iteration_store r s) as [E|[e [e' [E1 E2]]]]; rewrite ?E, ?E2; [exact Hi|].
      rewrite (dkeys_nset_old _ _ _ _ E1). exact Hi.
    - unfold clear_cache. rewrite Ht. exact Hi.
    - unfold put_metadata. destruct (nget j (l_store s)) eqn:E; cbn; [|exact Hi]. rewrite (dkeys_nset_old _ _ _ _ E). exact Hi.
    - unfold put_message. destruct (nget j (l_store s)) eqn:E; cbn; [|exact Hi]. rewrite (dkeys_nset_old _ _ _ _ E). exact Hi.
  Qed.

  Lemma KeepInv_step l s s' : mstep l s s' -> KeepInv s -> KeepInv s'.
  Proof.
    intros Hst [Hk Hs]. destruct Hst; talks; try (split; cbn; auto; fail).
    - destruct (apply_moves_rel ms (st_core s)). split; cbn; rewrite ?er_keys0, ?er_log0; auto.
    - destruct H. split; cbn; rewrite ?mi_packs0, ?mi_log0; auto.
    - destruct H as [<-|[<-|[]]]; split; cbn; auto.
    - split; cbn; auto. rewrite (dkeys_nset_old _ _ _ _ H). auto.
    - split; cbn; auto. intros j Hj. apply Hk. eapply in_dkeys_ndel; exact Hj.
    - split; cbn; auto. rewrite lstep_traj. intros Ht i Hi. apply lstep_keeps; auto.
    - split; cbn; auto. intros Ht i Hi. assert (Ht' : l_traj (k_log (st_core s)) = true).
      { change log_close with (lstep (ClearCache None)) in Ht. rewrite lstep_traj in Ht. exact Ht. }
      apply (lstep_keeps (ClearCache None)); auto.
    - split; cbn; rewrite ?app_length; cbn.
      + intros j Hj. apply Hk in Hj. lia.
      + intros Ht j Hj. rewrite dkeys_nset. destruct (Nat.eq_dec j i) as [->|Hn].
        * destruct (nmem i _) eqn:E; [apply nmem_in; exact E|]. apply in_app_iff. right. left. reflexivity.
        * assert (Hin : In j (dkeys (l_store (k_log (st_core s))))) by (apply Hs; [exact Ht| lia]).
          destruct (nmem i _); [exact Hin|]. apply in_app_iff. auto.
    - split; cbn; auto. intros j Hj. rewrite dkeys_nset in Hj. destruct (nmem i _); [auto|].
      apply in_app_iff in Hj as [Hj|[<-|[]]]; [auto|]. lia.
    - split; cbn; auto. intros j Hj. rewrite dkeys_nset in Hj. destruct (nmem i _); [auto|].
      apply in_app_iff in Hj as [Hj|[<-|[]]]; [auto|]. lia.
    - split; cbn; auto. intros Ht i Hi. rewrite put_iteration_traj in Ht.
      apply (lstep_keeps (PutIter r)); auto.
    - split; cbn; auto. rewrite (dkeys_nset_old _ _ _ _ H). auto.
  Qed.

  (** All of it. *)
  Record MInv (s : mstate) : Prop := mkMI {
    m_id : IdInv s; m_log : LogInv s; m_res : ResInv s; m_aux : AuxInv s;
    m_snap : snaps_now snap_ok (st_hist s); m_mono : MonoInv s; m_keep : KeepInv s }.

  Lemma MInv_step l s s' : mstep l s s' -> MInv s -> MInv s'.
  Proof.
    intros Hst []. split; [eapply IdInv_step| eapply LogInv_step| eapply ResInv_step| eapply AuxInv_step| eapply SnapInv_step| eapply MonoInv_step| eapply KeepInv_step]; eauto.
  Qed.

  Lemma MInv_fresh traj : MInv (fresh traj).
  Proof.
    split; cbn.
    - split; cbn; try apply NoDup_nil; try (intros ? []; fail); auto; try tauto; [exists []; reflexivity].
    - split; cbn; [reflexivity| apply Inv_init| intros ? []].
    - exists []. split; [left; reflexivity| reflexivity].
    - split; cbn; auto; try tauto; try discriminate. unfold living_slots. cbn. lia.
    - exact I.
    - split; cbn; tauto.
    - split; cbn; [intros ? []| lia].
  Qed.
End Steps.
