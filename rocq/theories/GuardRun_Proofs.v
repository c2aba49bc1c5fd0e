(** * The guard of Guard_Model inside the runs of Manager_Model *)
From Verif Require Import Prelude Prelude_Proofs Guard_Model Guard_Spec Guard_Proofs Manager_Model Manager_Spec Manager_Proofs Manager_Trace.
From Coq Require Import Lia.
Open Scope nat_scope.

Definition gof (c : core) : guard := mkG (k_f c) (k_o c) (k_last_spawn c) (k_crashed c).
(** Messages are read and evaluations accepted, no optimizers started. *)
Definition calm (g g' : guard) : Prop :=
  g_f g <= g_f g' /\ g_o g' = g_o g /\ g_last g' = g_last g /\ (g_crashed g = true -> g_crashed g' = true).
Lemma calm_refl g : calm g g.
Proof. unfold calm. auto. Qed.
Lemma calm_trans a b c : calm a b -> calm b c -> calm a c.
Proof. intros (A1 & A2 & A3 & A4) (B1 & B2 & B3 & B4). unfold calm. splits; [lia|congruence|congruence|auto]. Qed.
Lemma calm_eq g g' : g' = g -> calm g g'.
Proof. intros ->. apply calm_refl. Qed.

(** The attributes at the beginning of each iteration, newest first. *)
Definition iters (h : list (core * event)) : list core :=
  map fst (filter (fun p => match snd p with EvIter => true | _ => false end) h).

Definition SIM {A} (m : M mstate A) : Prop :=
  forall s, calm (gof (st_core s)) (gof (st_core (snd (m s)))) /\ iters (st_hist (snd (m s))) = iters (st_hist s).

Lemma SIM_ret {A} (a : A) : SIM (ret a).
Proof. intros s. split; [apply calm_refl|reflexivity]. Qed.
Lemma SIM_raise {A} e : SIM (@raise mstate A e).
Proof. intros s. split; [apply calm_refl|reflexivity]. Qed.
Lemma SIM_lift {A} (r : res A) : SIM (lift r).
Proof. intros s. split; [apply calm_refl|reflexivity]. Qed.
Lemma SIM_bind {A B} (m : M mstate A) (f : A -> M mstate B) : SIM m -> (forall a, SIM (f a)) -> SIM (bind m f).
Proof.
  intros Hm Hf s. unfold bind. specialize (Hm s). destruct (m s) as [[a|e] s']; [|exact Hm].
  destruct (Hf a s') as [H1 H2], Hm as [H3 H4]. cbn [snd] in *. split; [eapply calm_trans; eassumption|congruence].
Qed.
Lemma SIM_getc {A} (f : core -> A) : SIM (getc f).
Proof. intros s. split; [apply calm_refl|reflexivity]. Qed.
Lemma SIM_modc f : (forall c, calm (gof c) (gof (f c))) -> SIM (modc f).
Proof. intros H s. split; [apply H|reflexivity]. Qed.
Lemma SIM_act e f : e <> EvIter -> (forall c, calm (gof c) (gof (f c))) -> SIM (act e f).
Proof. intros N H s. split; [apply H|]. cbn. destruct e; try reflexivity. now contradict N. Qed.
Lemma SIM_logm {A} (m : M logger A) : SIM (logm m).
Proof. intros s. unfold logm. destruct (m _) as [r l]. split; [apply calm_refl|reflexivity]. Qed.
Lemma SIM_for_each {A} (l : list A) f : (forall a, SIM (f a)) -> SIM (for_each l f).
Proof. intros H. induction l as [|a l IH]; cbn; [apply SIM_ret|]. apply SIM_bind; [apply H|auto]. Qed.
Lemma SIM_try {A} (m : M mstate A) f h : SIM m -> (forall e, SIM (h e)) -> SIM (try_except m f h).
Proof.
  intros Hm Hh s. unfold try_except. specialize (Hm s). destruct (m s) as [[a|e] s']; [exact Hm|]. cbn [snd] in Hm.
  destruct (f e); [|exact Hm]. destruct (Hh e s') as [H1 H2], Hm as [H3 H4]. split; [eapply calm_trans; eassumption|congruence].
Qed.
Lemma SIM_fun {A} (f : core -> res A) : SIM (fun s => (f (st_core s), s)).
Proof. intros s. split; [apply calm_refl|reflexivity]. Qed.

Create HintDb sim.
Ltac calms := intros; try (match goal with |- context [match ?x with _ => _ end] => destruct x end); apply calm_eq; reflexivity.
Ltac sim := repeat first
  [ apply SIM_ret | apply SIM_raise | apply SIM_lift | apply SIM_getc | apply SIM_logm | apply SIM_fun
  | solve [auto with sim]
  | apply SIM_act; [discriminate|calms] | apply SIM_modc; calms
  | apply SIM_for_each; intros | apply SIM_try; [|intros] | apply SIM_bind; [|intros]
  | match goal with |- SIM (match ?x with _ => _ end) => destruct x end
  | match goal with |- SIM (if ?x then _ else _) => destruct x end
  | match goal with |- SIM (let '_ := ?x in _) => destruct x end ].

Section Run.
  Context (g : config) (w : world) (limit : nat).

  Lemma sim_tick : SIM (tick w limit).
  Proof.
    intros s. unfold tick. destruct (Nat.leb _ _); [split; [apply calm_refl|reflexivity]|].
    assert (H : gof (set_ktick (S (k_tick (st_core s))) (apply_moves (w_moves w (k_tick (st_core s))) (st_core s))) = gof (st_core s)).
    { pose proof (apply_moves_rel (w_moves w (k_tick (st_core s))) (st_core s)) as R. unfold gof. cbn.
      now rewrite (er_f _ _ _ R), (er_o _ _ _ R), (er_last_spawn _ _ _ R), (er_crashed _ _ _ R). }
    destruct (w_intr w _); (split; [apply calm_eq; exact H|reflexivity]).
  Qed.
  Hint Resolve sim_tick : sim.
  Lemma sim_ext : SIM (ext w limit).
  Proof. unfold ext. sim. Qed.
  Hint Resolve sim_ext : sim.
  Lemma sim_alive i : SIM (is_alive w limit i).
  Proof. unfold is_alive. sim. Qed.
  Hint Resolve sim_alive : sim.
  Lemma sim_send i m : SIM (send w limit i m).
  Proof. unfold send, note. sim. Qed.
  Hint Resolve sim_send : sim.
  Lemma sim_living ids : SIM (living w limit ids).
  Proof. induction ids; cbn; sim. Qed.
  Hint Resolve sim_living : sim.
  Lemma sim_signals i : SIM (check_signals w limit i).
  Proof.
    unfold check_signals, in_grave, put_end. sim. apply SIM_modc. intros k. unfold calm. cbn. splits; auto.
    intros ->. apply Bool.orb_true_r.
  Qed.
  Hint Resolve sim_signals : sim.
  Lemma sim_inspect : SIM (inspect_children g w limit).
  Proof. unfold inspect_children, inspect_child, inspect_dead, inspect_hang, inspect_zombie, pack_ids, in_grave, put_end. sim. Qed.
  Hint Resolve sim_inspect : sim.
  Lemma sim_shutdown i h : SIM (shutdown_job g w limit i h).
  Proof. unfold shutdown_job, put_end. sim. Qed.
  Hint Resolve sim_shutdown : sim.
  Lemma sim_hunt_loop h ids : SIM (hunt_loop g w limit h ids).
  Proof. induction ids; cbn [hunt_loop]; unfold in_grave; sim. Qed.
  Hint Resolve sim_hunt_loop : sim.
  Lemma sim_item q : SIM (process_item g w limit q).
  Proof.
    unfold process_item, accept, update_best, share_loop, start_hunt, pack_ids. sim.
    all: first [apply (SIM_fun (fun c => get_best_iter None (k_log c)))
               |apply SIM_act; [discriminate|]; intros k; unfold calm; cbn; splits; auto].
  Qed.
  Hint Resolve sim_item : sim.
  Lemma sim_chunk l : forall acc, SIM (process_chunk g w limit l acc).
  Proof. induction l as [|q l IH]; intros acc; cbn [process_chunk]; sim. Qed.
  Hint Resolve sim_chunk : sim.
  Lemma sim_get : SIM (queue_get w limit).
  Proof. unfold queue_get. sim. Qed.
  Hint Resolve sim_get : sim.
  Lemma sim_loop fuel : forall max acc, SIM (process_loop g w limit fuel max acc).
  Proof. induction fuel as [|fuel IH]; intros max acc; cbn [process_loop]; sim. Qed.
  Hint Resolve sim_loop : sim.
  Lemma sim_results max : SIM (process_results g w limit max).
  Proof. unfold process_results. sim. Qed.
  Hint Resolve sim_results : sim.
  Lemma sim_shutdowns : SIM (manual_shutdowns g w limit).
  Proof. unfold manual_shutdowns, manual_shutdown. sim. Qed.
  Hint Resolve sim_shutdowns : sim.
  Lemma sim_pause ids : SIM (pause_all w limit ids).
  Proof. induction ids; cbn [pause_all]; sim. Qed.
  Hint Resolve sim_pause : sim.
  Lemma sim_sync_one i x : SIM (sync_one w limit i x).
  Proof. unfold sync_one, put_end, note. sim. Qed.
  Hint Resolve sim_sync_one : sim.
  Lemma sim_round ids : forall x, SIM (sync_round w limit ids x).
  Proof. induction ids as [|i ids IH]; intros x; cbn [sync_round]; sim. Qed.
  Hint Resolve sim_round : sim.
  Lemma sim_sync fuel : forall n x, SIM (sync_loop g w limit fuel n x).
  Proof. induction fuel as [|fuel IH]; intros n x; cbn [sync_loop]; sim. Qed.
  Hint Resolve sim_sync : sim.
  Lemma sim_hold_round ids : SIM (hold_round w limit ids).
  Proof. induction ids; cbn [hold_round]; sim. Qed.
  Hint Resolve sim_hold_round : sim.
  Lemma sim_hold fuel : forall ids, SIM (hold_loop w limit fuel ids).
  Proof. induction fuel as [|fuel IH]; intros ids; cbn [hold_loop]; sim. Qed.
  Hint Resolve sim_hold : sim.
  Lemma sim_checkpoint : SIM (checkpoint g w limit).
  Proof. unfold checkpoint, checkpoint_optimizers, confirm_one, save_one, toggle_one, pack_ids, note. sim. Qed.
  Hint Resolve sim_checkpoint : sim.
  Lemma sim_manual : SIM (manual_checkpoints g w limit).
  Proof. unfold manual_checkpoints. sim. Qed.
  Lemma sim_periodic : SIM (periodic_checkpoint g w limit).
  Proof. unfold periodic_checkpoint. sim. Qed.
  Lemma sim_checker : SIM (checker_call w limit).
  Proof. unfold checker_call. sim. Qed.
  Lemma sim_drain fuel : SIM (drain_loop w limit fuel).
  Proof. induction fuel; cbn [drain_loop]; sim. Qed.
  Hint Resolve sim_manual sim_periodic sim_checker sim_drain : sim.
  Lemma sim_stop_all b : SIM (stop_all_children w limit b).
  Proof. unfold stop_all_children, stop_one, put_end, pack_ids. sim. Qed.
  Hint Resolve sim_stop_all : sim.
  Lemma sim_finish r : SIM (finish r).
  Proof. unfold finish. sim. Qed.
  Lemma sim_restart i : SIM (restart_one w limit i).
  Proof. unfold restart_one. sim. Qed.
  Hint Resolve sim_finish sim_restart : sim.

  (** *** Filling *)
  Context (Hw : forall t c n cf, w_sel w t c n = Ok (SOpt cf) -> 1 <= cf_workers cf).
  (** [n] optimizers are set up. *)
  Definition plus (n : nat) (a : guard) : guard := mkG (g_f a) (g_o a + n) (g_last a) (g_crashed a).
  Definition same (s s' : mstate) : Prop := gof (st_core s') = gof (st_core s) /\ iters (st_hist s') = iters (st_hist s).
  Definition KEEP {A} (m : M mstate A) : Prop := forall s, same s (snd (m s)).
  Lemma same_refl s : same s s.
  Proof. now split. Qed.
  Lemma same_trans a b c : same a b -> same b c -> same a c.
  Proof. intros [A1 A2] [B1 B2]. split; congruence. Qed.
  Lemma KEEP_bind {A B} (m : M mstate A) (f : A -> M mstate B) : KEEP m -> (forall a, KEEP (f a)) -> KEEP (bind m f).
  Proof.
    intros Hm Hf s. unfold bind. specialize (Hm s). destruct (m s) as [[a|e] s']; [|exact Hm].
    exact (same_trans _ _ _ Hm (Hf a s')).
  Qed.
  Lemma keep_tick : KEEP (tick w limit).
  Proof.
    intros s. unfold tick. destruct (Nat.leb _ _); [apply same_refl|].
    assert (H : gof (set_ktick (S (k_tick (st_core s))) (apply_moves (w_moves w (k_tick (st_core s))) (st_core s))) = gof (st_core s)).
    { pose proof (apply_moves_rel (w_moves w (k_tick (st_core s))) (st_core s)) as R. unfold gof. cbn.
      now rewrite (er_f _ _ _ R), (er_o _ _ _ R), (er_last_spawn _ _ _ R), (er_crashed _ _ _ R). }
    destruct (w_intr w _); (split; [exact H|reflexivity]).
  Qed.
  Lemma keep_ext : KEEP (ext w limit).
  Proof. unfold ext. apply KEEP_bind; [apply keep_tick|]. intros t s. destruct (w_err w t); apply same_refl. Qed.
  Lemma keep_living ids : KEEP (living w limit ids).
  Proof.
    induction ids as [|i ids IH]; cbn [living]; [intros s; apply same_refl|].
    apply KEEP_bind; [apply KEEP_bind; [apply keep_tick|intros t s; apply same_refl]|].
    intros b. apply KEEP_bind; [exact IH|intros l s; apply same_refl].
  Qed.
  Lemma keep_job i cls slots : KEEP (start_new_job w limit i cls slots).
  Proof.
    unfold start_new_job. apply KEEP_bind; [apply keep_ext|]. intros _. apply KEEP_bind; [intros s; split; reflexivity|].
    intros _. apply KEEP_bind; [apply keep_ext|]. intros _ s. split; reflexivity.
  Qed.

  Lemma setup_guard avail s : match setup_new_optimizer w limit avail s with
    | (Ok None, s') => same s s'
    | (Ok (Some (i, cls, slots)), s') => gof (st_core s') = plus 1 (gof (st_core s)) /\ iters (st_hist s') = iters (st_hist s) /\ 1 <= slots
    | (Err _, s') => iters (st_hist s') = iters (st_hist s) end.
  Proof.
    unfold setup_new_optimizer, bind at 1. pose proof (keep_tick s) as K1.
    destruct (tick w limit s) as [[t|e] s1]; [|exact (proj2 K1)]. cbn [snd] in K1.
    unfold bind at 1. cbn [note act modify]. unfold bind at 1, getc at 1, gets at 1. cbn [st_core].
    unfold bind at 1, lift at 1. destruct (w_sel w t (st_core s1) avail) as [sel|e] eqn:Es; [|exact (proj2 K1)].
    destruct sel as [| |cf].
    - destruct K1; split; assumption.
    - destruct K1; split; assumption.
    - unfold bind at 1, modc at 1, modify at 1. cbn [st_core st_hist]. unfold bind at 1.
      match goal with |- context [ext w limit ?x] => pose proof (keep_ext x) as K2; destruct (ext w limit x) as [[[]|e] s2] end;
        cbn [snd] in K2; [|exact (eq_trans (proj2 K2) (proj2 K1))].
      unfold bind at 1, getc at 1, gets at 1. unfold add_to_log, note, act, modify, logm, bind.
      cbn [st_core]. destruct (add_optimizer _ _ _ _) as [[r|e] lg].
      + cbn [ret]. splits.
        * destruct K1 as [K1 _], K2 as [K2 _]. cbn. unfold gof in *. cbn in *. injection K2 as -> -> -> ->.
          injection K1 as -> -> -> ->. unfold plus. cbn. f_equal. lia.
        * exact (eq_trans (proj2 K2) (proj2 K1)).
        * exact (Hw _ _ _ _ Es).
      + exact (eq_trans (proj2 K2) (proj2 K1)).
  Qed.

  Lemma loop_guard fuel : forall count b s, match fill_loop g w limit fuel count b s with
    | (Ok b', s') => exists n, gof (st_core s') = plus n (gof (st_core s)) /\ iters (st_hist s') = iters (st_hist s) /\
                               n <= g_max_jobs g - count /\ b' = (b || Nat.ltb 0 n)
    | (Err _, s') => iters (st_hist s') = iters (st_hist s) end.
  Proof.
    assert (Z : forall a, a = plus 0 a) by (intros []; unfold plus; cbn; now rewrite Nat.add_0_r).
    induction fuel as [|fuel IH]; intros count b s; [reflexivity|]. cbn [fill_loop].
    unfold bind at 1, getc at 1, gets at 1. destruct (Nat.ltb_spec count (g_max_jobs g)) as [L|L]; cbn [andb].
    2:{ exists 0. splits; [apply Z|reflexivity|lia|now rewrite Bool.orb_false_r]. }
    destruct (k_spawn (st_core s)).
    2:{ exists 0. splits; [apply Z|reflexivity|lia|now rewrite Bool.orb_false_r]. }
    unfold bind at 1. pose proof (setup_guard (g_max_jobs g - count) s) as H.
    destruct (setup_new_optimizer w limit (g_max_jobs g - count) s) as [[[[[i cls] slots]|]|e] s1]; [| |exact H].
    - destruct H as (H1 & H2 & H3). unfold bind at 1. pose proof (keep_job i cls slots s1) as [K1 K2].
      destruct (start_new_job w limit i cls slots s1) as [[[]|e] s2]; cbn [snd] in *; [|congruence].
      specialize (IH (count + slots) true s2). destruct (fill_loop g w limit fuel (count + slots) true s2) as [[b'|e] s3]; [|congruence].
      destruct IH as (n & I1 & I2 & I3 & I4). exists (S n). splits; [|congruence|lia|].
      + rewrite I1, K1, H1. unfold plus. cbn. f_equal. lia.
      + rewrite I4. cbn. now rewrite Bool.orb_true_r.
    - destruct H as [H1 H2]. exists 0. splits; [now rewrite H1|exact H2|lia|now rewrite Bool.orb_false_r].
  Qed.

  Lemma fill_repeat n alive a : n <> 0 \/ alive = true -> (Nat.eqb (fst (g_last a)) (g_f a) && Nat.ltb (snd (g_last a) + 5) (g_o a) && g_crashed a) = false ->
    fill (repeat 0 n) alive a = inl (if Nat.eqb n 0 || Nat.eqb (fst (g_last a)) (g_f a) then plus n a
                                     else mkG (g_f a) (g_o a + n) (g_f a, g_o a + n) (g_crashed a)).
  Proof.
    intros N B. unfold fill. rewrite B, starts_effect. rewrite repeat_length.
    replace (list_sum (repeat 0 n)) with 0 by (clear; induction n; [reflexivity|exact IHn]). rewrite !Nat.add_0_r.
    destruct n as [|n].
    - destruct alive; [|destruct N as [N|N]; [now contradict N|discriminate]]. reflexivity.
    - cbn [repeat Nat.eqb orb g_last g_f]. destruct (Nat.eqb _ _); reflexivity.
  Qed.

  (** Filling is the event Fill; if it raises because of the guard the event gives the alarm. *)
  Lemma fill_guard s : match fill_slots g w limit s with
    | (Ok _, s') => (exists n alive, n <= g_max_jobs g /\ fill (repeat 0 n) alive (gof (st_core s)) = inl (gof (st_core s'))) /\
                    iters (st_hist s') = iters (st_hist s)
    | (Err _, s') => iters (st_hist s') = iters (st_hist s) end.
  Proof.
    unfold fill_slots. unfold pack_ids at 1. unfold bind at 1, getc at 1, gets at 1. unfold bind at 1.
    match goal with |- context [living w limit ?i s] => pose proof (keep_living i s) as K1; destruct (living w limit i s) as [[l|e] s1] end;
      cbn [snd] in K1; [|exact (proj2 K1)].
    unfold bind at 1, getc at 1, gets at 1. unfold bind at 1, getc at 1, gets at 1.
    match goal with |- context [if ?x then _ else _] => destruct x eqn:B end; [exact (proj2 K1)|].
    unfold bind at 1. pose proof (loop_guard (S limit) (slots_of l (st_core s1)) false s1) as H.
    destruct (fill_loop g w limit (S limit) (slots_of l (st_core s1)) false s1) as [[b|e] s2]; [|destruct K1; congruence].
    destruct H as (n & H1 & H2 & H3 & H4). cbn [orb] in H4.
    unfold pack_ids at 1. unfold bind at 1, getc at 1, gets at 1. unfold bind at 1.
    match goal with |- context [living w limit ?i s2] => pose proof (keep_living i s2) as K2; destruct (living w limit i s2) as [[l'|e] s3] end;
      cbn [snd] in K2; [|destruct K1, K2; congruence].
    destruct K1 as [K1 K1'], K2 as [K2 K2'].
    assert (B' : (Nat.eqb (fst (g_last (gof (st_core s)))) (g_f (gof (st_core s))) && Nat.ltb (snd (g_last (gof (st_core s))) + 5) (g_o (gof (st_core s))) && g_crashed (gof (st_core s))) = false).
    { rewrite <- K1. exact B. }
    assert (E : gof (st_core s3) = plus n (gof (st_core s))) by congruence.
    assert (Eh : iters (st_hist s3) = iters (st_hist s)) by congruence.
    clear - B' E Eh H3 H4. subst b. destruct n as [|n]; cbn [Nat.ltb Nat.leb].
    - destruct (Nat.eqb (length l') 0); [exact Eh|]. split; [|exact Eh]. exists 0, true. split; [lia|].
      rewrite fill_repeat by auto. cbn [Nat.eqb orb ret]. now rewrite E.
    - cbn [modc modify st_core st_hist]. split; [|exact Eh]. exists (S n), true. split; [lia|].
      rewrite fill_repeat by auto. cbn [Nat.eqb orb]. f_equal.
      unfold gof in *. cbn in E |- *. unfold plus in *. cbn in *. injection E as E1 E2 E3 E4.
      rewrite E1, E3. destruct (Nat.eqb _ _); cbn; rewrite E1, ?E2, ?E3, E4; reflexivity.
  Qed.

  (** *** The chain of iterations *)
  Definition link (c1 : core) (a : guard) : Prop :=
    exists n alive b, n <= g_max_jobs g /\ fill (repeat 0 n) alive (gof c1) = inl b /\ calm b a.
  (** The session begins with the guard [a0] after the iterations [base]. *)
  Variables (a0 : guard) (base : list core).
  Fixpoint chained (l : list core) : Prop :=
    match l with [] => True | c :: l => match l with [] => gof c = a0 | c1 :: _ => link c1 (gof c) end /\ chained l end.
  Definition onto (h : list core) : Prop := exists l, h = l ++ base /\ chained l.
  Definition ready (s : mstate) : Prop := exists l, iters (st_hist s) = l ++ base /\ chained l /\
    match l with [] => gof (st_core s) = a0 | c1 :: _ => link c1 (gof (st_core s)) end.
  Lemma ready_onto s : ready s -> onto (iters (st_hist s)).
  Proof. intros (l & H & C & _). now exists l. Qed.

  Lemma link_calm c1 a b : link c1 a -> calm a b -> link c1 b.
  Proof. intros (n & al & x & H1 & H2 & H3) H. exists n, al, x. splits; auto. eapply calm_trans; eassumption. Qed.

  Lemma iteration_ready s : ready s -> match iteration g w limit s with
    | (Ok _, s') => ready s' | (Err _, s') => onto (iters (st_hist s')) end.
  Proof.
    intros R. unfold iteration. unfold bind at 1. cbn [note act modify].
    set (s0 := mkMS (st_core s) ((st_core s, EvIter) :: st_hist s)).
    assert (I0 : iters (st_hist s0) = st_core s :: iters (st_hist s)) by reflexivity.
    destruct R as (l & R1 & R2 & R3).
    assert (C1 : chained (st_core s :: l)) by (split; [exact R3|exact R2]).
    assert (C0 : onto (iters (st_hist s0))) by (exists (st_core s :: l); rewrite I0, R1; now split).
    unfold bind at 1. pose proof (fill_guard s0) as F. destruct (fill_slots g w limit s0) as [[[]|e] s1]; [|now rewrite F].
    destruct F as [(n & alive & F1 & F2) F3].
    match goal with |- match ?m s1 with _ => _ end => assert (HS : SIM m) end.
    { unfold pack_ids, purge_one, in_grave. sim. }
    specialize (HS s1). match goal with |- match ?x with _ => _ end => destruct x as [[r|e] s2] end; cbn [snd] in HS; destruct HS as [S1 S2].
    - exists (st_core s :: l). rewrite S2, F3, I0, R1. split; [reflexivity|]. split; [exact C1|].
      exists n, alive, (gof (st_core s1)). splits; [exact F1|exact F2|exact S1].
    - now rewrite S2, F3.
  Qed.
  Lemma loop_ready fuel : forall r s, ready s -> onto (iters (st_hist (snd (main_loop g w limit fuel r s)))).
  Proof.
    induction fuel as [|fuel IH]; intros r s R; [exact (ready_onto s R)|]. cbn [main_loop].
    unfold bind at 1, getc at 1, gets at 1. destruct (k_converged (st_core s)); [exact (ready_onto s R)|].
    unfold bind at 1. pose proof (iteration_ready s R) as H. destruct (iteration g w limit s) as [[b|e] s1]; [|exact H].
    now apply IH.
  Qed.
  Lemma nothing : onto base.
  Proof. now exists []. Qed.
  Lemma body_ready r s : iters (st_hist s) = base -> gof (st_core s) = a0 ->
    onto (iters (st_hist (snd (run_body g w limit r s)))).
  Proof.
    intros I G. unfold run_body. unfold pack_ids at 1. unfold bind at 1, getc at 1, gets at 1. unfold bind at 1.
    assert (K : KEEP (for_each (dkeys (k_packs (st_core s))) (restart_one w limit))).
    { generalize (dkeys (k_packs (st_core s))). intros l. induction l as [|i l IH]; cbn [for_each]; [intros u; apply same_refl|].
      apply KEEP_bind; [|auto]. unfold restart_one. apply KEEP_bind; [apply keep_ext|]. intros _ u. unfold modc, modify. cbn.
      split; cbn; [destruct (nget _ _); reflexivity|reflexivity]. }
    specialize (K s). destruct (for_each _ _ s) as [[[]|e] s1]; cbn [snd] in K; destruct K as [K1 K2]; [|cbn; rewrite K2, I; exact nothing].
    unfold bind at 1. assert (R : ready s1) by (exists []; rewrite K2, I, K1; now split).
    pose proof (loop_ready (S limit) r s1 R) as L. destruct (main_loop g w limit (S limit) r s1) as [[r'|e] s2]; [|exact L].
    cbn [snd] in L.
    match goal with |- context [snd (?m s2)] => assert (HS : SIM m) by sim; rewrite (proj2 (HS s2)) end. exact L.
  Qed.
  Lemma session_onto s0 : iters (st_hist s0) = base -> gof (st_core s0) = a0 ->
    onto (iters (st_hist (snd (start_manager g w limit s0)))).
  Proof.
    intros I0 G0. unfold start_manager. unfold bind at 1.
    match goal with |- context [try_except ?a ?b ?c] => set (m := try_except a b c) end.
    assert (K : KEEP m).
    { intros s. unfold m, try_except. unfold bind at 1. unfold checker_call.
      pose proof (keep_tick s) as K. unfold bind at 1. destruct (tick w limit s) as [[t|e] s1]; cbn [snd] in K.
      - unfold bind at 1, getc at 1, gets at 1. unfold lift. destruct (w_check w t (st_core s1)) as [b|e].
        + exact K.
        + destruct (is_exception e); exact K.
      - destruct (is_exception e); exact K. }
    clearbody m. specialize (K s0). destruct (m s0) as [[pre|e] s1]; cbn [snd] in K; destruct K as [K1 K2];
      [|cbn [snd]; rewrite K2, I0; exact nothing].
    assert (D : onto (iters (st_hist (snd (bind (ext w limit) (fun _ s => match run_body g w limit (match pre with Some _ => RDead | None => RNone end) s with
                 | (Ok r, s1) => finish r s1
                 | (Err OutOfFuel, s1) => (Err OutOfFuel, s1)
                 | (Err e, s1) =>
                     match stop_all_children w limit (Some (crash_text e)) s1 with
                     | (Err OutOfFuel, s2) => (Err OutOfFuel, s2)
                     | (_, s2) => finish (match e with KeyboardInterrupt => RInterrupt | _ => RCrash e end) s2
                     end
                 end) s1))))).
    { unfold bind at 1. pose proof (keep_ext s1) as [E1 E2]. destruct (ext w limit s1) as [[[]|e] s2]; cbn [snd] in *; [|rewrite E2, K2, I0; exact nothing].
      pose proof (body_ready (match pre with Some _ => RDead | None => RNone end) s2) as B.
      rewrite E2, K2, E1, K1 in B. specialize (B I0 G0).
      destruct (run_body g w limit _ s2) as [[r|e] s3]; cbn [snd] in B.
      - now rewrite (proj2 (sim_finish r s3)).
      - pose proof (sim_stop_all (Some (crash_text e)) s3) as [_ St].
        destruct (stop_all_children w limit (Some (crash_text e)) s3) as [[[]|e'] s4]; cbn [snd] in St;
          destruct e; try destruct e'; cbn [snd]; rewrite ?(proj2 (sim_finish _ s4)); cbn [snd]; rewrite ?St; exact B. }
    destruct pre as [[|]|]; [cbn; rewrite K2, I0; exact nothing|exact D|exact D].
  Qed.
End Run.

Lemma run_chained g w limit (Hw : forall t c n cf, w_sel w t c n = Ok (SOpt cf) -> 1 <= cf_workers cf) traj :
  chained g ginit (iters (st_hist (snd (run g w limit traj)))).
Proof.
  destruct (session_onto g w limit Hw ginit [] (fresh traj) eq_refl eq_refl) as (l & E & H). rewrite app_nil_r in E. unfold run. now rewrite E.
Qed.

(** ** Traces of Guard_Model *)
Lemma gsteps_evaluations n : forall a, gsteps (repeat Evaluation n) a = inl (mkG (g_f a + n) (g_o a) (g_last a) (g_crashed a)).
Proof.
  induction n as [|n IH]; intros a; cbn [repeat gsteps gstep]; [destruct a; cbn; now rewrite Nat.add_0_r|].
  rewrite IH. cbn. do 2 f_equal. lia.
Qed.
Lemma calm_trace a b : calm a b -> exists l, gsteps l a = inl b /\ n_started l = 0 /\ n_evals l = g_f b - g_f a /\
  Forall (fun e => forall n al, e <> Fill n al) l.
Proof.
  intros (H1 & H2 & H3 & H4). exists (Message (g_crashed b) :: repeat Evaluation (g_f b - g_f a)). splits.
  - cbn [gsteps gstep]. rewrite gsteps_evaluations. cbn. destruct b as [f o la cr]. cbn in *. subst. do 2 f_equal; [lia|].
    destruct cr; [reflexivity|]. destruct (g_crashed a); [specialize (H4 eq_refl); discriminate|reflexivity].
  - rewrite n_started_cons. cbn [started]. induction (g_f b - g_f a) as [|n IH]; [reflexivity|]. exact IH.
  - rewrite n_evals_cons. cbn [evals]. induction (g_f b - g_f a) as [|n IH]; [reflexivity|]. cbn [repeat].
    rewrite n_evals_cons. cbn [evals]. cbn in IH. now rewrite IH.
  - constructor; [discriminate|]. apply Forall_forall. intros e I. apply repeat_spec in I as ->. discriminate.
Qed.

Lemma link_trace g c1 c2 : link g c1 (gof c2) -> exists l, gsteps l (gof c1) = inl (gof c2) /\ n_evals l = k_f c2 - k_f c1 /\
  n_started l = k_o c2 - k_o c1 /\ k_f c1 <= k_f c2 /\ k_o c1 <= k_o c2 /\ Forall (fun e => started e <= g_max_jobs g) l.
Proof.
  intros (n & al & b & H1 & H2 & H3). destruct (calm_trace _ _ H3) as (l & L1 & L2 & L3 & L4).
  destruct (gstep_effect (gof c1) (Fill (repeat 0 n) al) b H2) as (E1 & E2 & _). cbn [evals started] in E1, E2.
  rewrite repeat_length in E2. replace (list_sum (repeat 0 n)) with 0 in E1 by (clear; induction n; [reflexivity|exact IHn]).
  destruct H3 as (C1 & C2 & _). cbn [gof g_f g_o] in *.
  exists (Fill (repeat 0 n) al :: l). rewrite n_evals_cons, n_started_cons. cbn [evals started gsteps gstep].
  rewrite H2, L1, L2, L3, repeat_length. replace (list_sum (repeat 0 n)) with 0 by (clear; induction n; [reflexivity|exact IHn]).
  splits; try reflexivity; try lia. constructor; [cbn; now rewrite repeat_length|].
  eapply Forall_impl; [|exact L4]. intros e He. destruct e as [m x| |]; cbn; try lia. now destruct (He m x).
Qed.

Lemma chained_tail g a0 l1 : forall l2, chained g a0 (l1 ++ l2) -> chained g a0 l2.
Proof. induction l1 as [|c l1 IH]; intros l2 H; [exact H|]. apply IH. exact (proj2 H). Qed.

(** From the start to an iteration. *)
Lemma chained_start g a0 l : forall c, chained g a0 (c :: l) -> exists t, gsteps t a0 = inl (gof c).
Proof.
  induction l as [|c1 l IH]; intros c H.
  - exists []. cbn [gsteps]. now rewrite (proj1 H).
  - destruct H as [H1 H2]. destruct (IH _ H2) as (t & T). destruct (link_trace _ _ _ H1) as (u & U & _).
    exists (t ++ u). now rewrite gsteps_app, T.
Qed.

Lemma iters_app a b : iters (a ++ b) = iters a ++ iters b.
Proof. unfold iters. now rewrite filter_app, map_app. Qed.

(** last_opt_spawn is the beginning or holds o_counter of an iteration. *)
Lemma chained_last g a0 l : forall c, chained g a0 (c :: l) ->
  k_last_spawn c = g_last a0 \/ exists c0, In c0 (c :: l) /\ snd (k_last_spawn c) = k_o c0 /\ fst (k_last_spawn c) <= k_f c0.
Proof.
  induction l as [|c1 l IH]; intros c [H1 H2].
  - left. now rewrite <- H1.
  - destruct H1 as (n & al & b & _ & F & (C1 & C2 & C3 & _)).
    destruct (gstep_effect (gof c1) (Fill (repeat 0 n) al) b F) as (_ & _ & _ & [L|L]); cbn [gof g_last g_f g_o] in *.
    + rewrite C3, L. destruct (IH _ H2) as [Z|(c0 & I & E)]; [now left|]. right. exists c0. split; [now right|exact E].
    + right. exists c. rewrite C3, L. cbn. splits; [now left|congruence|exact C1].
Qed.

(** Within an iteration that begins so the guard raises, or the run is interrupted; nothing is started. *)
Lemma fires g w limit s : fst (k_last_spawn (st_core s)) = k_f (st_core s) -> snd (k_last_spawn (st_core s)) + 5 < k_o (st_core s) ->
  k_crashed (st_core s) = true -> exists e s', iteration g w limit s = (Err e, s') /\ In e [RuntimeError; KeyboardInterrupt; OutOfFuel] /\
  st_hist s' = (st_core s, EvIter) :: st_hist s.
Proof.
  intros H1 H2 H3. unfold iteration. unfold bind at 1. cbn [note act modify].
  set (s0 := mkMS (st_core s) ((st_core s, EvIter) :: st_hist s)).
  assert (L : forall ids u, st_hist (snd (living w limit ids u)) = st_hist u /\ match fst (living w limit ids u) with Ok _ => True | Err e => e = KeyboardInterrupt \/ e = OutOfFuel end).
  { induction ids as [|i ids IH]; intros u; [now split|]. cbn [living]. unfold is_alive, bind, tick.
    destruct (Nat.leb _ _); [split; [reflexivity|now right]|]. destruct (w_intr w _); [split; [reflexivity|now left]|].
    cbn [getc gets]. match goal with |- context [living w limit ids ?x] => specialize (IH x); destruct (living w limit ids x) as [[r|e] s'] end;
      exact IH. }
  unfold bind at 1, fill_slots. unfold pack_ids at 1. unfold bind at 1, getc at 1, gets at 1. unfold bind at 1.
  match goal with |- context [living w limit ?i s0] => pose proof (keep_living w limit i s0) as K1; specialize (L i s0); destruct (living w limit i s0) as [[l|e] s1] end;
    cbn [snd fst] in *; destruct L as [L1 L2], K1 as [K1 _].
  - unfold bind at 1, getc at 1, gets at 1. unfold bind at 1, getc at 1, gets at 1.
    injection K1 as K1 K2 K3 K4. rewrite K1, K2, K3, K4. subst s0. cbn [st_core]. rewrite H1, H3, Nat.eqb_refl.
    apply Nat.ltb_lt in H2. rewrite H2. cbn [andb]. exists RuntimeError, s1. splits; [reflexivity|now left|exact L1].
  - exists e, s1. splits; [reflexivity| |exact L1]. destruct L2 as [-> | ->]; cbn; auto.
Qed.

Lemma chained_app g a0 l1 : forall l2 c, chained g a0 (l1 ++ c :: l2) -> match l1 with [] => True | _ =>
  exists t, gsteps t (gof c) = inl (gof (hd c l1)) /\ n_evals t = k_f (hd c l1) - k_f c /\ n_started t = k_o (hd c l1) - k_o c /\
            k_f c <= k_f (hd c l1) /\ k_o c <= k_o (hd c l1) /\ Forall (fun e => started e <= g_max_jobs g) t end.
Proof.
  induction l1 as [|d l1 IH]; intros l2 c H; [exact I|]. cbn [app] in H. destruct H as [H1 H2]. cbn [hd].
  destruct l1 as [|d' l1]; [exact (link_trace _ _ _ H1)|].
  destruct (IH _ _ H2) as (t & T1 & T2 & T3 & T4 & T5 & T6). cbn [hd app] in *.
  destruct (link_trace _ _ _ H1) as (u & U1 & U2 & U3 & U4 & U5 & U6).
  exists (t ++ u). rewrite gsteps_app, T1, U1, n_evals_app, n_started_app, T2, T3, U2, U3. splits; try reflexivity; try lia.
  apply Forall_app. now split.
Qed.
Lemma chained_between g a0 a c c0 b : chained g a0 (c :: a ++ c0 :: b) ->
  exists t, gsteps t (gof c0) = inl (gof c) /\ n_evals t = k_f c - k_f c0 /\ n_started t = k_o c - k_o c0 /\
            k_f c0 <= k_f c /\ k_o c0 <= k_o c /\ Forall (fun e => started e <= g_max_jobs g) t.
Proof. exact (chained_app g a0 (c :: a) b c0). Qed.
