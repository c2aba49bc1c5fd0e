(** * Properties C70 and C71: the guard against crashing optimizers, the annealing generator *)
From Verif Require Import Prelude Prelude_Proofs Guard_Model Guard_Spec Guard_Proofs Manager_Model Manager_Props GuardRun_Proofs.
From Coq Require Import Lia Lqa.
Open Scope nat_scope.

(** ** C70 *)
(** The manager gives up only after an optimizer reported a traceback, and more than five were started without an evaluation. *)
Theorem C70_alarm l : gsteps l ginit = inr Crashing ->
  exists l0 l1 e l2, l = l0 ++ l1 ++ e :: l2 /\ In (Message true) (l0 ++ l1) /\ n_evals l1 = 0 /\ 5 < n_started l1 /\
                     (exists n a, e = Fill n a).
Proof. exact (alarm_sound l). Qed.
Print Assumptions C70_alarm.
Example C70_alarm_met :
  gsteps [Fill [0; 0] true; Message true; Evaluation; Fill [0] true; Fill [0; 0; 0] true; Message true; Fill [0; 0] true;
          Fill [0] true; Fill [] true] ginit = inr Crashing /\
  gsteps [Fill [0; 0] true; Message true; Evaluation; Fill [0] true; Fill [0; 0; 0] true; Message true; Fill [0; 0] true;
          Fill [0] true] ginit = inl (mkG 1 9 (1, 3) true).
Proof. split; reflexivity. Qed.

(** After a traceback, with no evaluations arriving, at most 5 + 2 J optimizers are started, J being the most at a time. *)
Theorem C70_bound J l0 l s t : gsteps l0 ginit = inl s -> In (Message true) l0 -> gsteps l s = inl t ->
  n_evals l = 0 -> Forall (fun e => started e <= J) l -> n_started l <= 5 + 2 * J.
Proof.
  intros E0 M E Q F. apply (quiet_any J l s t E); auto; [|exact (reach_last _ _ E0)].
  now apply (gsteps_recorded _ _ _ _ recorded_init E0).
Qed.
Print Assumptions C70_bound.
(** The bound is reached. *)
Example C70_bound_met : exists l0 l s t, gsteps l0 ginit = inl s /\ In (Message true) l0 /\ gsteps l s = inl t /\
  n_evals l = 0 /\ Forall (fun e => started e <= 3) l /\ n_started l = 5 + 2 * 3.
Proof.
  exists [Fill [0] true; Evaluation; Message true],
         [Fill [0; 0; 0] true; Fill [0; 0; 0] true; Fill [0; 0] true; Fill [0; 0; 0] true], (mkG 1 1 (0, 0) true), (mkG 1 12 (1, 4) true).
  splits; [vm_compute; reflexivity|right; right; now left|vm_compute; reflexivity|reflexivity| |reflexivity].
  repeat (constructor; [cbn; lia|]). constructor.
Qed.

(** The traceback may be old: nothing need have crashed among the optimizers started without evaluations. *)
Theorem C70_old_crash_refuted : exists l1 l2 s, gsteps l1 ginit = inl s /\ In (Message true) l1 /\ In Evaluation l1 /\
  gsteps l2 s = inr Crashing /\ ~ In (Message true) l2.
Proof.
  exists [Fill [0; 0; 0; 0; 0; 0; 0] true; Message true; Evaluation; Fill [0] true; Evaluation; Evaluation],
         [Fill [0] true; Fill [0; 0; 0; 0; 0; 0] true; Fill [] true], (mkG 3 8 (1, 8) true).
  splits; [vm_compute; reflexivity|cbn; auto 10|cbn; auto 10|vm_compute; reflexivity|].
  cbn. intros H. repeat (destruct H as [H|H]; [discriminate|]). exact H.
Qed.
Print Assumptions C70_old_crash_refuted.

(** Optimizers that die without a message (killed by the system, a segmentation fault) are replaced for ever. *)
Theorem C70_silent_never n : exists l s, n_evals l = 0 /\ n_started l = n /\ (forall e, In e l -> e = Fill [0] true) /\
  gsteps l ginit = inl s.
Proof.
  exists (repeat (Fill [0] true) n), (mkG 0 n (0, 0) false). splits; [| | |apply silent_deaths].
  - induction n as [|n IH]; [reflexivity|]. cbn [repeat]. now rewrite n_evals_cons, IH.
  - induction n as [|n IH]; [reflexivity|]. cbn [repeat]. now rewrite n_started_cons, IH.
  - intros e H. now apply repeat_spec in H.
Qed.
Print Assumptions C70_silent_never.

(** With a generator that evaluates by itself the guard never fires, whatever crashes. *)
Theorem C70_own_evaluations_never n k : exists l s, n_started l = n /\ (forall e, In e l -> e = Fill [S k] true \/ e = Message true) /\
  gsteps l ginit = inl s.
Proof.
  destruct (own_evaluations k n ginit) as (t & E & O); [reflexivity..|].
  exists (concat (repeat (crash_of k) n)), t. splits; [| |exact E].
  - clear. induction n as [|n IH]; [reflexivity|]. cbn [repeat concat]. now rewrite n_started_app, IH.
  - clear. induction n as [|n IH]; [intros e []|]. cbn [repeat concat crash_of app]. intros e [<-|[<-|H]]; auto.
Qed.
Print Assumptions C70_own_evaluations_never.

(** The whole manager, with six slots: one crash before the first evaluation ends the run, though five optimizers work. *)
Definition gC : config := mkCfg 6 2 true true false true false false None false false.
Definition wC (crash : bool) : world := mkW
  (fun t => match t with
     | 28 => if crash then [MSig 1 (SError "Traceback (most recent call last)"); MExit 1 1%Z] else []
     | 100 => [MPush [ev 2 1 1; ev 3 2 (1#2)]; MPush [ev 4 1 1; ev 5 2 2; ev 6 1 3]]
     | _ => [] end)
  (fun _ => false) (fun _ => None)
  (fun t c n => Ok (if 1 <=? n then SOpt (cfA 1) else SNone))
  (fun t c => Ok (5 <=? k_f c)) (fun _ _ _ v => Ok false) (fun _ _ => Ok []) (fun _ _ => false)
  (fun _ => false) (fun _ => false) (fun _ _ => true).
Theorem C70_first_crash_refuted :
  (exists r s, run gC (wC true) 400 true = (Ok (Some (RCrash RuntimeError), r), s) /\ r_x r = None /\ k_o (st_core s) = 6 /\
               map fst (filter (fun p => c_alive (snd p)) (k_packs (st_core s))) = [2; 3; 4; 5; 6]) /\
  (exists r, fst (run gC (wC false) 400 true) = Ok (Some RChecker, r) /\ r_x r = Some [Fin 2]).
Proof.
  split; [do 2 eexists|eexists]; (split; [vm_compute; reflexivity|]); [splits|]; reflexivity.
Qed.
Print Assumptions C70_first_crash_refuted.

(** Runs of the whole manager.  [gof] picks the four attributes.  The selector gives every optimizer a slot. *)
Definition slots_given (w : world) : Prop := forall t c n cf, w_sel w t c n = Ok (SOpt cf) -> 1 <= cf_workers cf.
(** The guard of Guard_Model is what the manager has at the beginning of each iteration. *)
Theorem C70_refines g w limit traj h1 c h2 : slots_given w -> st_hist (snd (run g w limit traj)) = h1 ++ (c, EvIter) :: h2 ->
  exists l, gsteps l ginit = inl (mkG (k_f c) (k_o c) (k_last_spawn c) (k_crashed c)).
Proof.
  intros Hw E. pose proof (run_chained g w limit Hw traj) as H. rewrite E, iters_app in H. apply chained_tail in H.
  exact (chained_start _ _ _ _ H).
Qed.
Print Assumptions C70_refines.

(** Between the beginnings of two iterations with a traceback known and no evaluation, at most 5 + 2 max_jobs are set up. *)
Theorem C70_run_bound g w limit traj h1 c2 h2 c1 h3 : slots_given w ->
  st_hist (snd (run g w limit traj)) = h1 ++ (c2, EvIter) :: h2 ++ (c1, EvIter) :: h3 ->
  k_crashed c1 = true -> k_f c2 = k_f c1 -> k_o c2 <= k_o c1 + 5 + 2 * g_max_jobs g.
Proof.
  intros Hw E C F. pose proof (run_chained g w limit Hw traj) as H. rewrite E, iters_app in H.
  change (iters ((c2, EvIter) :: h2 ++ (c1, EvIter) :: h3)) with (c2 :: iters (h2 ++ (c1, EvIter) :: h3)) in H.
  rewrite iters_app in H. change (iters ((c1, EvIter) :: h3)) with ([c1] ++ iters h3) in H.
  apply chained_tail in H.
  assert (H1 : chained g ginit (c1 :: iters h3)) by exact (chained_tail g ginit (c2 :: iters h2) _ H).
  destruct (chained_start _ _ _ _ H1) as (t0 & T0).
  assert (H2 : exists t, gsteps t (gof c1) = inl (gof c2) /\ n_evals t = k_f c2 - k_f c1 /\ n_started t = k_o c2 - k_o c1 /\
            k_f c1 <= k_f c2 /\ k_o c1 <= k_o c2 /\ Forall (fun e => started e <= g_max_jobs g) t).
  { exact (chained_between g ginit (iters h2) c2 c1 (iters h3) H). }
  destruct H2 as (t & T1 & T2 & T3 & T4 & T5 & T6).
  assert (M : In (Message true) t0).
  { pose proof (gsteps_recorded _ _ _ _ recorded_init T0) as (_ & _ & R & _). apply R. exact C. }
  pose proof (C70_bound (g_max_jobs g) t0 t _ _ T0 M T1) as B. rewrite T2, T3 in B. specialize (B ltac:(lia) T6). lia.
Qed.
Print Assumptions C70_run_bound.

(** Where it fires there was a traceback, and more than five were set up since an earlier iteration with as many evaluations,
    or since the start of a run without evaluations. *)
Theorem C70_run_alarm g w limit traj h1 c h2 : slots_given w -> st_hist (snd (run g w limit traj)) = h1 ++ (c, EvIter) :: h2 ->
  fst (k_last_spawn c) = k_f c -> snd (k_last_spawn c) + 5 < k_o c ->
  (exists c0, In (c0, EvIter) h2 /\ k_f c0 = k_f c /\ k_o c0 + 5 < k_o c) \/ (k_f c = 0 /\ 5 < k_o c).
Proof.
  intros Hw E L1 L2. pose proof (run_chained g w limit Hw traj) as H. rewrite E, iters_app in H. apply chained_tail in H.
  change (iters ((c, EvIter) :: h2)) with (c :: iters h2) in H.
  destruct (chained_last _ _ _ _ H) as [Z|(c0 & [->|I] & I2 & I3)].
  - right. rewrite Z in L1, L2. cbn in L1, L2. lia.
  - lia.
  - left. exists c0. splits.
    + unfold iters in I. apply in_map_iff in I as ([c' e] & <- & I). apply filter_In in I as [I I']. cbn in I' |- *.
      destruct e; try discriminate. exact I.
    + apply in_split in I as (a & b & I). rewrite I in H.
      destruct (chained_between g ginit a c c0 b H) as (t & _ & _ & _ & T4 & _). lia.
    + lia.
Qed.
Print Assumptions C70_run_alarm.

(** And there it does: the iteration raises RuntimeError before anything is started, or is interrupted. *)
Theorem C70_run_fires g w limit s : fst (k_last_spawn (st_core s)) = k_f (st_core s) ->
  snd (k_last_spawn (st_core s)) + 5 < k_o (st_core s) -> k_crashed (st_core s) = true ->
  exists e s', iteration g w limit s = (Err e, s') /\ In e [RuntimeError; KeyboardInterrupt; OutOfFuel] /\
  st_hist s' = (st_core s, EvIter) :: st_hist s.
Proof. exact (fires g w limit s). Qed.
Print Assumptions C70_run_fires.
(** The attributes at the beginnings of the iterations of a run in which every optimizer crashes (at the most two at a time;
    one evaluation arrives at first). *)
Definition gD : config := mkCfg 2 2 true true false true false false None false false.
Definition wD : world := mkW
  (fun t => (if t =? 10 then [MPush [ev 1 1 1]] else []) ++ (if 40 <=? t then
     concat (map (fun i => [MSig i (SError "Traceback (most recent call last)"); MExit i 1%Z]) (seq 1 30)) else []))
  (fun _ => false) (fun _ => None)
  (fun t c n => Ok (if 1 <=? n then SOpt (cfA 1) else SNone))
  (fun t c => Ok false) (fun _ _ _ v => Ok false) (fun _ _ => Ok []) (fun _ _ => false)
  (fun _ => false) (fun _ => false) (fun _ _ => true).
Example C70_run_met : slots_given wD /\
  map (fun c => (k_crashed c, k_last_spawn c, k_f c, k_o c)) (iters (st_hist (snd (run gD wD 600 true)))) =
  [(true, (1, 4), 1, 10); (true, (1, 4), 1, 8); (true, (1, 4), 1, 6); (true, (1, 4), 1, 4);
   (false, (0, 0), 1, 2); (false, (0, 0), 1, 2); (false, (0, 0), 0, 0)] /\
  (exists r, fst (run gD wD 600 true) = Ok (Some (RCrash RuntimeError), r)).
Proof.
  splits. { intros t c n cf. cbn [w_sel wD]. destruct (1 <=? n); [|discriminate]. intros [= <-]. cbn. lia. }
  - vm_compute. reflexivity.
  - eexists. vm_compute. reflexivity.
Qed.

(** ** C71 *)
(** A new starting point is the end of the last run of the chain, the first that differs from the previous starting point; it
    is remembered. *)
Theorem C71_moved sc fuel best s x t : generate sc fuel best s = Ok (x, t) ->
  a_last t = x /\ moved x (a_last s) /\ exists n, a_runs t = a_runs s + S n /\ x = fst (fst (chain sc (a_runs s + n))) /\
  forall i, i < n -> ~ moved (fst (fst (chain sc (a_runs s + i)))) (a_last s).
Proof.
  unfold generate. destruct (nlt _ _);
  (destruct (rounds _ _ _ _) as [u|] eqn:E; [|discriminate]; intros [= <- <-];
   destruct (rounds_ok _ _ _ _ _ E ltac:(lia)) as (n & k & A & B & C & D & _); cbn in *;
   splits; [reflexivity|exact C|exists n; splits; [apply A|exact B|exact D]]).
Qed.
Print Assumptions C71_moved.

(** It is within the bounds if the chain stays within them. *)
Theorem C71_within box sc fuel best s x t : (forall i, in_box box (fst (fst (chain sc i)))) ->
  generate sc fuel best s = Ok (x, t) -> in_box box x.
Proof. intros B E. destruct (C71_moved _ _ _ _ _ _ E) as (_ & _ & n & _ & -> & _). apply B. Qed.
Print Assumptions C71_within.

(** Both counters rise by the evaluations of the chain. *)
Theorem C71_counted sc fuel best s x t : generate sc fuel best s = Ok (x, t) ->
  m_f t = m_f s + spent (chain sc) (a_runs s) (a_runs t - a_runs s) /\
  m_log t = m_log s + spent (chain sc) (a_runs s) (a_runs t - a_runs s).
Proof.
  unfold generate. destruct (nlt _ _);
  (destruct (rounds _ _ _ _) as [u|] eqn:E; [|discriminate]; intros [= <- <-];
   destruct (rounds_ok _ _ _ _ _ E ltac:(lia)) as (n & k & (A1 & A2 & A3 & A4 & A5 & A6) & _); cbn [a_runs m_f m_log] in *;
   rewrite A2; replace (a_runs s + S n - a_runs s) with (S n) by lia; now split).
Qed.
Print Assumptions C71_counted.

(** Those of the resets are made but not counted. *)
Theorem C71_uncounted sc fuel best s x t : generate sc fuel best s = Ok (x, t) ->
  (a_nfev t - a_nfev s) = (m_f t - m_f s) + spent (reset sc) (a_resets s) (a_resets t - a_resets s) /\ a_nfev s <= a_nfev t.
Proof.
  unfold generate. destruct (nlt _ _);
  (destruct (rounds _ _ _ _) as [u|] eqn:E; [|discriminate]; intros [= <- <-];
   destruct (rounds_ok _ _ _ _ _ E ltac:(lia)) as (n & k & (A1 & A2 & A3 & A4 & A5 & A6) & _);
   cbn [a_runs m_f m_log a_resets a_nfev] in *;
   rewrite A3; replace (a_resets s + k - a_resets s) with k by lia; lia).
Qed.
Print Assumptions C71_uncounted.

(** A chain that moves once in seven runs. *)
Definition sc1 : scipy := mkSc (fun n => ([inject_Z (Z.of_nat (n / 7))], Fin 5, 3)) (fun n => ([0%Q], Fin 9, 1)) (fun i => 3 <=? i).
Theorem C71_all_counted_refuted : exists sc fuel x t, generate sc fuel (PInf, []) (anneal_init sc [0%Q] 0) = Ok (x, t) /\
  a_nfev t <> m_f t /\ m_f t = m_log t.
Proof. exists sc1, 20. do 2 eexists. splits; [vm_compute; reflexivity|vm_compute; discriminate|reflexivity]. Qed.
Print Assumptions C71_all_counted_refuted.
Example C71_met : match generate sc1 20 (PInf, []) (anneal_init sc1 [0%Q] 0) with
  | Ok (x, t) => x = [1%Q] /\ a_runs t = 8 /\ m_f t = 24 /\ a_nfev t = 26 /\
                 match generate sc1 20 (Fin 2, [1%Q]) t with
                 | Ok (y, u) => y = [2%Q] /\ a_runs u = 15 /\ m_f u = 45 /\ a_nfev u = 48
                 | Err _ => False end
  | Err _ => False end.
Proof. vm_compute. splits; reflexivity. Qed.

(** Every five runs of the chain without success there is a reset, and there are no others unless it is too cold. *)
Theorem C71_resets sc fuel best s x t : generate sc fuel best s = Ok (x, t) ->
  (a_runs t - a_runs s - 1) / 5 <= a_resets t - a_resets s /\
  ((forall i, cold sc i = false) -> a_resets t - a_resets s = (a_runs t - a_runs s - 1) / 5).
Proof.
  unfold generate. destruct (nlt _ _);
  (destruct (rounds _ _ _ _) as [u|] eqn:E; [|discriminate]; intros [= <- <-];
   destruct (rounds_ok _ _ _ _ _ E ltac:(lia)) as (n & k & (A1 & A2 & A3 & A4 & A5 & A6) & _ & _ & _ & B1 & B2);
   cbn [a_runs m_f m_log a_resets a_nfev] in *;
   rewrite A2, A3; replace (a_runs s + S n - a_runs s - 1) with n by lia; replace (a_resets s + k - a_resets s) with k by lia;
   pose proof (Nat.div_mod n 5 ltac:(lia)) as DM; pose proof (Nat.mod_upper_bound n 5 ltac:(lia)) as MB;
   split; [nia|intros NC; specialize (B2 NC); nia]).
Qed.
Print Assumptions C71_resets.

(** Each call lowers the temperature by one step, unless there is a reset, which sets it back; there is one if it was too cold. *)
Theorem C71_temperature sc fuel best s x t : generate sc fuel best s = Ok (x, t) ->
  a_iter t = (if Nat.eqb (a_resets t) (a_resets s) then a_iter s + 1 else 0)%Z /\
  (cold sc (Z.to_nat (a_iter s + 1)) = true -> a_resets s < a_resets t).
Proof.
  unfold generate. destruct (nlt _ _);
  (destruct (rounds _ _ _ _) as [u|] eqn:E; [|discriminate]; intros [= <- <-];
   destruct (rounds_warm _ _ _ _ _ E) as [[[W1 W2]|[W1 W2]] C]; cbn [a_resets a_iter] in *; (split; [|exact C]);
   [rewrite W1, Nat.eqb_refl; exact W2|destruct (Nat.eqb_spec (a_resets u) (a_resets s)); [lia|exact W2]]).
Qed.
Print Assumptions C71_temperature.
Example C71_temperature_met :
  match generate sc1 20 (PInf, []) (mkA 1 [0%Q] [0%Q] PInf 5 0 0 0 0) with
  | Ok (_, t) => a_iter t = 2%Z /\ a_resets t = 0 /\
      match generate sc1 20 (PInf, []) t with Ok (_, u) => a_iter u = 0%Z /\ a_resets u = 2 | Err _ => False end
  | Err _ => False
  end.
Proof. vm_compute. repeat split. Qed.

(** generate returns as soon as a run of the chain ends elsewhere. *)
Theorem C71_returns sc best s n : moved (fst (fst (chain sc (a_runs s + n)))) (a_last s) ->
  forall fuel, n < fuel -> exists x t, generate sc fuel best s = Ok (x, t) /\ a_runs t <= a_runs s + S n.
Proof.
  intros M fuel L.
  enough (H : exists x t, generate sc fuel best s = Ok (x, t)).
  { destruct H as (x & t & E). exists x, t. split; [exact E|].
    destruct (C71_moved _ _ _ _ _ _ E) as (_ & _ & k & R & _ & K). rewrite R.
    destruct (Nat.le_gt_cases k n) as [|G]; [lia|]. now destruct (K n G). }
  unfold generate.
  match goal with |- context [rounds sc fuel 0 ?u] => destruct (rounds_done sc n 0 u) with (fuel := fuel) as (t & ->) end;
    [destruct (nlt _ _); exact M|exact L|]. do 2 eexists; reflexivity.
Qed.
Print Assumptions C71_returns.

(** If the box is narrow next to the tolerance of the comparison, the second call never returns, and with it the manager. *)
Theorem C71_narrow_never box sc fuel best s x t : Forall narrow box -> (forall i, in_box box (fst (fst (chain sc i)))) ->
  generate sc fuel best s = Ok (x, t) -> forall fuel' best', generate sc fuel' best' t = Err OutOfFuel.
Proof.
  intros N B E fuel' best'. destruct (C71_moved _ _ _ _ _ _ E) as (L & _ & _). pose proof (C71_within _ _ _ _ _ _ _ B E) as X.
  unfold generate. rewrite rounds_stuck; [reflexivity|].
  intros i. replace (a_last _) with x; [exact (box_close box N _ _ (B i) X)|]. destruct (nlt _ _); cbn; congruence.
Qed.
Print Assumptions C71_narrow_never.
(** An ordinary box: a parameter between 1000000 and 1000001. *)
Definition sc2 : scipy := mkSc (fun n => ([if Nat.even n then 1000000 else 1000001]%Q, Fin 5, 3)) (fun n => ([1000000%Q], Fin 9, 1)) (fun i => false).
Example C71_narrow_met : let box := [(1000000, 1000001)]%Q in Forall narrow box /\
  (forall i, in_box box (fst (fst (chain sc2 i)))) /\ exists x t, generate sc2 20 (PInf, []) (anneal_init sc2 [0%Q] 0) = Ok (x, t).
Proof.
  cbv zeta. splits.
  - constructor; [|constructor]. right. cbn. split; lra.
  - intros i. split; [reflexivity|]. intros [|j] a lo hi; cbn; [|destruct j; discriminate].
    intros [= <-] [= <- <-]. destruct (Nat.even i); split; lra.
  - do 2 eexists. vm_compute. reflexivity.
Qed.
