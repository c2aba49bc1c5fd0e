(** * C61: Session times add up over checkpoints *)
From Verif Require Import Prelude_Proofs Session_Model Session_Spec Session_Proofs.

(** In every proper use no step fails and t_used is the true duration of the earlier sessions, each up to the checkpoint the
    run was continued from.  Missing: a change of the local clock within a session. *)
Theorem C61_used_partial off l d : steady off -> propers l opening = Some d ->
  exists w, steps off l init = Ok w /\ t_used (cur w) = duration (past d).
Proof.
  intros S P. destruct (agrees_steps off l opening d init P (agrees_init off)) as [w [E [_ [U _]]]].
  exists w. split; [exact E|]. rewrite U. now apply duration_steady.
Qed.
Print Assumptions C61_used_partial.

(** In every proper use MaxSeconds measures the running session, and together with t_used all sessions. *)
Theorem C61_clock_partial off l d s m now : steady off -> propers l opening = Some d -> now_in d = Running s m ->
  exists w, steps off l init = Ok w /\ clock false now (cur w) = (now - s)%Z /\ clock true now (cur w) = (duration (past d ++ [(s, now)])).
Proof.
  intros S P R. destruct (agrees_steps off l opening d init P (agrees_init off)) as [w [E [_ [U N]]]]. rewrite R in N. destruct N as [N _].
  exists w. splits; [exact E|..]; unfold clock; rewrite N; [lia|]. rewrite U, duration_app, (duration_steady off _ S). lia.
Qed.
Print Assumptions C61_clock_partial.

(** MaxSeconds is met when the running session, or all sessions together, have lasted for its limit. *)
Theorem C61_limit_partial off l d s m now limit : steady off -> propers l opening = Some d -> now_in d = Running s m ->
  exists w, steps off l init = Ok w /\ (max_seconds false limit now (cur w) = true <-> (limit <= now - s)%Z) /\
  (max_seconds true limit now (cur w) = true <-> (limit <= duration (past d) + (now - s))%Z).
Proof.
  intros S P R. destruct (C61_clock_partial off l d s m now S P R) as [w [E [A B]]]. exists w. unfold max_seconds. rewrite A, B, duration_app. cbn [duration].
  splits; [exact E|..]; rewrite Z.leb_le; split; intro H; lia.
Qed.
Print Assumptions C61_limit_partial.

(** The summary written at the end of a session gives the session from its start to the moment the condition was met, and
    the sum over all sessions. *)
Theorem C61_summary_partial off l d s e : steady off -> propers l opening = Some d -> now_in d = Over s e ->
  exists w, steps off l init = Ok w /\ summary_session (cur w) = Some (e - s)%Z /\ summary_total (cur w) = duration (past d ++ [(s, e)]).
Proof.
  intros S P R. destruct (agrees_steps off l opening d init P (agrees_init off)) as [w [E [_ [U N]]]]. rewrite R in N. destruct N as [N1 [N2 [N3 N4]]].
  exists w. splits; [exact E|..].
  - unfold summary_session. now rewrite N1, N2.
  - unfold summary_total. rewrite N3, N4, lengths_map. now apply duration_steady.
Qed.
Print Assumptions C61_summary_partial.

(** Two sessions of which the first continued after its checkpoint for ten seconds that do not count. *)
Definition two_sessions : list event :=
  [ECheckpoint 90; EStart 100; ECheckpoint 120; ECheckpoint 150; ECondition 158; EEnd 160; ELoad; EStart 1000; ECheckpoint 1010; ECondition 1030; EEnd 1031].
Example C61_met : propers two_sessions opening = Some (mkD [(100, 150)] (Over 1000 1030) (Some [(100, 150); (1000, 1010)]))%Z /\
  match steps (fun _ => 3600%Z) two_sessions init with
  | Ok w => t_used (cur w) = 50%Z /\ summary_session (cur w) = Some 30%Z /\ summary_total (cur w) = 80%Z
  | Err _ => False
  end /\ propers (firstn 9 two_sessions) opening = Some (mkD [(100, 150)] (Running 1000 None) (Some [(100, 150); (1000, 1010)]))%Z.
Proof. splits; vm_compute; auto. Qed.

(** A checkpoint after the end of a session replaces the end by the time of the checkpoint: the time in between counts as
    used. *)
Theorem C61_after_end_refuted : exists l w, steps (fun _ => 0%Z) l init = Ok w /\ l = [EStart 100; EEnd 150; ECheckpoint 5000; ELoad]%Z /\ t_used (cur w) = 4900%Z.
Proof. do 2 eexists. splits; [|reflexivity|]; vm_compute; reflexivity. Qed.
Print Assumptions C61_after_end_refuted.
(** So does one made between loading and starting. *)
Theorem C61_before_start_refuted : exists l w, steps (fun _ => 0%Z) l init = Ok w /\
  l = [EStart 100; ECheckpoint 150; EEnd 160; ELoad; ECheckpoint 9000; ELoad]%Z /\ t_used (cur w) = 8900%Z.
Proof. do 2 eexists. splits; [|reflexivity|]; vm_compute; reflexivity. Qed.
Print Assumptions C61_before_start_refuted.
(** Starting the same manager again (after an interrupt, say) keeps the end of the first session: the second one has a negative
    duration, and MaxSeconds does not count the first. *)
Theorem C61_second_start_refuted : exists l w, steps (fun _ => 0%Z) l init = Ok w /\ l = [EStart 100; EEnd 150; EStart 200; EEnd 290]%Z /\
  summary_session (cur w) = Some (-50)%Z /\ summary_total (cur w) = 0%Z /\ clock true 290 (cur w) = 90%Z.
Proof. do 2 eexists. splits; [|reflexivity|..]; vm_compute; reflexivity. Qed.
Print Assumptions C61_second_start_refuted.
(** The time stamps are local times without zone: a session over the end of summer time loses (in spring, gains) an hour. *)
Theorem C61_summer_time_refuted : exists off l d w, propers l opening = Some d /\ steps off l init = Ok w /\
  past d = [(1000, 2000)]%Z /\ t_used (cur w) = (-2600)%Z.
Proof.
  exists (fun t => if Z.ltb t 1500 then 7200 else 3600)%Z, [EStart 1000; ECheckpoint 2000; ELoad]%Z. do 2 eexists. splits; vm_compute; reflexivity.
Qed.
Print Assumptions C61_summer_time_refuted.
