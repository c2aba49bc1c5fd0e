From Verif Require Import Prelude Prelude_Proofs Finish_Model Finish_Spec.
From Coq Require Import Lia.

(** ** The loop *)
Lemma loop_quiet rs : forall rest reason m, Forall quiet rs -> exists a, loop (rs ++ rest) reason m = loop rest reason (set_result a m) /\
  (rs = [] -> a = g_result m).
Proof.
  induction rs as [|r rs IH]; intros rest reason m Q.
  - exists (g_result m). split; [|reflexivity]. destruct m. reflexivity.
  - inversion Q as [|? ? (Q1 & Q2 & Q3 & Q4) QS]; subst. cbn. rewrite Q1, Q2, Q3. cbn.
    replace (rd_dead r && negb (rd_spawn r)) with false.
    + destruct (IH rest reason (set_result (rd_best r) m) QS) as (a & E & _). exists a. rewrite E. split; [reflexivity|discriminate].
    + destruct (rd_dead r), (rd_spawn r); cbn; try reflexivity. now destruct Q4.
Qed.

Lemma loop_end rs : forall reason m, Forall quiet rs -> fst (loop rs reason m) = Still.
Proof.
  intros reason m Q. destruct (loop_quiet rs [] reason m Q) as (a & E & _). rewrite app_nil_r in E. now rewrite E.
Qed.

Inductive shape : list round -> Prop :=
  | Sh_quiet rs : Forall quiet rs -> shape rs
  | Sh_throws rs r tl e : Forall quiet rs -> throws r e -> shape (rs ++ r :: tl)
  | Sh_ends rs r tl w : Forall quiet rs -> ends_by r w -> shape (rs ++ r :: tl).
Lemma round_cases r : quiet r \/ (exists e, throws r e) \/ (exists w, ends_by r w).
Proof.
  destruct (rd_work r) as [e|] eqn:W; [right; left; exists e; now apply T_work|].
  destruct (rd_check r) as [c|e] eqn:C; [|right; left; exists e; now apply T_check].
  destruct (rd_rest r) as [e|] eqn:R; [right; left; exists e; now apply T_rest with c|].
  destruct c; [right; right; exists (ByChecker (rd_text r)); now apply B_checker|].
  destruct (rd_dead r) eqn:D; [|left; repeat split; auto; intros [? ?]; congruence].
  destruct (rd_spawn r) eqn:S; [left; repeat split; auto; intros [? ?]; congruence|].
  right; right. exists Dead. now apply B_dead.
Qed.
Lemma shapes rs : shape rs.
Proof.
  induction rs as [|r rs IH]; [now apply Sh_quiet|].
  destruct (round_cases r) as [Q|[[e T]|[w B]]].
  - inversion IH as [? H|? ? tl e H1 H2|? ? tl w H1 H2]; subst; [apply Sh_quiet|rewrite app_comm_cons; eapply Sh_throws|
      rewrite app_comm_cons; eapply Sh_ends]; eauto.
  - now apply (Sh_throws [] r rs e).
  - now apply (Sh_ends [] r rs w).
Qed.

(** What never changes in the loop and in the body. *)
Definition same (m n : mgr) : Prop := g_init n = g_init m /\ g_open n = g_open m /\ g_summary n = g_summary m /\
  g_ends n = g_ends m /\ g_yaml n = g_yaml m /\ g_h5 n = g_h5 m.
Lemma same_refl m : same m m. Proof. unfold same. tauto. Qed.
Lemma same_trans a b c : same a b -> same b c -> same a c.
Proof. unfold same. intuition congruence. Qed.

Lemma loop_same rs : forall reason m, same m (snd (loop rs reason m)) /\ g_starts (snd (loop rs reason m)) = g_starts m /\
  g_stops (snd (loop rs reason m)) = g_stops m.
Proof.
  induction rs as [|r rs IH]; intros reason m; [cbn; split; [apply same_refl|now split]|]. cbn.
  assert (X : forall b, let n := if b : bool then set_t_end (Some (rd_time r)) (set_result (rd_best r) m) else set_result (rd_best r) m in
            same m n /\ g_starts n = g_starts m /\ g_stops n = g_stops m) by (intros []; repeat split).
  destruct (rd_work r); [exact (X false)|].
  destruct (rd_check r) as [c|e]; [|exact (X false)].
  specialize (X c). cbv zeta in X.
  destruct (rd_rest r); [exact X|]. destruct (c || _); [exact X|].
  destruct (IH (if c then rd_text r else reason) (if c then set_t_end (Some (rd_time r)) (set_result (rd_best r) m) else set_result (rd_best r) m))
    as (S1 & S2 & S3).
  destruct X as (X1 & X2 & X3). splits; [eapply same_trans; eauto|congruence..].
Qed.

Lemma ends_loop r tl w reason m : ends_by r w -> exists n,
  loop (r :: tl) reason m = (Left (match w with ByChecker t => t | _ => reason end), n) /\ g_result n = rd_best r.
Proof.
  intros B. inversion B as [W C R E|W C R D S E]; subst; cbn; rewrite W, C, R; cbn; [|rewrite D, S; cbn]; eexists; split; reflexivity.
Qed.
Lemma throws_loop r tl e reason m : throws r e -> exists reason' n, loop (r :: tl) reason m = (Threw e reason', n) /\
  g_result n = rd_best r.
Proof.
  intros T. inversion T as [W|W C|c W C R]; subst; cbn; rewrite ?W, ?C, ?R; do 2 eexists; (split; [reflexivity|]); try reflexivity.
  now destruct c.
Qed.

(** The body of the try against the story. *)
Definition left_of (reason : string) (w : why) (l : left_by) : Prop :=
  match w with
  | ByChecker t => l = Left t
  | Dead => l = Left reason
  | Stopped e => exists reason', l = Threw e reason'
  end.
Lemma body_story ev w reason m : story ev w -> left_of reason w (fst (body ev reason m)).
Proof.
  intros S. unfold body.
  inversion S as [e B E|e B R E|rs r tl e B R L Q T E|rs r tl w' e B R L Q T A E|rs r tl w' B R L Q T A1 A2 E]; subst; rewrite B; cbn.
  - now exists reason.
  - rewrite R. cbn. now exists reason.
  - rewrite R, L. destruct (loop_quiet rs (r :: tl) reason (set_starts (g_starts m ++ [e_start ev]) m) Q) as (a & -> & _).
    destruct (throws_loop r tl e reason (set_result a (set_starts (g_starts m ++ [e_start ev]) m)) T) as (s & n & -> & _). cbn. now exists s.
  - rewrite R, L. destruct (loop_quiet rs (r :: tl) reason (set_starts (g_starts m ++ [e_start ev]) m) Q) as (a & -> & _).
    destruct (ends_loop r tl w' reason (set_result a (set_starts (g_starts m ++ [e_start ev]) m)) T) as (n & -> & _).
    destruct A as [A|[A1 A2]]; [rewrite A|rewrite A1, A2]; cbn; eexists; reflexivity.
  - rewrite R, L. destruct (loop_quiet rs (r :: tl) reason (set_starts (g_starts m ++ [e_start ev]) m) Q) as (a & -> & _).
    destruct (ends_loop r tl w reason (set_result a (set_starts (g_starts m ++ [e_start ev]) m)) T) as (n & -> & _).
    rewrite A1, A2. cbn. inversion T; reflexivity.
Qed.

Lemma body_best ev reason m rs r tl : e_begin ev = None -> e_restart ev = None -> e_rounds ev = rs ++ r :: tl -> Forall quiet rs ->
  ~ quiet r -> g_result (snd (body ev reason m)) = rd_best r.
Proof.
  intros B R L Q N. unfold body. rewrite B, R, L.
  destruct (loop_quiet rs (r :: tl) reason (set_starts (g_starts m ++ [e_start ev]) m) Q) as (a & -> & _).
  destruct (round_cases r) as [QR|[[e T]|[w T]]]; [contradiction| |].
  - destruct (throws_loop r tl e reason (set_result a (set_starts (g_starts m ++ [e_start ev]) m)) T) as (s & n & -> & <-). reflexivity.
  - destruct (ends_loop r tl w reason (set_result a (set_starts (g_starts m ++ [e_start ev]) m)) T) as (n & -> & <-).
    destruct (e_leave ev); [reflexivity|]. destruct (e_stop ev); reflexivity.
Qed.

Lemma body_same ev reason m : same m (snd (body ev reason m)) /\
  g_starts (snd (body ev reason m)) = (match e_begin ev with Some _ => g_starts m | None => g_starts m ++ [e_start ev] end).
Proof.
  unfold body. destruct (e_begin ev); [split; [apply same_refl|reflexivity]|].
  destruct (e_restart ev); [split; [repeat split|reflexivity]|].
  destruct (loop_same (e_rounds ev) reason (set_starts (g_starts m ++ [e_start ev]) m)) as (S1 & S2 & S3).
  destruct (loop (e_rounds ev) reason _) as [[re|e re|] n]; cbn in *; [|split; [exact S1|exact S2]..].
  destruct (e_leave ev); [split; [exact S1|exact S2]|]. destruct (e_stop ev); (split; [exact S1|exact S2]).
Qed.

(** How the body and the stops go together: every way out except SystemExit stops the children. *)
Lemma body_stops ev reason m : match fst (body ev reason m) with Left _ => g_stops (snd (body ev reason m)) = g_stops m ++ [None] | _ => True end.
Proof.
  unfold body. destruct (e_begin ev); [exact I|]. destruct (e_restart ev); [exact I|].
  destruct (loop_same (e_rounds ev) reason (set_starts (g_starts m ++ [e_start ev]) m)) as (S1 & S2 & S3).
  destruct (loop (e_rounds ev) reason _) as [[re|e re|] n]; cbn in *; [|exact I..].
  destruct (e_leave ev); [exact I|]. destruct (e_stop ev); [exact I|]. cbn. now rewrite S3.
Qed.

(** The rest: every body either has a story or is still running. *)
Lemma body_cases ev : (exists w, story ev w) \/ (Forall quiet (e_rounds ev) /\ e_begin ev = None /\ e_restart ev = None).
Proof.
  destruct (e_begin ev) as [e|] eqn:B; [left; exists (Stopped e); now apply S_begin|].
  destruct (e_restart ev) as [e|] eqn:R; [left; exists (Stopped e); now apply S_restart|].
  remember (e_rounds ev) as rs eqn:E. destruct (shapes rs) as [rs Q|rs r tl e Q T|rs r tl w Q T]; [right; auto|left; eexists; eapply S_round; eauto|].
  left. destruct (e_leave ev) as [e|] eqn:L; [eexists; eapply S_after; eauto|].
  destruct (e_stop ev) as [e|] eqn:S; [eexists; eapply S_after; eauto|]. eexists; eapply S_end; eauto.
Qed.
Lemma body_running ev reason m : Forall quiet (e_rounds ev) -> e_begin ev = None -> e_restart ev = None -> fst (body ev reason m) = Still.
Proof.
  intros Q B R. unfold body. rewrite B, R. pose proof (loop_end (e_rounds ev) reason (set_starts (g_starts m ++ [e_start ev]) m) Q) as L.
  destruct (loop (e_rounds ev) reason _) as [l n]. cbn in L. now subst.
Qed.

(** ** The finally block *)
Lemma replace_last_length {A} (l : list A) a : length (replace_last l a) = length l.
Proof. induction l as [|b [|c l] IH]; try reflexivity. cbn in *. now rewrite IH. Qed.

Lemma finally_tidy ev reason caught m : tidy ev -> length (g_starts m) = S (length (g_ends m)) -> exists n,
  finally ev reason caught m = (Returns (g_result n), n) /\ an_cond (g_result n) = Some reason /\ an_fx (g_result n) = an_fx (g_result m) /\
  (an_x (g_result m) <> Some [] -> an_x (g_result n) = an_x (g_result m)) /\
  g_open n = false /\ g_stops n = g_stops m /\ g_starts n = g_starts m /\
  (exists t, g_t_end n = Some t /\ g_ends n = g_ends m ++ [t] /\ (forall t', g_t_end m = Some t' -> t = t')) /\
  g_yaml n = (if Nat.ltb 0 (g_summary m) then Some (recorded_reason reason caught) else g_yaml m) /\
  g_h5 n = (if Nat.ltb 2 (g_summary m) then Some (recorded_reason reason caught) else g_h5 m).
Proof.
  intros (T1 & T2 & T3 & T4) L. unfold finally. cbn. rewrite L. rewrite (proj2 (Nat.eqb_neq _ _)) by lia.
  rewrite T1, T2, T3, T4. replace (match caught with Some _ => None | None => None end) with (@None bexn) by now destruct caught.
  match goal with |- exists n, (Returns _, ?u) = _ /\ _ => exists u end. split; [reflexivity|]. cbn. splits; try reflexivity.
  - intros H. destruct (an_x (g_result m)) as [[|]|]; [now destruct H|reflexivity..].
  - eexists. splits; [reflexivity..|]. intros t' ->. reflexivity.
Qed.

(** What the reason given by the pre-check is. *)
Lemma start_entered ev m : entered ev m -> start_manager ev m = guarded ev nobody (set_open true m).
Proof.
  intros (I & (c & P & C) & E1 & E2). unfold start_manager. rewrite I, P, C. cbn. now rewrite E1, E2.
Qed.

Definition caught_of (w : why) : option string :=
  match w with Stopped Interrupt => Some "User Interrupt"%string | Stopped (Exc t) => Some t | _ => None end.
Lemma body_stops_grow ev reason m : length (g_stops m) <= length (g_stops (snd (body ev reason m))).
Proof.
  unfold body. destruct (e_begin ev); [reflexivity|]. destruct (e_restart ev); [reflexivity|].
  destruct (loop_same (e_rounds ev) reason (set_starts (g_starts m ++ [e_start ev]) m)) as (S1 & S2 & S3).
  destruct (loop (e_rounds ev) reason _) as [[re|e re|] n]; cbn in *; [|rewrite S3; reflexivity..].
  destruct (e_leave ev); [cbn; rewrite S3; reflexivity|].
  destruct (e_stop ev); cbn; rewrite app_length, S3; lia.
Qed.
Lemma guarded_story ev reason m w : story ev w -> w <> Stopped Exit -> exists k,
  guarded ev reason m = finally ev (match w with Dead => reason | _ => says w end) (caught_of w) k /\ same m k /\
  g_starts k = g_starts (snd (body ev reason m)) /\ g_result k = g_result (snd (body ev reason m)) /\ length (g_stops m) < length (g_stops k) /\
  g_t_end k = g_t_end (snd (body ev reason m)).
Proof.
  intros S NE. pose proof (body_story ev w reason m S) as L. pose proof (body_stops ev reason m) as ST.
  pose proof (body_stops_grow ev reason m) as SG. destruct (body_same ev reason m) as [SM _].
  unfold guarded. destruct (body ev reason m) as [l k]. cbn in *.
  destruct w as [t| |[| |t]]; cbn in L; [subst l|subst l| |now destruct NE|].
  - exists k. splits; try reflexivity; [exact SM|rewrite ST, app_length; cbn; lia].
  - exists k. splits; try reflexivity; [exact SM|rewrite ST, app_length; cbn; lia].
  - destruct L as [r' ->]. eexists. split; [reflexivity|]. cbn. splits; try reflexivity; [exact SM|rewrite app_length; cbn; lia].
  - destruct L as [r' ->]. eexists. split; [reflexivity|]. cbn. splits; try reflexivity; [exact SM|rewrite app_length; cbn; lia].
Qed.
