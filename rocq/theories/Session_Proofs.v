From Verif Require Import Prelude_Proofs Session_Model Session_Spec.

Definition mapl (off : Z -> Z) (h : list (Z * Z)) : list Z * list Z := (map (fun p => local off (fst p)) h, map (fun p => local off (snd p)) h).

Lemma lengths_map off h : lengths (fst (mapl off h)) (snd (mapl off h)) = duration (map (fun p => (local off (fst p), local off (snd p))) h).
Proof. induction h as [|[s e] h IH]; cbn in *; [reflexivity|]. now rewrite IH. Qed.
Lemma duration_steady off h : steady off -> duration (map (fun p => (local off (fst p), local off (snd p))) h) = duration h.
Proof. intro S. induction h as [|[s e] h IH]; cbn; [reflexivity|]. rewrite IH. unfold local. rewrite (S s e). lia. Qed.
Lemma duration_app h s e : duration (h ++ [(s, e)]) = (duration h + (e - s))%Z.
Proof. induction h as [|[a b] h IH]; cbn; [lia|]. rewrite IH. lia. Qed.
Lemma set_last_app d l x : set_last d (l ++ [x]) = Ok (l ++ [d]).
Proof. induction l as [|a l IH]; cbn; [reflexivity|]. rewrite IH. destruct l; reflexivity. Qed.

(** The file holds the archived sessions; the manager the past ones and, if a session began, its start and possibly a
    preliminary end. *)
Definition held (off : Z -> Z) (h : list (Z * Z)) (t : times) : Prop := starts t = fst (mapl off h) /\ ends t = snd (mapl off h).
Definition agrees (off : Z -> Z) (d : diary) (w : world) : Prop :=
  match archived d, file w with None, None => True | Some h, Some f => held off h f | _, _ => False end /\
  t_used (cur w) = duration (map (fun p => (local off (fst p), local off (snd p))) (past d)) /\
  match now_in d with
  | Waiting => held off (past d) (cur w) /\ t_start (cur w) = None /\ t_end (cur w) = None
  | Running s m => t_start (cur w) = Some s /\ t_end (cur w) = m /\ starts (cur w) = fst (mapl off (past d)) ++ [local off s] /\
      (ends (cur w) = snd (mapl off (past d)) \/ exists x, ends (cur w) = snd (mapl off (past d)) ++ [x])
  | Over s e => t_start (cur w) = Some s /\ t_end (cur w) = Some e /\ held off (past d ++ [(s, e)]) (cur w)
  end.

Lemma mark_ok off h s t d : starts t = fst (mapl off h) ++ [local off s] ->
  (ends t = snd (mapl off h) \/ exists x, ends t = snd (mapl off h) ++ [x]) ->
  mark_end d t = Ok (mkT (starts t) (snd (mapl off h) ++ [d]) (t_start t) (t_end t) (t_used t)).
Proof.
  intros S [E|[x E]]; unfold mark_end; rewrite S, E.
  - rewrite app_length. cbn [fst snd mapl]. rewrite !map_length. cbn [length].
    destruct (Nat.eqb_spec (length h + 1) (length h)); [lia|reflexivity].
  - rewrite !app_length. cbn [fst snd mapl]. rewrite !map_length. rewrite Nat.eqb_refl, set_last_app. reflexivity.
Qed.
Lemma mapl_app off h s e : mapl off (h ++ [(s, e)]) = (fst (mapl off h) ++ [local off s], snd (mapl off h) ++ [local off e]).
Proof. unfold mapl. now rewrite !map_app. Qed.

Lemma agrees_step off e d d' w : proper e d = Some d' -> agrees off d w -> exists w', step off e w = Ok w' /\ agrees off d' w'.
Proof.
  intros P [F [U N]]. destruct e as [t|t|t|t|]; cbn [proper] in P.
  - destruct (now_in d); try discriminate. injection P as <-. destruct N as [[N1 N2] [N3 N4]].
    eexists. split; [reflexivity|]. split; [exact F|]. split; [exact U|]. unfold start. cbn [now_in past cur t_start t_end starts ends].
    splits; auto. now rewrite N1.
  - destruct (now_in d) as [|s m|]; try discriminate. injection P as <-. destruct N as [N1 [N2 [N3 N4]]].
    eexists. split; [reflexivity|]. split; [exact F|]. split; [exact U|]. unfold condition. cbn [now_in past cur t_start t_end starts ends].
    splits; auto.
  - destruct (now_in d) as [|s m|]; try discriminate. injection P as <-. destruct N as [N1 [N2 [N3 N4]]].
    cbn [step]. unfold finish. rewrite N2. 
    set (c := match m with Some c => c | None => t end).
    rewrite (mark_ok off (past d) s _ (local off c)) by assumption. eexists. split; [reflexivity|].
    split; [exact F|]. split; [exact U|]. cbn [now_in past cur t_start t_end starts ends]. splits; auto.
    unfold held. rewrite mapl_app. cbn [fst snd starts ends]. auto.
  - destruct (now_in d) as [|s m|] eqn:Q; try discriminate.
    + destruct (past d) eqn:Z; [|discriminate]. injection P as <-. destruct N as [[N1 N2] [N3 N4]]. cbn in N1, N2.
      cbn [step]. unfold stamp. rewrite N1. eexists. split; [reflexivity|].
      unfold agrees. cbn [archived file now_in past cur]. cbn in U. splits; auto; split; auto.
    + injection P as <-. destruct N as [N1 [N2 [N3 N4]]]. cbn [step]. unfold stamp.
      destruct (starts (cur w)) eqn:Z; [destruct (fst (mapl off (past d))); discriminate|]. rewrite <- Z in N3.
      rewrite (mark_ok off (past d) s _ (local off t) N3 N4). eexists. split; [reflexivity|].
      unfold agrees. cbn [archived file now_in past cur t_used t_start t_end starts ends]. splits; auto; [|eauto].
      unfold held. rewrite mapl_app. cbn [fst snd starts ends]. auto.
  - destruct (archived d) as [h|] eqn:A; [|destruct (now_in d); discriminate].
    assert (P' : d' = mkD h Waiting (Some h)) by (destruct (now_in d); injection P; auto). subst d'. clear P N.
    destruct (file w) as [f|] eqn:W; [|destruct F]. destruct F as [F1 F2]. cbn [step]. rewrite W. unfold restore. rewrite F1, F2.
    cbn [fst snd mapl]. rewrite !map_length, Nat.eqb_refl. eexists. split; [reflexivity|].
    unfold agrees. cbn [archived file now_in past cur t_used t_start t_end]. splits; auto; try (split; assumption).
    + apply lengths_map.
    + split; reflexivity.
Qed.
Lemma agrees_steps off l : forall d d' w, propers l d = Some d' -> agrees off d w -> exists w', steps off l w = Ok w' /\ agrees off d' w'.
Proof.
  induction l as [|e l IH]; intros d d' w P A; cbn in *.
  - injection P as <-. eauto.
  - destruct (proper e d) as [d1|] eqn:P1; [|discriminate]. destruct (agrees_step off e d d1 w P1 A) as [w1 [E1 A1]].
    rewrite E1. eauto.
Qed.
Lemma agrees_init off : agrees off opening init.
Proof. unfold agrees. cbn. splits; auto; split; reflexivity. Qed.
