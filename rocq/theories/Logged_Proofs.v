(** * What the manager's log says of each optimizer: proofs *)
From Verif Require Import Prelude Prelude_Proofs Logger_Model Logger_Spec Logger_Proofs Hunters_Model Hunters_Spec.
From Coq Require Import Lia.
Open Scope nat_scope.

(** [a] is obtained from [b] by leaving out elements. *)
Inductive sub {A} : list A -> list A -> Prop :=
| sub_nil : sub [] []
| sub_take x a b : sub a b -> sub (x :: a) (x :: b)
| sub_drop x a b : sub a b -> sub a (x :: b).
Lemma sub_none {A} (b : list A) : sub [] b.
Proof. induction b; constructor; assumption. Qed.
Lemma sub_app {A} (a b c d : list A) : sub a b -> sub c d -> sub (a ++ c) (b ++ d).
Proof. intros H1 H2. induction H1; cbn; try constructor; assumption. Qed.
Lemma sub_len {A} (a b : list A) : sub a b -> length a <= length b.
Proof. induction 1; cbn; lia. Qed.

Lemma own_app i a b : own i (a ++ b) = own i a ++ own i b.
Proof. apply filter_app. Qed.
Lemma own_none i acc (ids : list nat) : (forall r, In r acc -> In (ir_opt r) ids) -> ~ In i ids -> own i acc = [].
Proof.
  intros H Hn. unfold own. induction acc as [|r acc IH]; [reflexivity|]. cbn. destruct (Nat.eqb_spec (ir_opt r) i) as [E|_].
  - exfalso. apply Hn. rewrite <- E. apply H. left. reflexivity.
  - apply IH. intros x Hx. apply H. right. exact Hx.
Qed.

Definition xs_of (rs : list iterres) : list cell := map (fun r => CX (ir_x r)) rs.
Definition fs_of (rs : list iterres) : list cell := map (fun r => CF (ir_fx r)) rs.

Section Logged.
  (** How the recorded evaluations relate to the accepted ones. *)
  Context (R : list iterres -> list iterres -> Prop).

  Definition entry_ok (reg : list (nat * string)) (acc : list iterres) (i : nat) (e : entry) : Prop :=
    In i (map fst reg) /\ (exists ty, sget "opt_type" (e_meta e) = Some ty /\ In (i, ty) reg) /\
    ((e_cols e = [] /\ R [] (own i acc)) \/
     exists rs ids rest, R rs (own i acc) /\ e_cols e = ("call_id", ids) :: ("x", xs_of rs) :: ("fx", fs_of rs) :: rest)%string.
  Record LG (reg : list (nat * string)) (acc : list iterres) (l : logger) : Prop := mkLG {
    lg_addr : addr_ok l;
    lg_nodup : NoDup (dkeys (l_store l));
    lg_src : forall r, In r acc -> In (ir_opt r) (map fst reg);
    lg_best : forall i e, nget i (l_store l) = Some e -> exists a, nget i (l_bests l) = Some a;
    lg_store : forall i e, nget i (l_store l) = Some e -> entry_ok reg acc i e }.

  Lemma LG_reg reg reg' acc l : (forall p, In p reg -> In p reg') -> LG reg acc l -> LG reg' acc l.
  Proof.
    intros H []. assert (Hf : forall i, In i (map fst reg) -> In i (map fst reg')).
    { intros i Hi. apply in_map_iff in Hi as [p [<- Hp]]. apply in_map. auto. }
    split; auto. intros i e He. destruct (lg_store0 _ _ He) as (H1 & (ty & H2 & H3) & H4). split; [auto|]. split; [exists ty; auto|exact H4].
  Qed.
  (** Entries replaced without touching their columns or type, or left out. *)
  Lemma LG_core reg acc l l' : same_core l l' -> LG reg acc l -> NoDup (dkeys (l_store l')) ->
    (forall i e', nget i (l_store l') = Some e' -> exists e, nget i (l_store l) = Some e /\ e_cols e' = e_cols e /\
       sget "opt_type" (e_meta e') = sget "opt_type" (e_meta e)) -> LG reg acc l'.
  Proof.
    intros Hc [] Hn H. pose proof Hc as (_ & _ & Hb & _ & _). split; auto; [eapply addr_ok_core; eassumption| |].
    - intros i e' He. destruct (H _ _ He) as (e & He1 & _). rewrite <- Hb. eauto.
    - intros i e' He. destruct (H _ _ He) as (e & He1 & E1 & E2). unfold entry_ok. rewrite E1, E2. apply (lg_store0 _ _ He1).
  Qed.
  Lemma LG_meta reg acc i k v l : k <> "opt_type"%string -> LG reg acc l -> LG reg acc (snd (put_metadata i k v l)).
  Proof.
    intros Hk H. eapply LG_core; [apply core_meta|exact H| |]; unfold put_metadata; destruct (nget i (l_store l)) as [e|] eqn:E; cbn; eauto; try apply H.
    - apply NoDup_nset, H.
    - intros j e'. destruct (Nat.eq_dec j i) as [->|Hn].
      + rewrite nget_nset_same. intros [= <-]. exists e. splits; auto. cbn. rewrite sget_sset.
        destruct (String.eqb_spec "opt_type" k) as [<-|_]; [contradiction|reflexivity].
      + rewrite nget_nset_other by exact Hn. eauto.
  Qed.
  Lemma LG_msg reg acc i m l : LG reg acc l -> LG reg acc (snd (put_message i m l)).
  Proof.
    intros H. eapply LG_core; [apply core_msg|exact H| |]; unfold put_message; destruct (nget i (l_store l)) as [e|] eqn:E; cbn; eauto; try apply H.
    - apply NoDup_nset, H.
    - intros j e'. destruct (Nat.eq_dec j i) as [->|Hn].
      + rewrite nget_nset_same. intros [= <-]. exists e. splits; auto.
      + rewrite nget_nset_other by exact Hn. eauto.
  Qed.
  Lemma LG_clear reg acc o l : LG reg acc l -> LG reg acc (snd (clear_cache o l)).
  Proof.
    intros H. eapply LG_core; [apply core_clear|exact H| |]; unfold clear_cache; destruct (l_traj l); cbn; eauto; try apply H.
    - destruct o as [[|k]|]; cbn; try constructor. destruct (nget (S k) (l_store l)); unfold nmemd; destruct (nget _ _); cbn; try apply NoDup_ndel; apply H.
    - destruct o as [[|k]|]; cbn; try discriminate. destruct (nmemd (S k) (l_store l)); cbn; eauto.
      intros j e' He. destruct (Nat.eq_dec j (S k)) as [->|Hn].
      + rewrite nget_ndel_same in He by apply H. discriminate.
      + rewrite nget_ndel_other in He by exact Hn. eauto.
  Qed.
  Lemma LG_close reg acc l : LG reg acc l -> LG reg acc (snd (log_close l)).
  Proof. apply LG_clear. Qed.
  Lemma LG_add reg acc i ty t l : LG reg acc l -> In (i, ty) reg -> R [] (own i acc) -> LG reg acc (snd (add_optimizer i ty t l)).
  Proof.
    intros H Hi Hr. split; cbn.
    - apply (addr_ok_step (AddOpt i ty t)), H.
    - apply NoDup_nset, H.
    - apply H.
    - intros j e. destruct (Nat.eq_dec j i) as [->|Hn]; [rewrite !nget_nset_same; eauto|]. rewrite !nget_nset_other by exact Hn. apply H.
    - intros j e. destruct (Nat.eq_dec j i) as [->|Hn]; [rewrite !nget_nset_same|rewrite !nget_nset_other by exact Hn; apply H].
      intros [= <-]. unfold entry_ok. cbn. splits; eauto. change i with (fst (i, ty)). now apply in_map.
  Qed.
  Lemma reset_new hd : exists rest, reset_cols (["call_id"; "x"; "fx"]%string ++ hd) [] = (("call_id", []) :: ("x", []) :: ("fx", []) :: rest)%string.
  Proof.
    unfold reset_cols. rewrite fold_left_app. change (fold_left _ ["call_id"; "x"; "fx"]%string []) with ([("call_id", []); ("x", []); ("fx", [])]%string : list (string * list cell)).
    enough (Hg : forall rest, exists rest', fold_left (fun c k => sset k [] c) hd (("call_id", []) :: ("x", []) :: ("fx", []) :: rest)%string =
                   (("call_id", []) :: ("x", []) :: ("fx", []) :: rest')%string) by apply Hg.
    induction hd as [|k hd IH]; intro rest; [exists rest; reflexivity|]. cbn [fold_left].
    assert (Hs : exists rest', sset k [] (("call_id", []) :: ("x", []) :: ("fx", []) :: rest)%string = ((("call_id", []) :: ("x", []) :: ("fx", []) :: rest') : list (string * list cell))%string).
    { cbn. destruct (String.eqb k "call_id"); [eauto|]. destruct (String.eqb k "x"); [eauto|]. destruct (String.eqb k "fx"); eauto. }
    destruct Hs as [rest' ->]. apply IH.
  Qed.
  Lemma LG_hist reg acc i hd l : LG reg acc l -> has_iter_history i l = false -> LG reg acc (snd (add_iter_history i hd l)).
  Proof.
    intros H Hh. unfold add_iter_history. unfold has_iter_history in Hh. destruct (nget i (l_store l)) as [e|] eqn:E; [|exact H].
    destruct (lg_store _ _ _ H _ _ E) as (H1 & H2 & [[H3 H4]|(rs & ids & rest & _ & H3)]).
    - split; cbn; try apply H.
      + apply NoDup_nset, H.
      + intros j e' Hj. destruct (Nat.eq_dec j i) as [->|Hn]; [apply (lg_best _ _ _ H _ _ E)|]. rewrite nget_nset_other in Hj by exact Hn. apply (lg_best _ _ _ H _ _ Hj).
      + intros j e'. destruct (Nat.eq_dec j i) as [->|Hn]; [rewrite nget_nset_same|rewrite nget_nset_other by exact Hn; apply H].
        intros [= <-]. unfold entry_ok. cbn [e_meta e_cols]. splits; auto. right. destruct (reset_new hd) as [rest Hr]. rewrite H3. exists [], [], rest. split; [exact H4|exact Hr].
    - rewrite H3 in Hh. discriminate Hh.
  Qed.
  Lemma has_hist reg acc i hd l : LG reg acc l -> has_iter_history i l = false -> fst (add_iter_history i hd l) = Ok tt ->
    has_iter_history i (snd (add_iter_history i hd l)) = true.
  Proof.
    intros H Hh Ho. unfold add_iter_history in *. unfold has_iter_history in Hh. destruct (nget i (l_store l)) as [e|] eqn:E; [|discriminate].
    destruct (lg_store _ _ _ H _ _ E) as (_ & _ & [[H3 _]|(rs & ids & rest & _ & H3)]); [|rewrite H3 in Hh; discriminate].
    unfold has_iter_history. cbn [snd l_store set_store]. rewrite nget_nset_same. cbn [e_cols]. rewrite H3. destruct (reset_new hd) as [rest Hr]. rewrite Hr. reflexivity.
  Qed.
  Lemma LG_put reg acc r l : (forall a b x, R a b -> R (a ++ [x]) (b ++ [x])) -> LG reg acc l -> has_iter_history (ir_opt r) l = true ->
    LG reg (acc ++ [r]) (snd (put_iteration r l)).
  Proof.
    intros Hs H Hh. unfold has_iter_history in Hh. destruct (nget (ir_opt r) (l_store l)) as [e|] eqn:E; [|discriminate].
    destruct (lg_best _ _ _ H _ _ E) as [a Ha]. destruct (put_iteration_parts r l a (lg_addr _ _ _ H) Ha) as (l3 & -> & A1 & A2 & A3 & _ & _).
    destruct (lg_store _ _ _ H _ _ E) as (H1 & H2 & [[H3 _]|(rs & ids & rest & H4 & H3)]); [rewrite H3 in Hh; discriminate|].
    unfold put_row. rewrite A3, E. cbn [snd]. split; cbn [l_store set_store l_bests].
    - exact A1.
    - apply NoDup_nset, H.
    - intros x Hx. apply in_app_iff in Hx as [Hx|[<-|[]]]; [now apply (lg_src _ _ _ H)|exact H1].
    - change (forall i e0, nget i (nset (ir_opt r) (mkE (e_meta e) (e_msgs e) (zip_append (e_cols e) (CId (l_count l3) :: CX (ir_x r) :: CF (ir_fx r) :: map CF (ir_extras r)))) (l_store l)) = Some e0 -> exists a0, nget i (l_bests l3) = Some a0).
      rewrite A2. intros j e' Hj. destruct (Nat.eq_dec j (ir_opt r)) as [->|Hn]; [eauto|]. rewrite nget_nset_other in Hj by exact Hn. apply (lg_best _ _ _ H _ _ Hj).
    - intros j e'. destruct (Nat.eq_dec j (ir_opt r)) as [->|Hn]; [rewrite nget_nset_same|rewrite nget_nset_other by exact Hn].
      + intros [= <-]. unfold entry_ok. cbn [e_meta e_cols]. splits; auto. right. rewrite H3. cbn [zip_append].
        exists (rs ++ [r]), (ids ++ [CId (l_count l3)]), (zip_append rest (map CF (ir_extras r))). split.
        * rewrite own_app. unfold own at 2. cbn. rewrite Nat.eqb_refl. now apply Hs.
        * unfold xs_of, fs_of. rewrite !map_app. reflexivity.
      + intro Hj. destruct (lg_store _ _ _ H _ _ Hj) as (B1 & B2 & B3). unfold entry_ok. rewrite own_app. unfold own at 2 4. cbn.
        destruct (Nat.eqb_spec (ir_opt r) j) as [E0|_]; [congruence|]. rewrite app_nil_r. auto.
  Qed.
  Lemma LG_init traj : LG [] [] (log_init traj).
  Proof. split; cbn; [apply addr_ok_init|constructor|intros r []|discriminate|discriminate]. Qed.
  Lemma LG_acc reg acc acc' l : (forall r, In r acc' -> In (ir_opt r) (map fst reg)) -> (forall rs i, R rs (own i acc) -> R rs (own i acc')) ->
    LG reg acc l -> LG reg acc' l.
  Proof.
    intros H1 H2 []. split; auto. intros i e He. destruct (lg_store0 _ _ He) as (B1 & B2 & [[B3 B4]|(rs & ids & rest & B3 & B4)]); unfold entry_ok; splits; auto.
    right. exists rs, ids, rest. auto.
  Qed.
  (** What hunters see. *)
  Lemma LG_seen reg acc i l : LG reg acc l -> has_iter_history i l = true ->
    exists rs, R rs (own i acc) /\ recorded l i (map ir_x rs) (map ir_fx rs).
  Proof.
    intros H Hh. unfold recorded, get_history. rewrite Hh. unfold has_iter_history in Hh. destruct (nget i (l_store l)) as [e|] eqn:E; [|discriminate].
    destruct (lg_store _ _ _ H _ _ E) as (_ & _ & [[H3 _]|(rs & ids & rest & H4 & H3)]); [rewrite H3 in Hh; discriminate|].
    exists rs. split; [exact H4|]. rewrite H3. cbn. unfold xs_of, fs_of. rewrite !map_map. auto.
  Qed.
  Lemma LG_type reg acc i l ty : LG reg acc l -> get_metadata i "opt_type" l = Ok ty -> In (i, ty) reg.
  Proof.
    intros H Hg. unfold get_metadata in Hg. destruct (nget i (l_store l)) as [e|] eqn:E; [|discriminate].
    destruct (lg_store _ _ _ H _ _ E) as (_ & (ty' & H1 & H2) & _). rewrite H1 in Hg. injection Hg as <-. exact H2.
  Qed.
End Logged.
