From Verif Require Import Prelude Prelude_Proofs Options_Model Options_Spec.
Open Scope string_scope.
Open Scope list_scope.

Lemma sget_ddel {V} k k' (d : list (string * V)) : NoDup (map fst d) -> sget k (ddel String.eqb k' d) = if String.eqb k k' then None else sget k d.
Proof.
  induction d as [|[a v] d IH]; intros N; cbn; [now destruct (String.eqb k k')|]. inversion N as [|? ? N1 N2]; subst.
  destruct (String.eqb_spec k' a) as [->|D].
  - destruct (String.eqb_spec k a) as [->|]; [|reflexivity]. destruct (sget a d) eqn:E; [|reflexivity]. exfalso. apply N1.
    clear - E. induction d as [|[b w] d IH]; cbn in *; [discriminate|]. destruct (String.eqb_spec a b) as [->|]; [now left|right; auto].
  - cbn. rewrite IH by assumption. destruct (String.eqb_spec k a) as [->|]; [|reflexivity]. destruct (String.eqb_spec a k'); [congruence|reflexivity].
Qed.
Lemma ddel_sub {V} k (d : list (string * V)) a : In a (map fst (ddel String.eqb k d)) -> In a (map fst d).
Proof. induction d as [|[b v] d IH]; cbn; [auto|]. destruct (String.eqb k b); cbn; intuition. Qed.
Lemma ddel_nodup {V} k (d : list (string * V)) : NoDup (map fst d) -> NoDup (map fst (ddel String.eqb k d)).
Proof.
  induction d as [|[b v] d IH]; cbn; intros N; [constructor|]. inversion N as [|? ? N1 N2]; subst. destruct (String.eqb k b); [assumption|].
  cbn. constructor; [|auto]. intros I. apply N1. eapply ddel_sub, I.
Qed.

Section CMA.
Variable native : string -> bool.
Lemma sort_out_spec items : forall s c s' c', NoDup (map fst items) -> NoDup (map fst s) -> sort_out native items s c = (s', c') ->
  NoDup (map fst s') /\
  (forall k, sget k s' = if negb (native k) && match sget k items with Some _ => true | None => false end then None else sget k s) /\
  (forall k, sget k c' = if native k then sget k c else match sget k items with Some v => Some v | None => sget k c end).
Proof.
  induction items as [|[a v] items IH]; intros s c s' c' NI N E; cbn [sort_out] in E.
  - injection E as <- <-. splits; [assumption| |]; intros k; cbn; now destruct (native k).
  - inversion NI as [|? ? N1 N2]; subst. destruct (native a) eqn:Na.
    + destruct (IH _ _ _ _ N2 N E) as (A & B & C). splits; [assumption| |]; intros k; [rewrite B|rewrite C]; cbn;
        (destruct (String.eqb_spec k a) as [->|]; [now rewrite Na|reflexivity]).
    + destruct (IH _ _ _ _ N2 (ddel_nodup a s N) E) as (A & B & C). splits; [assumption| |]; intros k.
      * rewrite B, (sget_ddel k a s N). cbn. destruct (String.eqb_spec k a) as [->|]; [rewrite Na; cbn|reflexivity].
        now destruct (sget a items).
      * rewrite C, sget_sset. cbn. destruct (String.eqb_spec k a) as [->|]; [|reflexivity]. rewrite Na.
        assert (sget a items = None) as ->; [|reflexivity]. destruct (sget a items) eqn:Ea; [|reflexivity]. exfalso. apply N1.
        clear - Ea. induction items as [|[b w] d IH]; cbn in *; [discriminate|]. destruct (String.eqb_spec a b) as [->|]; [now left|right; auto].
Qed.
Variable extend : bool -> opts -> opts.
Definition plain (sampler : string) : Prop := sampler <> "vd" /\ sampler <> "vkd".
Lemma init_spec sampler user : NoDup (map fst user) -> plain sampler ->
  let c := cma_init native extend sampler user in
  c_popsize c = sget "popsize" user /\
  (exists custom, sget "vv" (c_settings c) = Some (ODict custom) /\ forall k, sget k custom = if native k then None else sget k user) /\
  sget "verbose" (c_settings c) = Some (OInt (-3)) /\
  sget "maxiter" (c_settings c) = Some match sget "maxiter" user with Some v => if native "maxiter" then v else OReal PInf | None => OReal PInf end /\
  (forall k, k <> "vv" -> k <> "verbose" -> k <> "maxiter" -> sget k (c_settings c) = if native k then sget k user else None).
Proof.
  intros N [P1 P2]. unfold cma_init. destruct (sort_out native user user []) as [s custom] eqn:E.
  destruct (sort_out_spec _ _ _ _ _ N N E) as (A & B & C). cbv zeta. rewrite (proj2 (String.eqb_neq sampler "vd") P1), (proj2 (String.eqb_neq sampler "vkd") P2).
  cbn [c_popsize c_settings].
  assert (G : forall k, k <> "vv" -> k <> "verbose" -> sget k s = if native k then sget k user else None).
  { intros k _ _. rewrite B. destruct (native k); cbn; [reflexivity|]. now destruct (sget k user). }
  unfold dmem. rewrite !sget_sset.
  change ("maxiter" =? "verbose") with false. change ("maxiter" =? "vv") with false. cbv iota. rewrite (G "maxiter") by discriminate.
  assert (V : forall k, sget k custom = if native k then None else sget k user).
  { intros k. rewrite C. cbn. destruct (native k); [reflexivity|]. now destruct (sget k user). }
  destruct (native "maxiter") eqn:Nm, (sget "maxiter" user) eqn:Um; rewrite ?sget_sset; splits; try reflexivity;
    try (exists custom; split; [reflexivity|exact V]);
    try (cbn [String.eqb]; rewrite (G "maxiter"), Nm, ?Um by discriminate; reflexivity);
    intros k K1 K2 K3; rewrite ?sget_sset; apply String.eqb_neq in K1, K2, K3; rewrite ?K1, ?K2, ?K3; apply String.eqb_neq in K1, K2; now apply G.
Qed.
Lemma performed_settings l : forall c, c_settings (performed c l) = c_settings c.
Proof.
  induction l as [|k l IH]; intros c; cbn [performed]; [reflexivity|]. rewrite IH. unfold perform, cma_minimize.
  destruct (nle _ _); [reflexivity|]. cbn. now destruct (match c_popsize c with Some v => _ | None => _ end).
Qed.
Lemma performed_popsize l : forall c v, c_popsize c = Some v -> truthy v = true -> c_popsize (performed c l) = Some v.
Proof.
  induction l as [|k l IH]; intros c v E T; cbn [performed]; [exact E|]. apply IH; [|exact T]. unfold perform, cma_minimize.
  destruct (nle _ _); [exact E|]. rewrite E, T. cbn. exact E.
Qed.
End CMA.
Lemma sget_app {V} k (a b : list (string * V)) : sget k (a ++ b) = match sget k a with Some v => Some v | None => sget k b end.
Proof. induction a as [|[x v] a IH]; cbn; [reflexivity|]. now destruct (String.eqb k x). Qed.
