(** * C28-C30: selectors *)
From Verif Require Import Prelude Prelude_Proofs Selectors_Model Selectors_Spec Selectors_Proofs.

Definition ex_A := mkConf "A" 1 [] [].
Definition ex_B := mkConf "B" 3 [] [].
Definition ex_C := mkConf "C" 2 [] [].
Definition ex_avail := [ex_A; ex_B; ex_C].

(** C28: whatever is offered fits, is one of the configured optimizers and is allowed. *)
Theorem C28_fits : forall sp avail v slots c,
  (forall s s', cycle_select sp avail v slots s = (Ok (SOpt c), s') -> In c avail /\ cf_workers c <= slots /\ allow sp v = true) /\
  (forall d, random_select sp avail v slots d = Ok (SOpt c) -> In c avail /\ cf_workers c <= slots /\ allow sp v = true) /\
  (forall th t t', chain_select sp avail th v slots t = (Ok (SOpt c), t') -> In c avail /\ cf_workers c <= slots /\ allow sp v = true).
Proof.
  intros sp avail v slots c. splits; intros.
  - eapply cycle_fits; eassumption.
  - eapply random_fits; eassumption.
  - eapply chain_fits; eassumption.
Qed.
Print Assumptions C28_fits.

Example C28_fits_ex :
  fst (cycle_select AlwaysSpawn ex_avail (mkSV 0 0) 3 (mkCy 0 0)) = Ok (SOpt ex_B) /\
  random_select AlwaysSpawn ex_avail (mkSV 0 0) 2 7 = Ok (SOpt ex_C) /\
  fst (chain_select AlwaysSpawn ex_avail [10; 20]%Q (mkSV 10 0) 3 0) = Ok (SOpt ex_B).
Proof. repeat split. Qed.

(** C28: without permission to spawn the answer is False and the selector does not move. *)
Theorem C28_forbidden : forall sp avail v slots, allow sp v = false ->
  (forall s, cycle_select sp avail v slots s = (Ok SFalse, s)) /\
  (forall d, random_select sp avail v slots d = Ok SFalse) /\
  (forall th t, chain_select sp avail th v slots t = (Ok SFalse, t)).
Proof. intros sp avail v slots H. unfold cycle_select, random_select, chain_select. rewrite H. auto. Qed.
Print Assumptions C28_forbidden.

Example C28_forbidden_ex :
  allow (IterSpawnStop 100) (mkSV 100 3) = false /\ allow (IterSpawnStop 100) (mkSV 99 3) = true /\
  allow (NOptimizersSpawnStop 3) (mkSV 5 3) = false /\ allow (NOptimizersSpawnStop 3) (mkSV 5 2) = true.
Proof. repeat split. Qed.

(** C28: spawn control by evaluations or by optimizers, once closed, stays closed. *)
Theorem C28_forbidden_forever : forall sp v w, match sp with AnySpawn _ => False | _ => True end ->
  sv_f v <= sv_f w -> sv_o v <= sv_o w -> allow sp v = false -> allow sp w = false.
Proof.
  intros [|n|n|f] v w Hs Hf Ho; cbn; try contradiction; auto.
  - destruct (Z.leb_spec n (Z.of_nat (sv_f v))), (Z.leb_spec n (Z.of_nat (sv_f w))); try lia; auto.
  - destruct (Z.leb_spec n (Z.of_nat (sv_o v))), (Z.leb_spec n (Z.of_nat (sv_o w))); try lia; auto.
Qed.
Print Assumptions C28_forbidden_forever.

Example C28_forbidden_forever_ex : allow (IterSpawnStop 100) (mkSV 100 3) = false /\ 100 <= 120 /\ allow (IterSpawnStop 100) (mkSV 120 4) = false.
Proof. repeat split. lia. Qed.

(** C28: None when nothing fits (cycle and random; the chain is C28_chain_none). *)
Theorem C28_none : forall sp avail v slots, allow sp v = true -> avail <> [] -> (forall c, In c avail -> slots < cf_workers c) ->
  (forall s, cy_ok avail s -> fst (cycle_select sp avail v slots s) = Ok SNone /\ cy_i (snd (cycle_select sp avail v slots s)) = cy_i s) /\
  (forall d, random_select sp avail v slots d = Ok SNone).
Proof.
  intros sp avail v slots Ha Hne Hno. split.
  - intros s Hok. destruct (cycle_step sp avail v slots s Hne Hok) as [[H _]|[_ [c [Hc [[_ E]|[Hle _]]]]]].
    + congruence.
    + rewrite E. auto.
    + apply nth_error_In in Hc. specialize (Hno c Hc). lia.
  - intro d. destruct (random_total sp avail v slots d) as [r [E [_ [H _]]]]. rewrite E, H; auto.
Qed.
Print Assumptions C28_none.

Example C28_none_ex : fst (cycle_select AlwaysSpawn ex_avail (mkSV 0 0) 0 cycle_init) = Ok SNone /\ random_select AlwaysSpawn ex_avail (mkSV 0 0) 0 5 = Ok SNone.
Proof. split; reflexivity. Qed.

Theorem C28_chain_none : forall sp avail th v slots t, length th < length avail -> t <= length th -> allow sp v = true ->
  (forall c, In c avail -> slots < cf_workers c) ->
  fst (chain_select sp avail th v slots t) = Ok SNone.
Proof.
  intros sp avail th v slots t Hlen Ht Ha Hno. unfold chain_select. rewrite Ha. cbn [negb].
  set (t1 := match nth_error th t with Some _ => _ | None => _ end).
  assert (Ht1 : t1 <= length th).
  { subst t1. destruct (nth_error th t) eqn:E; [|exact Ht]. assert (t < length th) by (apply nth_error_Some; congruence).
    destruct (Qle_bool q _); lia. }
  destruct (nth_error avail t1) as [c|] eqn:E; [|apply nth_error_None in E; lia].
  apply nth_error_In in E. specialize (Hno c E). apply Nat.ltb_lt in Hno. rewrite Hno. reflexivity.
Qed.
Print Assumptions C28_chain_none.

Example C28_chain_none_ex : fst (chain_select AlwaysSpawn [ex_B; ex_C] [10]%Q (mkSV 12 0) 1 0) = Ok SNone.
Proof. reflexivity. Qed.

(** RandomSelector answers None only if nothing fits ... *)
Theorem C28_random_none_only : forall sp avail v slots d, random_select sp avail v slots d = Ok SNone ->
  forall c, In c avail -> slots < cf_workers c.
Proof. exact random_none. Qed.
Print Assumptions C28_random_none_only.

Example C28_random_none_only_ex : random_select AlwaysSpawn [ex_B; ex_C] (mkSV 0 0) 1 0 = Ok SNone.
Proof. reflexivity. Qed.

(** ... whereas the base class documents this for all selectors and CycleSelector answers None although the next
    but one would fit. *)
Theorem C28_none_only_refuted : exists avail v slots s c,
  cy_ok avail s /\ In c avail /\ cf_workers c <= slots /\ fst (cycle_select AlwaysSpawn avail v slots s) = Ok SNone.
Proof.
  exists ex_avail, (mkSV 0 1), 2, (mkCy 0 (-1)), ex_C. splits; [split; discriminate || reflexivity| cbn; auto| cbn; lia| vm_compute; reflexivity].
Qed.
Print Assumptions C28_none_only_refuted.

(** C29: the k-th optimizer handed out is number k modulo n, whatever requests failed in between. *)
Theorem C29_cyclic : forall sp avail reqs k c, avail <> [] ->
  nth_error (given (cycle_run sp avail reqs cycle_init)) k = Some c ->
  nth_error avail (Nat.modulo k (length avail)) = Some c.
Proof.
  intros sp avail reqs k c Hne H.
  apply (cycle_order sp avail reqs Hne cycle_init) in H; [exact H|]. unfold cy_ok. cbn. lia.
Qed.
Print Assumptions C29_cyclic.

Example C29_cyclic_ex :
  map cf_class (given (cycle_run (NOptimizersSpawnStop 9) ex_avail
    [(mkSV 0 0, 1); (mkSV 0 1, 2); (mkSV 0 1, 3); (mkSV 0 9, 3); (mkSV 0 2, 2); (mkSV 0 3, 1); (mkSV 0 4, 3)] cycle_init)) = ["A"; "B"; "C"; "A"; "B"]%string.
Proof. reflexivity. Qed.

(** C29: a request which returns nothing leaves the position. *)
Theorem C29_no_advance : forall sp avail v slots s s' r, avail <> [] -> cy_ok avail s ->
  cycle_select sp avail v slots s = (r, s') -> (forall c, r <> Ok (SOpt c)) -> cy_i s' = cy_i s /\ (r = Ok SNone \/ r = Ok SFalse).
Proof.
  intros sp avail v slots s s' r Hne Hok H Hr.
  destruct (cycle_step sp avail v slots s Hne Hok) as [[_ E]|[_ [c [_ [[_ E]|[_ [o E]]]]]]]; rewrite E in H; injection H as <- <-; auto.
  destruct (Hr c). reflexivity.
Qed.
Print Assumptions C29_no_advance.

Example C29_no_advance_ex : cycle_select AlwaysSpawn ex_avail (mkSV 0 1) 2 (mkCy 0 (-1)) = (Ok SNone, mkCy 0 0).
Proof. reflexivity. Qed.

(** C30: holds as long as the counter passes at most one threshold between two requests and the thresholds are one
    fewer than the optimizers (an index beyond the optimizers is an IndexError). *)
Theorem C30_chain_partial : forall avail th reqs, ascending th -> gentle th 0 reqs -> reached th 0 = 0 ->
  forall k v slots, nth_error reqs k = Some (v, slots) ->
  nth_error (chain_run AlwaysSpawn avail th reqs 0) k =
    Some (match nth_error avail (reached th (sv_f v)) with
          | None => Err IndexError
          | Some c => if Nat.ltb slots (cf_workers c) then Ok SNone else Ok (SOpt c)
          end).
Proof. intros avail th reqs Ha Hg H0 k v slots Hk. rewrite <- H0. apply chain_gentle; assumption. Qed.
Print Assumptions C30_chain_partial.

Example C30_chain_ex :
  let reqs := [(mkSV 0 0, 3); (mkSV 9 1, 3); (mkSV 12 2, 1); (mkSV 19 2, 3); (mkSV 25 3, 2)] in
  ascending [10; 20]%Q /\ gentle [10; 20]%Q 0 reqs /\ reached [10; 20]%Q 0 = 0 /\
  chain_run AlwaysSpawn ex_avail [10; 20]%Q reqs 0 = [Ok (SOpt ex_A); Ok (SOpt ex_A); Ok SNone; Ok (SOpt ex_B); Ok (SOpt ex_C)].
Proof. cbn. splits; auto; try lia; discriminate. Qed.

(** C30 refuted: passing two thresholds between requests hands out the type before last. *)
Theorem C30_jump_refuted : exists avail th v slots c,
  length th + 1 = length avail /\ ascending th /\ chain_make avail th = Ok 0 /\
  chain_run AlwaysSpawn avail th [(v, slots)] 0 = [Ok (SOpt c)] /\ nth_error avail (reached th (sv_f v)) <> Some c.
Proof.
  exists ex_avail, [10; 20]%Q, (mkSV 30 0), 3, ex_B. vm_compute. splits; auto; discriminate.
Qed.
Print Assumptions C30_jump_refuted.

(** C30 refuted: with n thresholds the selector raises IndexError instead of ending the spawning. *)
Theorem C30_stop_refuted : exists avail th v w slots,
  length th = length avail /\ ascending th /\ chain_make avail th = Ok 0 /\ gentle th 0 [(v, slots); (w, slots)] /\
  chain_run AlwaysSpawn avail th [(v, slots); (w, slots)] 0 = [Ok (SOpt ex_C); Err IndexError].
Proof.
  exists [ex_A; ex_C], [10; 20]%Q, (mkSV 10 0), (mkSV 20 1), 3. cbn. splits; auto; try lia; discriminate.
Qed.
Print Assumptions C30_stop_refuted.

(** Construction: exactly optimizer classes and triples starting with one are accepted; a configuration without a
    'workers' entry gets one worker. *)
Theorem C28_parse : forall it c, parse_item it = Ok c <->
  (exists cls, it = IClass true cls /\ c = mkConf cls 1 [] []) \/
  (exists cls init call, it = ITriple (Some (true, cls)) init call /\ cf_class c = cls /\
     cf_workers c = match init with Some (Some n, _) => n | _ => 1 end /\
     cf_init c = match init with Some (_, d) => d | None => [] end /\
     cf_call c = match call with Some d => d | None => [] end).
Proof.
  intros it c. split.
  - destruct it as [[] cls|[[[] cls]|] init call|]; cbn; try discriminate.
    + intros [= <-]. left. eauto.
    + destruct init as [[[w|] d]|]; intros [= <-]; right; do 3 eexists; splits; reflexivity.
  - intros [[cls [-> ->]]|[cls [init [call [-> H]]]]]; [reflexivity|]. destruct c; cbn in *.
    destruct H as [-> [-> [-> ->]]]. destruct init as [[[w|] d]|]; reflexivity.
Qed.
Print Assumptions C28_parse.

Example C28_parse_ex : parse_items [IClass true "A"; ITriple (Some (true, "B")) (Some (Some 3, [("x", "7")]))%string None] =
  Ok [ex_A; mkConf "B" 3 [("x", "7")]%string []].
Proof. reflexivity. Qed.
