(** * Settings reach the libraries (C84) *)
From Verif Require Import Prelude Prelude_Proofs Options_Model Options_Spec Options_Proofs.
Open Scope string_scope.
Open Scope list_scope.

(** ** CMA *)
(** In every call of minimize every option CMA knows, apart from five names, arrives as it was given, and nothing else does. *)
Theorem C84_options : forall native extend sampler user before k o c, NoDup (map fst user) -> sampler <> "vd" -> sampler <> "vkd" ->
  perform (performed (cma_init native extend sampler user) before) k = (Ok o, c) ->
  forall key, ~ In key reserved -> sget key o = if native key then sget key user else None.
Proof.
  intros native extend sampler user before k o c N P1 P2 E key R.
  destruct (init_spec native extend sampler user N (conj P1 P2)) as (_ & _ & _ & _ & G).
  unfold perform, cma_minimize in E. destruct (nle _ _); [discriminate|]. injection E as <- _. rewrite !sget_sset, !performed_settings.
  cbn [reserved In] in R. assert (D : forall s, In s reserved -> (key =? s)%string = false) by (intros s I; apply String.eqb_neq; intros ->; apply R; exact I).
  rewrite (D "bounds") by (cbn; tauto).
  destruct (match c_popsize _ with Some v => _ | None => _ end); rewrite ?sget_sset, ?performed_settings, ?(D "popsize") by (cbn; tauto);
    apply G; intros ->; apply R; cbn; tauto.
Qed.
Print Assumptions C84_options.
(** Everything CMA does not know arrives in 'vv', which holds nothing else. *)
Theorem C84_others : forall native extend sampler user before k o c, NoDup (map fst user) -> sampler <> "vd" -> sampler <> "vkd" ->
  perform (performed (cma_init native extend sampler user) before) k = (Ok o, c) ->
  exists custom, sget "vv" o = Some (ODict custom) /\ forall key, sget key custom = if native key then None else sget key user.
Proof.
  intros native extend sampler user before k o c N P1 P2 E.
  destruct (init_spec native extend sampler user N (conj P1 P2)) as (_ & (custom & G1 & G2) & _). exists custom. split; [|exact G2].
  unfold perform, cma_minimize in E. destruct (nle _ _); [discriminate|]. injection E as <- _. rewrite !sget_sset. cbn [String.eqb Ascii.eqb Bool.eqb].
  destruct (match c_popsize _ with Some v => _ | None => _ end); rewrite ?sget_sset, !performed_settings; exact G1.
Qed.
Print Assumptions C84_others.
(** The reserved names: bounds are those of the call, the log is silent, no limit of iterations unless given, and a given population
    size other than zero is the size in every call. *)
Theorem C84_reserved : forall native extend sampler user before k o c, NoDup (map fst user) -> sampler <> "vd" -> sampler <> "vkd" ->
  native "popsize" = true -> native "maxiter" = true ->
  perform (performed (cma_init native extend sampler user) before) k = (Ok o, c) ->
  sget "bounds" o = Some (OBounds (k_bounds k)) /\ sget "verbose" o = Some (OInt (-3)) /\
  sget "maxiter" o = Some match sget "maxiter" user with Some v => v | None => OReal PInf end /\
  (forall v, sget "popsize" user = Some v -> truthy v = true -> sget "popsize" o = Some v) /\
  (before = [] -> (forall v, sget "popsize" user = Some v -> truthy v = false) ->
     sget "popsize" o = Some (OInt (Z.of_nat (if Nat.ltb 1 (k_workers k) then k_workers k else k_auto k)))).
Proof.
  intros native extend sampler user before k o c N P1 P2 Np Nm E.
  destruct (init_spec native extend sampler user N (conj P1 P2)) as (Gp & _ & Gv & Gm & G). rewrite Nm in Gm.
  unfold perform, cma_minimize in E. destruct (nle _ _); [discriminate|].
  assert (Fp : forall v, sget "popsize" user = Some v -> truthy v = true -> c_popsize (performed (cma_init native extend sampler user) before) = Some v).
  { intros v U T. apply performed_popsize; [now rewrite Gp|exact T]. }
  destruct (match c_popsize (performed (cma_init native extend sampler user) before) with Some v => negb (truthy v) | None => true end) eqn:Ms;
    injection E as <- _; rewrite ?sget_sset, ?performed_settings; cbn [String.eqb Ascii.eqb Bool.eqb]; splits; try reflexivity; try assumption.
  - intros v U T. rewrite (Fp v U T), T in Ms. discriminate.
  - intros v U _. cbn [String.eqb Ascii.eqb Bool.eqb]. rewrite (G "popsize") by discriminate. now rewrite Np.
  - intros -> F. exfalso. cbn [performed] in Ms. rewrite Gp in Ms. destruct (sget "popsize" user) as [v|] eqn:U; [|discriminate].
    rewrite (F v eq_refl) in Ms. discriminate.
Qed.
Print Assumptions C84_reserved.
(** Only 'vd' and 'vkd' select a sampler; every other word means the full one, without a notice. *)
Theorem C84_sampler : forall native extend sampler user, sampler <> "vd" -> sampler <> "vkd" ->
  cma_init native extend sampler user = cma_init native extend "full" user.
Proof.
  intros native extend sampler user P1 P2. unfold cma_init. apply String.eqb_neq in P1, P2. rewrite P1, P2. reflexivity.
Qed.
Print Assumptions C84_sampler.

Definition ex_native (k : string) : bool := existsb (String.eqb k) ["popsize"; "maxiter"; "timeout"; "vv"; "verbose"; "bounds"; "CMA_sampler"].
Definition ex_extend (vd : bool) (o : opts) : opts := sset "CMA_sampler" (OObj (if vd then 1 else 2)) o.
Definition ex_user : opts := [("timeout", OInt 60); ("tolfrob", OInt 5); ("popsize", OInt 8)].
Definition ex_call : call := mkCall 2 6 (Fin 1) [(Fin 0, Fin 1)].
(** Two calls: a known option, an unknown one, the size. *)
Example C84_met : NoDup (map fst ex_user) /\ match perform (performed (cma_init ex_native ex_extend "full" ex_user) [ex_call]) ex_call with
  | (Ok o, _) => sget "timeout" o = Some (OInt 60) /\ sget "vv" o = Some (ODict [("tolfrob", OInt 5)]) /\ sget "tolfrob" o = None /\
                 sget "popsize" o = Some (OInt 8) /\ sget "maxiter" o = Some (OReal PInf)
  | _ => False end.
Proof. split; [cbn; repeat constructor; cbn; intuition congruence|vm_compute; repeat split]. Qed.
(** The name of the sampler in the documentation is not understood. *)
Theorem C84_sampler_refuted : exists native extend user, cma_init native extend "GaussVDSampler" user = cma_init native extend "full" user /\
  cma_init native extend "vd" user <> cma_init native extend "full" user.
Proof. exists ex_native, ex_extend, ex_user. split; [reflexivity|]. vm_compute. discriminate. Qed.
Print Assumptions C84_sampler_refuted.
(** An option 'vv' of CMA's own is lost. *)
Theorem C84_vv_refuted : exists native extend user k o c v, native "vv" = true /\ NoDup (map fst user) /\ sget "vv" user = Some v /\
  perform (cma_init native extend "full" user) k = (Ok o, c) /\ sget "vv" o = Some (ODict []).
Proof.
  exists ex_native, ex_extend, [("vv", ODict [("hack", OInt 1)])], ex_call. eexists _, _, _. splits; try reflexivity.
  cbn. repeat constructor. cbn. auto.
Qed.
Print Assumptions C84_vv_refuted.
(** The size chosen for the pool is not that of a second call: then CMA's own default applies. *)
Theorem C84_size_refuted : exists native extend user k o c o' c', NoDup (map fst user) /\
  perform (cma_init native extend "full" user) k = (Ok o, c) /\ sget "popsize" o = Some (OInt 2) /\ perform c k = (Ok o', c') /\ sget "popsize" o' = None.
Proof.
  exists ex_native, ex_extend, [], ex_call. eexists _, _, _, _. splits; try reflexivity. constructor.
Qed.
Print Assumptions C84_size_refuted.

(** ** GFLS *)
Theorem C84_gfls : forall user bounds k, sget k (gfls_minimize bounds (gfls_init user)) =
  if String.eqb k "bounds" then Some (OBounds bounds)
  else match sget k user with Some v => Some v | None => if String.eqb k "tr_max" then Some (OReal (Fin (1 # 2))) else None end.
Proof.
  intros user bounds k. unfold gfls_minimize, gfls_init. rewrite sget_sset. destruct (String.eqb k "bounds"); [reflexivity|]. unfold dmem.
  destruct (sget "tr_max" user) eqn:E.
  - destruct (sget k user) eqn:F; [reflexivity|]. destruct (String.eqb_spec k "tr_max"); [congruence|reflexivity].
  - rewrite sget_sset. destruct (String.eqb_spec k "tr_max") as [->|]; [now rewrite E|]. now destruct (sget k user).
Qed.
Print Assumptions C84_gfls.

(** ** scipy *)
(** A call that is accepted gets the user's keywords, the bounds (but not basinhopping) and the name of the method of minimize. *)
Theorem C84_scipy : forall name accepts method x0 cb bounds kw o, sp_keywords name accepts method x0 cb bounds kw = Ok o ->
  sget "x0" o = Some (OObj x0) /\ sget "callback" o = Some (OObj cb) /\
  (sp_function method <> Basinhopping -> sget "bounds" o = Some (OBounds bounds)) /\
  (sp_function method = Minimize -> sget "method" o = Some (OObj (name method))) /\
  (forall k, ~ In k ["x0"; "callback"; "bounds"; "method"] -> sget k o = sget k kw) /\
  (forall k, sget k o <> None -> accepts (sp_function method) k = true).
Proof.
  intros name accepts method x0 cb bounds kw o E. unfold sp_keywords in E.
  set (kw' := if is_minimize _ then _ else _) in E. destruct (smemd "x0" kw' || smemd "callback" kw') eqn:T; [discriminate|].
  destruct (forallb _ _) eqn:F; [|discriminate]. injection E as <-. apply Bool.orb_false_iff in T as [T1 T2]. unfold dmem in T1, T2.
  assert (X : sget "x0" kw' = None) by (destruct (sget "x0" kw'); [discriminate|reflexivity]).
  assert (C : sget "callback" kw' = None) by (destruct (sget "callback" kw'); [discriminate|reflexivity]).
  splits.
  - now rewrite sget_app, X.
  - now rewrite sget_app, C.
  - intros NB. rewrite sget_app. assert (sget "bounds" kw' = Some (OBounds bounds)) as ->; [|reflexivity].
    unfold kw'. destruct (sp_function method); [congruence|..]; cbn [is_minimize is_basinhopping]; rewrite ?sget_sset; reflexivity.
  - intros M. rewrite sget_app. unfold kw'. rewrite M. cbn [is_minimize is_basinhopping]. rewrite sget_sset. reflexivity.
  - intros k R. rewrite sget_app. assert (D : forall s, In s ["x0"; "callback"; "bounds"; "method"] -> (k =? s)%string = false) by (intros s I; apply String.eqb_neq; intros ->; exact (R I)).
    assert (sget k kw' = sget k kw) as ->.
    { unfold kw'. destruct (sp_function method); cbn [is_minimize is_basinhopping]; rewrite ?sget_sset, ?(D "bounds"), ?(D "method") by (cbn; tauto); reflexivity. }
    cbn [dget]. rewrite (D "x0"), (D "callback") by (cbn; tauto). now destruct (sget k kw).
  - intros k K. rewrite forallb_forall in F. destruct (sget k (kw' ++ _)) as [v|] eqn:G; [|congruence].
    apply (F (k, v)). clear - G. revert G. generalize (kw' ++ [("x0", OObj x0); ("callback", OObj cb)]). intros l. induction l as [|[a w] l IH]; cbn; [discriminate|].
    destruct (String.eqb_spec k a) as [->|]; [intros [= <-]; now left|auto].
Qed.
Print Assumptions C84_scipy.
(** shgo has no x0: it cannot be run at all. *)
Theorem C84_shgo_raises : forall name accepts x0 cb bounds kw, accepts Shgo "x0" = false -> sp_keywords name accepts "shgo" x0 cb bounds kw = Err TypeError.
Proof.
  intros name accepts x0 cb bounds kw A. unfold sp_keywords. cbn [sp_function String.eqb Ascii.eqb Bool.eqb is_basinhopping is_minimize].
  destruct (_ || _); [reflexivity|]. rewrite forallb_app. cbn [forallb fst]. rewrite A. cbn. now rewrite Bool.andb_false_r.
Qed.
Print Assumptions C84_shgo_raises.
(** basinhopping is never told the bounds. *)
Theorem C84_basinhopping_never : forall name accepts x0 cb bounds kw o, sget "bounds" kw = None ->
  sp_keywords name accepts "basinhopping" x0 cb bounds kw = Ok o -> sget "bounds" o = None.
Proof.
  intros name accepts x0 cb bounds kw o B E. unfold sp_keywords in E. cbn [sp_function String.eqb Ascii.eqb Bool.eqb is_basinhopping is_minimize] in E.
  destruct (_ || _); [discriminate|]. destruct (forallb _ _); [|discriminate]. injection E as <-. rewrite sget_app, B. reflexivity.
Qed.
Print Assumptions C84_basinhopping_never.
Definition ex_accepts (f : spfun) (k : string) : bool :=
  existsb (String.eqb k) match f with
    | Basinhopping => ["x0"; "niter"; "T"; "callback"; "minimizer_kwargs"] | Dual_annealing => ["bounds"; "maxiter"; "callback"; "x0"]
    | Shgo => ["bounds"; "callback"; "options"] | Differential_evolution => ["bounds"; "popsize"; "callback"; "x0"]
    | Minimize => ["x0"; "method"; "bounds"; "tol"; "callback"; "options"] end.
Example C84_scipy_met : exists o o', sp_keywords String.length ex_accepts "Nelder-Mead" 1 2 [(Fin 0, Fin 1)] [("tol", OReal (Fin 1))] = Ok o /\
  sp_keywords String.length ex_accepts "basinhopping" 1 2 [(Fin 0, Fin 1)] [("niter", OInt 5)] = Ok o' /\ sget "bounds" o' = None /\ ex_accepts Shgo "x0" = false.
Proof. eexists _, _. vm_compute. repeat split. Qed.

(** ** Nevergrad *)
Theorem C84_nevergrad : forall registry takes optimizer workers n kw o, ng_init registry optimizer workers = Ok n -> ng_minimize takes n kw = Ok o ->
  sget "num_workers" o = Some (OInt (Z.of_nat match registry optimizer with Some true => 1 | _ => workers end)) /\
  (forall k, k <> "num_workers" -> sget k o = sget k kw).
Proof.
  intros registry takes optimizer workers n kw o I E. unfold ng_minimize in E.
  destruct (smemd "num_workers" kw) eqn:W; [now rewrite !Bool.orb_true_r in E|]. unfold dmem in W.
  destruct (_ || _); [discriminate|]. injection E as <-. assert (N : sget "num_workers" kw = None) by (destruct (sget "num_workers" kw); [discriminate|reflexivity]).
  split.
  - rewrite sget_app, N. cbn. unfold ng_init in I. now destruct (registry optimizer) as [[|]|]; inversion I.
  - intros k K. rewrite sget_app. destruct (sget k kw); [reflexivity|]. cbn. now rewrite (proj2 (String.eqb_neq _ _) K).
Qed.
Print Assumptions C84_nevergrad.
Example C84_nevergrad_met : exists o, ng_init (fun s => if String.eqb s "OnePlusOne" then Some true else None) "OnePlusOne" 4 = Ok 1%nat /\
  ng_minimize (fun _ => true) 1 [] = Ok o /\ sget "num_workers" o = Some (OInt 1).
Proof. eexists. repeat split. Qed.

(** ** What else the wrappers decide *)
(** The two samplers get the complete settings of the full one, and no others; neither changes the size. *)
Theorem C84_samplers : forall native extend user, NoDup (map fst user) ->
  c_settings (cma_init native extend "vd" user) = extend true (c_settings (cma_init native extend "full" user)) /\
  c_settings (cma_init native extend "vkd" user) = extend false (c_settings (cma_init native extend "full" user)) /\
  c_popsize (cma_init native extend "vd" user) = sget "popsize" user /\ c_popsize (cma_init native extend "vkd" user) = sget "popsize" user.
Proof. intros native extend user _. unfold cma_init. destruct (sort_out native user user []) as [s c]. splits; reflexivity. Qed.
Print Assumptions C84_samplers.
(** A size of zero, whole or not, counts as missing in every first call. *)
Theorem C84_zero_size : forall native extend sampler user k o c, NoDup (map fst user) -> sampler <> "vd" -> sampler <> "vkd" -> (1 < k_workers k)%nat ->
  sget "popsize" user = Some (OInt 0) \/ sget "popsize" user = Some (OReal (Fin 0)) ->
  perform (cma_init native extend sampler user) k = (Ok o, c) -> sget "popsize" o = Some (OInt (Z.of_nat (k_workers k))).
Proof.
  intros native extend sampler user k o c N P1 P2 W Z E.
  destruct (init_spec native extend sampler user N (conj P1 P2)) as (Gp & _). unfold perform, cma_minimize in E.
  destruct (nle _ _); [discriminate|]. rewrite Gp in E. apply Nat.ltb_lt in W. rewrite W in E.
  destruct Z as [Z|Z]; rewrite Z in E; cbn in E; injection E as <- _; rewrite !sget_sset; reflexivity.
Qed.
Print Assumptions C84_zero_size.
(** A width that is not positive is refused whatever the settings, and changes nothing. *)
Theorem C84_width_raises : forall c k, nle (k_sigma k) (Fin 0) = true -> perform c k = (Err ValueError, c).
Proof. intros c k H. unfold perform, cma_minimize. now rewrite H. Qed.
Print Assumptions C84_width_raises.
(** The four names that do not mean minimize, each its own function. *)
Theorem C84_scipy_function : forall method,
  (sp_function method = Basinhopping <-> method = "basinhopping") /\ (sp_function method = Dual_annealing <-> method = "dual_annealing") /\
  (sp_function method = Shgo <-> method = "shgo") /\ (sp_function method = Differential_evolution <-> method = "differential_evolution").
Proof.
  intros method. unfold sp_function.
  destruct (String.eqb_spec method "basinhopping") as [->|A]; [splits; split; intros; try reflexivity; discriminate|].
  destruct (String.eqb_spec method "dual_annealing") as [->|B]; [splits; split; intros; try reflexivity; discriminate|].
  destruct (String.eqb_spec method "shgo") as [->|C]; [splits; split; intros; try reflexivity; discriminate|].
  destruct (String.eqb_spec method "differential_evolution") as [->|D]; splits; split; intros; congruence.
Qed.
Print Assumptions C84_scipy_function.
(** Exactly when scipy accepts the call; otherwise TypeError. *)
Theorem C84_scipy_raises : forall name accepts method x0 cb bounds kw,
  let f := sp_function method in
  (exists o, sp_keywords name accepts method x0 cb bounds kw = Ok o) <->
  sget "x0" kw = None /\ sget "callback" kw = None /\ accepts f "x0" = true /\ accepts f "callback" = true /\
  (f <> Basinhopping -> accepts f "bounds" = true) /\ (f = Minimize -> accepts f "method" = true) /\
  (forall k v, In (k, v) kw -> accepts f k = true).
Proof.
  intros name accepts method x0 cb bounds kw f. unfold sp_keywords. fold f.
  set (kw' := if is_minimize f then _ else _).
  assert (A : forall p, In p kw' -> In p kw \/ (fst p = "bounds" /\ f <> Basinhopping) \/ (fst p = "method" /\ f = Minimize)).
  { intros p I. assert (S : forall k (v : oval) d, In p (sset k v d) -> fst p = k \/ In p d).
    { clear. intros k v d. induction d as [|[a w] d IH]; cbn; [intros [<-|[]]; now left|]. destruct (String.eqb_spec k a) as [->|]; cbn; intros [<-|I]; auto.
      destruct (IH I); auto. }
    unfold kw' in I. destruct f; cbn [is_minimize is_basinhopping] in I; repeat (apply S in I as [I|I]); auto;
      right; try (left; split; [exact I|discriminate]); right; now split. }
  assert (C : forall k, sget k kw' = if (negb (is_basinhopping f) && String.eqb k "bounds") then Some (OBounds bounds)
             else if is_minimize f && String.eqb k "method" then Some (OObj (name method)) else sget k kw).
  { intros k. unfold kw'. destruct f; cbn [is_minimize is_basinhopping negb andb]; rewrite ?sget_sset; try reflexivity.
    destruct (String.eqb_spec k "method") as [->|]; reflexivity. }
  assert (S : forall (d : opts) k v, sget k d = Some v -> In (k, v) d).
  { clear. intros d k v. induction d as [|[a w] d IH]; cbn; [discriminate|]. destruct (String.eqb_spec k a) as [->|]; [intros [= <-]; now left|right; auto]. }
  assert (M : forall k (d : opts), In k (map fst d) -> sget k d <> None).
  { clear. intros k d. induction d as [|[a w] d IH]; cbn; [auto|]. destruct (String.eqb_spec k a); [discriminate|]. intros [->|I]; [congruence|auto]. }
  unfold dmem. rewrite !C. cbn [String.eqb Ascii.eqb Bool.eqb]. rewrite !Bool.andb_false_r.
  split.
  - intros [o E]. destruct (sget "x0" kw); [discriminate|]. destruct (sget "callback" kw); [discriminate|]. cbn [orb] in E.
    destruct (forallb _ _) eqn:F; [|discriminate]. rewrite forallb_forall in F.
    assert (G : forall k v, sget k kw' = Some v -> accepts f k = true).
    { intros k v K. apply (F (k, v)). apply in_or_app. left. apply S, K. }
    splits; try reflexivity.
    + apply (F ("x0", OObj x0)). apply in_or_app. right. now left.
    + apply (F ("callback", OObj cb)). apply in_or_app. right. right. now left.
    + intros NB. apply (G "bounds" (OBounds bounds)). rewrite C. cbn. destruct f; try reflexivity. congruence.
    + intros Mn. apply (G "method" (OObj (name method))). rewrite C. rewrite Mn. reflexivity.
    + intros k v I. pose proof (C k) as Ck. destruct (sget k kw') as [u|] eqn:K; [exact (G k u K)|]. exfalso.
      apply (M k kw); [apply in_map_iff; now exists (k, v)|]. destruct (negb _ && _); [discriminate|]. destruct (is_minimize f && _); [discriminate|]. now symmetry.
  - intros (-> & -> & X & Y & Bd & Mt & K). cbn [orb].
    assert (forallb (fun p : string * oval => accepts f (fst p)) (kw' ++ [("x0", OObj x0); ("callback", OObj cb)]) = true) as ->; [|eauto].
    apply forallb_forall. intros [k v] I. apply in_app_or in I as [I|[[= <- _]|[[= <- _]|[]]]]; [|exact X|exact Y].
    destruct (A _ I) as [J|[[J J']|[J J']]]; cbn in *; [exact (K _ _ J)|subst k; exact (Bd J')|subst k; exact (Mt J')].
Qed.
Print Assumptions C84_scipy_raises.
(** Nevergrad: an unknown algorithm, a name decided by the wrapper or one the algorithm does not have, and nothing else, is refused. *)
Theorem C84_nevergrad_raises : forall registry takes optimizer workers kw,
  (ng_init registry optimizer workers = Err KeyError <-> registry optimizer = None) /\
  ((exists o, ng_minimize takes workers kw = Ok o) <->
     sget "parametrization" kw = None /\ sget "budget" kw = None /\ sget "num_workers" kw = None /\ forall k v, In (k, v) kw -> takes k = true) /\
  (forall e, ng_minimize takes workers kw = Err e -> e = TypeError).
Proof.
  intros registry takes optimizer workers kw. splits.
  - unfold ng_init. now destruct (registry optimizer) as [[|]|].
  - unfold ng_minimize, dmem. destruct (sget "parametrization" kw); cbn [orb]; [split; [intros [z E]; discriminate|intros (A & _); discriminate]|].
    destruct (sget "budget" kw); cbn [orb]; [split; [intros [z E]; discriminate|intros (_ & A & _); discriminate]|].
    destruct (sget "num_workers" kw); cbn [orb]; [split; [intros [z E]; discriminate|intros (_ & _ & A & _); discriminate]|].
    destruct (forallb (fun p : string * oval => takes (fst p)) kw) eqn:F; cbn [negb].
    + rewrite forallb_forall in F. split; [|eauto]. intros _. splits; try reflexivity. intros k v I. exact (F _ I).
    + split; [intros [z E]; discriminate|]. intros (_ & _ & _ & A). exfalso. apply Bool.not_true_iff_false in F. apply F, forallb_forall.
      intros [k v] I. exact (A k v I).
  - unfold ng_minimize. intros e E. destruct (_ || _); now inversion E.
Qed.
Print Assumptions C84_nevergrad_raises.
Example C84_zero_size_met : NoDup (map fst [("popsize", OInt 0)]) /\ exists o c, perform (cma_init ex_native ex_extend "full" [("popsize", OInt 0)]) ex_call = (Ok o, c) /\
  sget "popsize" o = Some (OInt 2) /\ perform c (mkCall 2 6 (Fin 0) []) = (Err ValueError, c).
Proof. split; [cbn; repeat constructor; cbn; auto|]. eexists _, _. vm_compute. repeat split. Qed.
Example C84_raises_met : sp_keywords String.length ex_accepts "Nelder-Mead" 1 2 [] [("sigma", OInt 1)] = Err TypeError /\
  sp_keywords String.length ex_accepts "Nelder-Mead" 1 2 [] [("callback", OInt 1)] = Err TypeError /\
  ng_minimize (fun _ => true) 1 [("budget", OInt 10)] = Err TypeError /\ ng_minimize (fun _ => false) 1 [("sigma", OInt 10)] = Err TypeError /\
  ng_init (fun _ => None) "Nothing" 4 = Err KeyError.
Proof. repeat split. Qed.
