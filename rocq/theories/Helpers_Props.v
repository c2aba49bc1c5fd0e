(** * C43, C45, C46 *)
From Coq Require Import Ascii Lqa Permutation.
From Verif Require Import Prelude Prelude_Proofs Core_Model Helpers_Model Helpers_Spec Helpers_Proofs.

(** ** C43: bounds are accepted exactly when usable *)
Theorem C43_accepted_iff : forall bounds raise_invalid, is_bounds_valid bounds raise_invalid = Ok true <-> Forall usable_bound bounds.
Proof. exact valid_iff. Qed.
Print Assumptions C43_accepted_iff.
Theorem C43_refused : forall bounds raise_invalid, ~ Forall usable_bound bounds ->
  is_bounds_valid bounds raise_invalid = if raise_invalid then Err ValueError else Ok false.
Proof. intros l r H. destruct (valid_cases l r) as [E|E]; [|exact E]. apply valid_iff in E. contradiction. Qed.
Print Assumptions C43_refused.
Example C43_met : is_bounds_valid [(Fin 0, Fin 1); (Fin (-(3)), Fin (1 # 2))] true = Ok true /\
  is_bounds_valid [(Fin 0, Fin 1); (Fin 2, Fin 2)] false = Ok false /\ is_bounds_valid [(NaN, Fin 1)] true = Err ValueError /\
  is_bounds_valid [(Fin 0, PInf)] false = Ok false /\ is_bounds_valid [(Fin 0, NaN)] false = Ok false.
Proof. vm_compute. auto. Qed.

(** ** C45: rolling_min *)
Theorem C45_running_minimum : forall x y, rolling_min x = Ok y ->
  exists l, x = map Some l /\ length y = length l /\ forall i v, nth_error y i = Some v -> smallest_of_first (S i) l v.
Proof.
  intros x y. unfold rolling_min. destruct (numbers x) as [l|] eqn:E; [|discriminate]. apply numbers_some in E as ->.
  destruct (existsb nnan l) eqn:En; [discriminate|]. intro H. injection H as <-. exists l. split; [reflexivity|].
  assert (F : Forall (fun v => nnan v = false) l) by (apply Forall_forall; intros v Hv; apply not_true_iff_false; intro X; assert (existsb nnan l = true) by (apply existsb_exists; eauto); congruence).
  destruct l as [|a l]; [split; [reflexivity| intros [|i] v; discriminate]|]. inversion F as [|? ? Ha Fl]; subst. split; [cbn; rewrite rolling_length; reflexivity|].
  intros [|i] v Ev; cbn [nth_error] in Ev.
  - injection Ev as <-. split; [left; reflexivity|]. intros w [<-|[]]. apply nle_refl. exact Ha.
  - assert (Hs : forall w, In w [a] -> nle a w = true) by (intros w [<-|[]]; apply nle_refl; exact Ha).
    destruct (rolling_spec l a [a] Ha Fl (or_introl eq_refl) Hs i v Ev) as [R1 R2]. unfold smallest_of_first. change (firstn (S (S i)) (a :: l)) with ([a] ++ firstn (S i) l). auto.
Qed.
Print Assumptions C45_running_minimum.
Theorem C45_accepts_numbers : forall x, (exists y, rolling_min x = Ok y) <-> exists l, x = map Some l /\ ~ In NaN l.
Proof.
  intro x. unfold rolling_min. split.
  - intros [y H]. destruct (numbers x) as [l|] eqn:E; [|discriminate]. apply numbers_some in E. destruct (existsb nnan l) eqn:En; [discriminate|].
    exists l. split; [exact E|]. intro X. assert (existsb nnan l = true) by (apply existsb_exists; exists NaN; auto). congruence.
  - intros [l [-> H]]. pose proof (proj2 (numbers_some (map Some l) l) eq_refl) as ->. destruct (existsb nnan l) eqn:En; [|eauto].
    apply existsb_exists in En as [v [Hv En]]. destruct v; try discriminate. contradiction.
Qed.
Print Assumptions C45_accepts_numbers.
Example C45_met : rolling_min [Some (Fin 3); Some PInf; Some (Fin 5); Some (Fin 2); Some (Fin 3); Some NInf] = Ok [Fin 3; Fin 3; Fin 3; Fin 2; Fin 2; NInf]
  /\ rolling_min [Some (Fin 3); Some NaN] = Err AssertionError /\ rolling_min [] = Ok [].
Proof. vm_compute. auto. Qed.

(** ** C46: unravel *)
(** All leaves and nothing else, in the order of their positions. *)
Theorem C46_unravel : forall o, proper o -> exists ps ys, unravel o = (ys, None) /\
  Forall2 (fun p y => at_path o p = Some y /\ is_leaf y = true) ps ys /\ ordered ps /\
  forall p y, at_path o p = Some y -> is_leaf y = true -> In p ps.
Proof. intros o H. destruct (unravel_ok o H) as [ps [ys [E [F [O C]]]]]. exists ps, ys. auto. Qed.
Print Assumptions C46_unravel.
Example C46_unravel_met :
  let o := OIter [OAtom 0; OIter [OAtom 1] None; OIter [OStr "ab"; OAtom 3; OIter [OAtom 4; OIter [] None; OIter [] (Some TypeError)] None] None] None in
  proper o /\ unravel o = ([OAtom 0; OAtom 1; OStr "ab"; OAtom 3; OAtom 4; OIter [] (Some TypeError)], None).
Proof. split; [|reflexivity]. repeat first [apply proper_leaf; reflexivity| apply proper_iter| apply Forall_nil| apply Forall_cons]. Qed.
(** Finding: an iterator which fails with TypeError after some items leaves out the rest and adds the object itself. *)
Theorem C46_unravel_refuted : exists o l, o = OIter l (Some TypeError) /\ l <> [] /\ unravel o = (l ++ [o], None).
Proof. exists (OIter [OAtom 1; OAtom 2] (Some TypeError)), [OAtom 1; OAtom 2]. splits; [reflexivity| discriminate| reflexivity]. Qed.
Print Assumptions C46_unravel_refuted.

(** ** C46: present_memory *)
(** What is printed, read back: the nearest number with so many digits, at most 1024, in the unit of index [u]. *)
Theorem C46_memory : forall q digits, exists fuel, forall more, fuel <= more ->
  (inject_Z (1024 ^ 9) < q /\ present_memory more (Fin q) digits = Err IndexError)%Q \/
  exists u number unit r, present_memory more (Fin q) digits = Ok (number ++ unit ++ "B")%string /\
    nth_error ["" ; "k"; "M"; "G"; "T"; "P"; "E"; "Z"; "Y"]%string u = Some unit /\ read_number number = Some r /\
    (r <= 1024 /\ (u <> 0%nat -> 1 <= r) /\
     Qabs (r - q / inject_Z (1024 ^ Z.of_nat u)) <= 1 / (2 * inject_Z (10 ^ Z.of_nat (if Nat.eqb u 0 then 0 else digits))))%Q.
Proof.
  intros q digits. destruct (kib_big q) as [n Hn]. exists n. intros more Hm. pose proof (scale_ends n q 0 more Hn Hm) as Hok. unfold present_memory.
  destruct (scale more (Fin q) 0) as [[b u]|] eqn:E; [|discriminate]. apply scale_spec in E as [k [q' [-> [-> [H1 [H2 H3]]]]]]. cbn [Nat.add].
  destruct (Nat.lt_ge_cases k 9) as [L|L].
  - right. destruct (suffixes_some k L) as [unit Eu]. rewrite Eu. destruct (fixed_spec (if Nat.eqb k 0 then 0 else digits) q') as [r [R1 [R2 [R3 R4]]]].
    assert (Hq' : (q' == q / inject_Z (1024 ^ Z.of_nat k))%Q). { fold (kib k). rewrite <- H1. field. pose proof (kib_pos k). lra. }
    exists k, (fixed (if Nat.eqb k 0 then 0 else digits) (Fin q')), unit, r. splits; auto.
    + destruct (Qlt_le_dec q' 0) as [N|N]; [|exact (R3 1024%Z H2 N)].
      apply Qabs_Qle_condition in R2. assert (1 / (2 * inject_Z (10 ^ Z.of_nat (if Nat.eqb k 0 then 0 else digits))) <= 1)%Q.
      { assert (1 <= inject_Z (10 ^ Z.of_nat (if Nat.eqb k 0 then 0 else digits)))%Q by (change 1%Q with (inject_Z 1); rewrite <- Zle_Qle; apply Z.lt_pred_le, Z.pow_pos_nonneg; lia).
        apply Qle_shift_div_r; lra. }
      lra.
    + intro K. apply (R4 1%Z); [change (inject_Z 1) with 1%Q|]; specialize (H3 K); lra.
    + rewrite <- Hq'. exact R2.
  - left. assert (Ek : nth_error suffixes k = None) by (apply nth_error_None; exact L). rewrite Ek. split; [|reflexivity].
    assert (K : (kib 9 <= kib k)%Q) by (unfold kib; rewrite <- Zle_Qle; apply Z.pow_le_mono_r; lia). change (inject_Z (1024 ^ 9)) with (kib 9).
    assert (P : (1 < q')%Q) by (apply H3; lia). rewrite <- H1. pose proof (kib_pos k) as Pk. eapply Qle_lt_trans; [exact K|].
    setoid_replace (kib k) with (1 * kib k)%Q at 1 by ring. apply Qmult_lt_compat_r; assumption.
Qed.
Print Assumptions C46_memory.
Example C46_memory_met : present_memory 10 (Fin 123456789) 1 = Ok "117.7MB"%string /\ present_memory 10 (Fin 1024) 2 = Ok "1024B"%string /\
  present_memory 10 (Fin 1025) 2 = Ok "1.00kB"%string /\ present_memory 10 (Fin 1048575) 2 = Ok "1024.00kB"%string /\ present_memory 3 NaN 2 = Ok "nanB"%string /\
  read_number "117.7" = Some (1177 # 10)%Q.
Proof. vm_compute. auto 10. Qed.
(** Finding: numbers above 1024^9 have no unit, and the function does not return for infinity. *)
Theorem C46_memory_refuted : exists q, forall fuel, (20 <= fuel)%nat -> present_memory fuel (Fin q) 2 = Err IndexError.
Proof.
  exists (inject_Z (1024 ^ 10)). intros fuel H. destruct (C46_memory (inject_Z (1024 ^ 10)) 2) as [f Hf].
  do 20 (destruct fuel as [|fuel]; [lia|]). clear Hf. unfold present_memory. destruct fuel; vm_compute; reflexivity.
Qed.
Print Assumptions C46_memory_refuted.
Theorem C46_memory_infinite_refuted : forall fuel digits, present_memory fuel PInf digits = Err OutOfFuel.
Proof. intros fuel digits. unfold present_memory. assert (E : forall u, scale fuel PInf u = Err OutOfFuel) by (induction fuel as [|f IH]; intro u; cbn; [reflexivity| apply IH]). rewrite E. reflexivity. Qed.
Print Assumptions C46_memory_infinite_refuted.

(** ** C46: nested_string_formatting *)
(** For every text: only blanks are added, only the outermost brackets are left out. *)
Theorem C46_no_text_lost : forall s out, nested_string_formatting s = Ok out ->
  ink (list_ascii_of_string out) = ink (without_last (without_first (list_ascii_of_string s))).
Proof.
  intros s out. unfold nested_string_formatting. destruct (format_chars (list_ascii_of_string s)) as [l|] eqn:E; [|discriminate]. intro H. injection H as <-.
  rewrite list_ascii_of_string_of_list_ascii. apply format_ok. exact E.
Qed.
Print Assumptions C46_no_text_lost.
Theorem C46_formatting_fails_iff : forall s, (exists out, nested_string_formatting s = Ok out) <-> s <> ""%string /\ s <> "["%string.
Proof.
  intro s. unfold nested_string_formatting. pose proof (format_cases (list_ascii_of_string s)) as H.
  assert (I : forall t, list_ascii_of_string s = list_ascii_of_string t -> s = t) by (intros t E; rewrite <- (string_of_list_ascii_of_string s), E; apply string_of_list_ascii_of_string).
  split.
  - intros [out E]. destruct (format_chars _) as [l|] eqn:F; [|discriminate]. destruct (proj1 H (ex_intro _ l eq_refl)) as [N1 N2]. split; intros ->; [apply N1| apply N2]; reflexivity.
  - intros [N1 N2]. destruct (proj2 H) as [l E]; [|rewrite E; eauto]. split; intro E; [apply N1, (I ""%string E)| apply N2, (I "["%string E)].
Qed.
Print Assumptions C46_formatting_fails_iff.
(** For the text of a tree of conditions whose members are written on one line and without brackets: one line for every
    member and every inner bracket, indented by the depth. *)
Theorem C46_indented : forall leaf c, (forall i, plain (leaf i)) -> (forall i, c = Leaf i -> leaf i <> ""%string) ->
  nested_string_formatting (to_str leaf c) = Ok (string_of_list_ascii (join_lines (shown leaf c))).
Proof. intros leaf c Hp Hn. unfold nested_string_formatting. rewrite (format_tree leaf Hp c Hn). reflexivity. Qed.
Print Assumptions C46_indented.
(** The same for the text with the results. *)
Theorem C46_indented_results : forall (L : Type) name c (s : cstate L), (forall i, plain (name i)) ->
  nested_string_formatting (str_with_result L name c s) =
  Ok (string_of_list_ascii (join_lines (shown (fun i => name i ++ " = " ++ show (c_last s i))%string c))).
Proof.
  intros L name c s Hp. set (leaf := fun i => (name i ++ " = " ++ show (c_last s i))%string).
  assert (E : str_with_result L name c s = to_str leaf c) by (induction c as [i|i k a IHa b IHb]; cbn [str_with_result to_str]; [reflexivity| rewrite IHa, IHb; reflexivity]).
  rewrite E. apply C46_indented.
  - intros i x Hx. unfold leaf in Hx. rewrite !laos_app in Hx. apply in_app_or in Hx as [Hx|Hx]; [exact (Hp i x Hx)|]. apply in_app_or in Hx as [Hx|Hx].
    + cbn in Hx. repeat (destruct Hx as [<-|Hx]; [splits; discriminate|]). destruct Hx.
    + destruct (c_last s i) as [[]|]; cbn in Hx; repeat (destruct Hx as [<-|Hx]; [splits; discriminate|]); destruct Hx.
  - intros i _ X. unfold leaf in X. destruct (name i); discriminate.
Qed.
Print Assumptions C46_indented_results.
Definition ex_leaf (i : nat) : string := match i with 0 => "A()" | 1 => "B(x=2)" | _ => "C()" end%string.
Definition ex_tree : core := Comb 9 JAnd (Comb 8 JOr (Leaf 0) (Comb 7 JAnd (Leaf 1) (Leaf 2))) (Leaf 0).
Example C46_indented_met :
  (forall i, plain (ex_leaf i)) /\
  match nested_string_formatting (to_str ex_leaf ex_tree) with
  | Ok out => map string_of_list_ascii (split_lines (list_ascii_of_string out)) =
      ["["; " A() | "; " ["; "  B(x=2) & "; "  C()"; " ]"; "] & "; "A()"]%string
  | Err _ => False
  end.
Proof.
  split; [|vm_compute; reflexivity]. intros i c Hc. destruct i as [|[|i]]; cbn in Hc; repeat (destruct Hc as [<-|Hc]; [splits; discriminate|]); destruct Hc.
Qed.

(** ** C46: bound groups *)
(** Every parameter is in exactly one group, that of the text of its bound; equal bounds have equal texts. *)
Theorem C46_groups : forall (bound : Type) (text : bound -> string) same order l,
  (forall b, same b b = true) -> (forall a b, In a l -> In b l -> same a b = true -> text a = text b) -> (forall s, Permutation (order s) s) ->
  exists g, bound_group_presenter bound text same order l = Ok g /\ NoDup (map fst g) /\
  (forall k is, In (k, is) g -> increasing is /\ is <> [] /\ forall i, In i is -> exists b, nth_error l i = Some b /\ text b = k) /\
  (forall i b, nth_error l i = Some b -> exists is, In (text b, is) g /\ In i is).
Proof.
  intros bound text same order l Hr Ht Ho. unfold bound_group_presenter.
  set (g0 := new_groups bound text (order (to_set bound same [] l)) []).
  assert (Hmem : forall x, In x (order (to_set bound same [] l)) -> In x l).
  { intros x Hx. eapply Permutation_in in Hx; [|apply Ho]. apply to_set_from in Hx as [[]|Hx]; exact Hx. }
  assert (Hg : forall b, In b l -> sget (text b) g0 = Some []).
  { intros b Hb. unfold g0. rewrite new_groups_spec. destruct (to_set_rep bound same Hr l [] b Hb) as [c [Hc E]].
    assert (Hc' : In c (order (to_set bound same [] l))) by (eapply Permutation_in; [apply Permutation_sym, Ho| exact Hc]).
    assert (Ex : existsb (fun b0 => String.eqb (text b) (text b0)) (order (to_set bound same [] l)) = true).
    { apply existsb_exists. exists c. split; [exact Hc'|]. rewrite (Ht b c Hb (Hmem c Hc') E). apply String.eqb_refl. }
    rewrite Ex. reflexivity. }
  destruct (fill_spec bound text l 0 g0) as [g [F1 [F2 F3]]]; [intros b Hb; rewrite (Hg b Hb); discriminate|].
  assert (ND : NoDup (map fst g)) by (rewrite F2; apply new_groups_nodup; constructor).
  assert (Hin : forall k is, In (k, is) g <-> sget k g = Some is).
  { clear - ND. intros k is. induction g as [|[k' v'] g IH]; cbn; [split; [tauto| discriminate]|]. inversion ND as [|? ? N1 N2]; subst. destruct (String.eqb_spec k k') as [->|N].
    - split; [intros [E|E]; [congruence| destruct N1; apply in_map_iff; exists (k', is); auto]| intro E; left; congruence].
    - rewrite <- (IH N2). split; [intros [E|E]; [congruence| exact E]| auto]. }
  exists g. splits; auto.
  - intros k is Hk. apply Hin in Hk. rewrite F3 in Hk. destruct (sget k g0) as [js|] eqn:E0; [|discriminate].
    assert (js = [] /\ exists b, In b l /\ text b = k) as [-> [b [Hb Hbk]]].
    { unfold g0 in E0. rewrite new_groups_spec in E0. destruct (existsb _ _) eqn:Ex; [|discriminate]. injection E0 as <-. split; [reflexivity|].
      apply existsb_exists in Ex as [b [Hb E]]. apply String.eqb_eq in E. exists b. split; [apply Hmem; exact Hb| congruence]. }
    injection Hk as <-. cbn [app]. splits.
    + apply places_inc.
    + apply In_nth_error in Hb as [n Hn]. assert (X : In n (places bound text 0 l k)) by (apply in_places; exists n, b; auto). intro N. rewrite N in X. destruct X.
    + intros i Hi. apply in_places in Hi as [n [b' [-> [H1 H2]]]]. exists b'. auto.
  - intros i b Hb. exists (places bound text 0 l (text b)). split; [|apply in_places; exists i, b; auto]. apply Hin. rewrite F3, (Hg b (nth_error_In _ _ Hb)). reflexivity.
Qed.
Print Assumptions C46_groups.

(** Python numbers which are equal may be written differently. *)
Inductive pynum := PyInt (z : nat) | PyFloat (z : nat).
Definition py_text (n : pynum) : string := match n with PyInt 0 => "0" | PyInt _ => "1" | PyFloat 0 => "0.0" | PyFloat _ => "1.0" end%string.
Definition py_val (n : pynum) : nat := match n with PyInt z | PyFloat z => z end.
Definition py_bound_text (b : pynum * pynum) : string := ("(" ++ py_text (fst b) ++ ", " ++ py_text (snd b) ++ ")")%string.
Definition py_same (a b : pynum * pynum) : bool := Nat.eqb (py_val (fst a)) (py_val (fst b)) && Nat.eqb (py_val (snd a)) (py_val (snd b)).
Example C46_groups_met :
  bound_group_presenter _ py_bound_text py_same (@rev _) [(PyInt 0, PyInt 1); (PyInt 1, PyInt 1); (PyInt 0, PyInt 1)]
  = Ok [("(1, 1)", [1]); ("(0, 1)", [0; 2])]%string.
Proof. vm_compute. reflexivity. Qed.
(** Finding: with bounds (0, 1) and (0.0, 1.0) the summary file cannot be written. *)
Theorem C46_groups_refuted : exists l, bound_group_presenter _ py_bound_text py_same (fun s => s) l = Err KeyError /\ Forall (fun b => py_val (fst b) < py_val (snd b)) l.
Proof. exists [(PyInt 0, PyInt 1); (PyFloat 0, PyFloat 1)]. split; [vm_compute; reflexivity| repeat constructor]. Qed.
Print Assumptions C46_groups_refuted.
