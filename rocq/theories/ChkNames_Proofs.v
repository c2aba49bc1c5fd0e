(** * Checkpoint names: proofs *)
From Coq Require Import Ascii DecimalString Decimal DecimalNat.
From Verif Require Import Prelude Prelude_Proofs ChkNames_Model ChkNames_Spec.
Local Open Scope string_scope.

Lemma app_nil_str s : s ++ "" = s.
Proof. induction s as [|c s IH]; cbn; [|rewrite IH]; reflexivity. Qed.
Lemma app_str_assoc a b c : (a ++ b) ++ c = a ++ (b ++ c).
Proof. induction a as [|x a IH]; cbn; [|rewrite IH]; reflexivity. Qed.
Lemma app_str_inj a b c : a ++ b = a ++ c -> b = c.
Proof. induction a as [|x a IH]; cbn; [auto|]. intros [= H]. auto. Qed.
Lemma chars_app a b : chars (a ++ b) = (chars a ++ chars b)%list.
Proof. induction a as [|x a IH]; cbn; [|rewrite IH]; reflexivity. Qed.
Lemma length_app_str a b : String.length (a ++ b) = String.length a + String.length b.
Proof. induction a as [|x a IH]; cbn; [|rewrite IH]; reflexivity. Qed.

Lemma strip_app k s : strip k (k ++ s) = Some s.
Proof. induction k as [|a k IH]; cbn; [reflexivity|]. rewrite Ascii.eqb_refl. exact IH. Qed.
Lemma strip_some k s r : strip k s = Some r -> s = k ++ r.
Proof.
  revert s. induction k as [|a k IH]; cbn; intros s H; [congruence|]. destruct s as [|b s]; [discriminate|].
  destruct (Ascii.eqb_spec a b); [|discriminate]. subst. f_equal. auto.
Qed.
Lemma strip_none k s : (forall r, s <> k ++ r) -> strip k s = None.
Proof. intro H. destruct (strip k s) eqn:E; [|reflexivity]. apply strip_some in E. exfalso. eapply H, E. Qed.

(** ** str.replace *)
Lemma repl_skip key val a s : repl key val (String.length a) (a ++ s) = repl key val 0 s.
Proof. induction a as [|c a IH]; cbn; [reflexivity| exact IH]. Qed.
Lemma repl_here c k val s : repl (String c k) val 0 (String c k ++ s) = val ++ repl (String c k) val 0 s.
Proof.
  cbn [append repl]. change (String c (k ++ s)) with (String c k ++ s). rewrite strip_app. cbn [String.length].
  rewrite Nat.sub_succ, Nat.sub_0_r. rewrite repl_skip. reflexivity.
Qed.
Lemma repl_pass key val c s : (forall r, String c s <> key ++ r) -> repl key val 0 (String c s) = String c (repl key val 0 s).
Proof. intro H. cbn [repl]. rewrite strip_none by exact H. reflexivity. Qed.
(** Nothing starts in a text without the first character of the key. *)
Lemma repl_over c k val a s : ~ In c (chars a) -> repl (String c k) val 0 (a ++ s) = a ++ repl (String c k) val 0 s.
Proof.
  induction a as [|d a IH]; intro H; cbn [append]; [reflexivity|]. rewrite repl_pass.
  - rewrite IH; [reflexivity|]. intro. apply H. right. assumption.
  - intros r [= E _]. apply H. left. congruence.
Qed.

(** ** Tokens of a format *)
Inductive tok := Ch (c : ascii) | Cd (k : code).
Fixpoint detok (l : list tok) : string :=
  match l with [] => "" | Ch c :: l' => String c (detok l') | Cd k :: l' => key k ++ detok l' end.
Inductive wt : list tok -> Prop :=
  | wt_nil : wt []
  | wt_key k l : wt l -> wt (Cd k :: l)
  | wt_char c l : (forall k r, String c (detok l) <> key k ++ r) -> wt l -> wt (Ch c :: l).

Definition all_codes : list code := [KDate; KYear; KYr; KMonth; KDay; KTime; KHour; KMin; KSec; KCount].
Lemma code_all k : In k all_codes.
Proof. destruct k; cbn; auto 12. Qed.
Lemma code_eq_dec (k k' : code) : {k = k'} + {k <> k'}.
Proof. decide equality. Defined.
Lemma key_prefix_free k k' r r' : key k ++ r = key k' ++ r' -> k = k' /\ r = r'.
Proof. destruct k, k'; cbn; intro H; try discriminate H; injection H as ->; auto. Qed.

Lemma tokenised s : exists l, wt l /\ detok l = s.
Proof.
  assert (H : forall n s, String.length s < n -> exists l, wt l /\ detok l = s).
  { induction n as [|n IH]; intros s' Hs; [lia|]. destruct s' as [|c s']; [exists []; split; [constructor| reflexivity]|].
    destruct (find (fun k => match strip (key k) (String c s') with Some _ => true | None => false end) all_codes) as [k|] eqn:E.
    - apply find_some in E as [_ E]. destruct (strip (key k) (String c s')) as [r|] eqn:Er; [|discriminate].
      apply strip_some in Er. destruct (IH r) as [l [Hl Hd]].
      { rewrite Er in Hs. rewrite length_app_str in Hs. destruct k; cbn in Hs |- *; lia. }
      exists (Cd k :: l). split; [constructor; exact Hl|]. cbn [detok]. rewrite Hd. symmetry. exact Er.
    - destruct (IH s') as [l [Hl Hd]]; [cbn in Hs; lia|]. exists (Ch c :: l). split; [|cbn; rewrite Hd; reflexivity].
      constructor; [|exact Hl]. intros k r Hk. rewrite Hd in Hk. pose proof (find_none _ _ E k (code_all k)) as Hn. cbn beta in Hn.
      rewrite Hk, strip_app in Hn. discriminate. }
  apply (H (S (String.length s))). lia.
Qed.

Inductive rend (v : code -> string -> Prop) : list tok -> string -> Prop :=
  | rd_nil : rend v [] ""
  | rd_key k t l x : v k t -> rend v l x -> rend v (Cd k :: l) (t ++ x)
  | rd_char c l x : rend v l x -> rend v (Ch c :: l) (String c x).

Lemma rend_rendered v l x : wt l -> rend v l x -> rendered v (detok l) x.
Proof. intros Hl H. induction H; inversion Hl; subst; cbn; constructor; auto. Qed.
Lemma rendered_rend v f x : rendered v f x -> forall l, wt l -> detok l = f -> rend v l x.
Proof.
  induction 1 as [|k t f x Hv Hr IH|c f x Hn Hr IH]; intros l Hl Hd.
  - destruct l as [|[c|[]] l]; cbn in Hd; try discriminate. constructor.
  - destruct l as [|[c|k'] l]; cbn in Hd.
    + destruct k; discriminate.
    + inversion Hl as [| |? ? Hc]; subst. exfalso. eapply Hc, Hd.
    + apply key_prefix_free in Hd as [-> Hd]. constructor; [exact Hv|]. apply IH; [inversion Hl; assumption| exact Hd].
  - destruct l as [|[c'|k'] l]; cbn in Hd.
    + discriminate.
    + injection Hd as -> Hd. constructor. apply IH; [inversion Hl; assumption| exact Hd].
    + exfalso. eapply Hn. symmetry. exact Hd.
Qed.

(** ** A chain of replacements *)
Section Chain.
  Context (e : ascii -> string) (blk : code -> string).
  Fixpoint emap (s : string) : string := match s with EmptyString => "" | String c s' => e c ++ emap s' end.
  Definition ekey (k : code) : string := emap (key k).
  (** Characters of keys after the first. *)
  Definition inner (a : ascii) : Prop := exists k, In a (chars ("(" ++ word k ++ ")")).
  Context (Hpct : e "%" = "%").
  Context (Hone : forall c, c <> "%"%char -> e c <> "" /\ ~ In "%"%char (chars (e c))).
  Context (Hesc : forall a c r y, inner a -> e c ++ y = e a ++ r -> c = a /\ y = r).
  Context (Hblk : forall k, ~ In "%"%char (chars (blk k))).
  Context (Hblk2 : forall a k y r, inner a -> blk k ++ y <> e a ++ r).

  Fixpoint flat (D : code -> bool) (l : list tok) : string :=
    match l with
    | [] => ""
    | Ch c :: l' => e c ++ flat D l'
    | Cd k :: l' => (if D k then blk k else ekey k) ++ flat D l'
    end.
  Lemma emap_app a b : emap (a ++ b) = emap a ++ emap b.
  Proof. induction a as [|c a IH]; cbn; [reflexivity|]. rewrite IH, app_str_assoc. reflexivity. Qed.
  Lemma flat_none l : flat (fun _ => false) l = emap (detok l).
  Proof. induction l as [|[c|k] l IH]; cbn; [reflexivity| |]; rewrite IH; [reflexivity|]. symmetry. apply (emap_app (key k)). Qed.

  (** If the escaped inner text of a key starts there, so does the text itself, undisguised. *)
  Lemma undisguised D ks : (forall a, In a (chars ks) -> inner a) -> forall l r, flat D l = emap ks ++ r -> exists l', detok l = ks ++ detok l' .
  Proof.
    induction ks as [|a ks IH]; intros Hin l r H; cbn in *; [exists l; reflexivity|]. rewrite app_str_assoc in H.
    assert (Ha : inner a) by (apply Hin; auto). destruct l as [|[c|k] l]; cbn in H.
    - exfalso. destruct Ha as [k Hk]. assert (Hne : e a <> "").
      { apply Hone. intros ->. destruct k; cbn in Hk; repeat (destruct Hk as [Hk|Hk]; [discriminate|]); exact Hk. }
      destruct (e a); [congruence| discriminate].
    - apply Hesc in H as [-> H]; [|exact Ha]. destruct (IH (fun a Hx => Hin a (or_intror Hx)) _ _ H) as [l' Hl']. exists l'. cbn. rewrite Hl'. reflexivity.
    - exfalso. destruct (D k).
      + eapply Hblk2; [exact Ha| exact H].
      + unfold ekey, key in H. cbn in H. rewrite Hpct in H. cbn in H.
        destruct (e a) as [|x ea] eqn:E.
        * destruct Ha as [k' Hk]. assert (Hne : e a <> "").
          { apply Hone. intros ->. destruct k'; cbn in Hk; repeat (destruct Hk as [Hk|Hk]; [discriminate|]); exact Hk. }
          congruence.
        * injection H as Hx _. subst x. destruct Ha as [k' Hk]. destruct (Hone a) as [_ Hn].
          { intros ->. destruct k'; cbn in Hk; repeat (destruct Hk as [Hk|Hk]; [discriminate|]); exact Hk. }
          apply Hn. rewrite E. left. reflexivity.
  Qed.

  Definition ktail (k : code) : string := "(" ++ word k ++ ")".
  Lemma ekey_cons k : ekey k = String "%" (emap (ktail k)).
  Proof. unfold ekey, key. cbn. rewrite Hpct. reflexivity. Qed.
  Lemma ktail_pct k : ~ In "%"%char (chars (emap (ktail k))).
  Proof.
    assert (H : forall s, (forall a, In a (chars s) -> a <> "%"%char) -> ~ In "%"%char (chars (emap s))).
    { induction s as [|c s IH]; intros Hs; cbn; [auto|]. rewrite chars_app, in_app_iff. intros [Hi|Hi].
      - destruct (Hone c) as [_ Hn]; [apply Hs; left; reflexivity|]. contradiction.
      - revert Hi. apply IH. intros a Ha. apply Hs. right. exact Ha. }
    apply H. intros a Ha ->. destruct k; cbn in Ha; repeat (destruct Ha as [Ha|Ha]; [discriminate|]); exact Ha.
  Qed.
  Lemma ktails_differ k k' r r' : emap (ktail k) ++ r = emap (ktail k') ++ r' -> k = k'.
  Proof.
    intro H. assert (Hs : forall s s' r r', (forall a, In a (chars s') -> inner a) -> emap s ++ r = emap s' ++ r' -> String.length s' <= String.length s -> exists t, s = s' ++ t).
    { clear H r r'. intros s s'. revert s. induction s' as [|a s' IH]; intros s r r' Hin H Hl; [exists s; reflexivity|].
      destruct s as [|c s]; [cbn in Hl; lia|]. cbn in H. rewrite !app_str_assoc in H. apply Hesc in H as [-> H]; [|apply Hin; left; reflexivity].
      destruct (IH s r r') as [t ->]; [intros; apply Hin; right; assumption| exact H| cbn in Hl; lia|]. exists t. reflexivity. }
    destruct (Nat.le_ge_cases (String.length (ktail k')) (String.length (ktail k))) as [Hl|Hl].
    - destruct (Hs _ (ktail k') _ _ (fun a (Ha : In a (chars (ktail k'))) => ex_intro _ k' Ha) H Hl) as [t Ht]. destruct k, k'; try reflexivity; discriminate Ht.
    - destruct (Hs _ (ktail k) _ _ (fun a (Ha : In a (chars (ktail k))) => ex_intro _ k Ha) (eq_sym H) Hl) as [t Ht]. destruct k, k'; try reflexivity; discriminate Ht.
  Qed.

  Lemma replace_one D k l : wt l -> D k = false ->
    replace (ekey k) (blk k) (flat D l) = flat (fun k' => if code_eq_dec k k' then true else D k') l.
  Proof.
    intros Hl HD. unfold replace. induction Hl as [|k' l Hl IH|c l Hc Hl IH]; [reflexivity| |]; cbn [flat].
    - destruct (code_eq_dec k k') as [<-|Hk].
      + rewrite HD. rewrite ekey_cons at 2. rewrite ekey_cons at 1. rewrite repl_here. rewrite <- ekey_cons, IH. reflexivity.
      + destruct (D k').
        * rewrite ekey_cons at 1. rewrite repl_over by apply Hblk. rewrite <- ekey_cons, IH. reflexivity.
        * rewrite (ekey_cons k') at 1. cbn [append]. rewrite repl_pass.
          -- rewrite ekey_cons at 1. rewrite repl_over by apply ktail_pct. rewrite <- ekey_cons, IH, ekey_cons. reflexivity.
          -- intros r H. rewrite ekey_cons in H. cbn [append] in H. injection H as H. apply Hk. symmetry. eapply ktails_differ, H.
    - destruct (ascii_dec c "%") as [->|Hp].
      + rewrite Hpct. cbn [append]. rewrite repl_pass; [rewrite IH; reflexivity|].
        intros r H. rewrite ekey_cons in H. cbn [append] in H. injection H as H. apply (undisguised D (ktail k)) in H as [l' H]; [|intros a Ha; exists k; exact Ha].
        eapply (Hc k). rewrite H. reflexivity.
      + rewrite ekey_cons at 1. rewrite repl_over by (apply Hone, Hp). rewrite <- ekey_cons, IH. reflexivity.
  Qed.
  Lemma flat_ext D D' l : (forall k, D k = D' k) -> flat D l = flat D' l.
  Proof. intro H. induction l as [|[c|k] l IH]; cbn; [reflexivity| |]; rewrite IH, ?H; reflexivity. Qed.
End Chain.

(** ** Numbers *)
Lemma digit_char d : d < 10 -> is_digit (ascii_of_nat (48 + d)) = true /\ digit_val (ascii_of_nat (48 + d)) = d.
Proof.
  intro H. unfold is_digit, digit_val. rewrite nat_ascii_embedding by lia. split; [|lia].
  apply andb_true_iff. split; apply Nat.leb_le; lia.
Qed.
Lemma digit_inj c c' : is_digit c = true -> is_digit c' = true -> digit_val c = digit_val c' -> c = c'.
Proof.
  unfold is_digit, digit_val. intros H H' E. apply andb_true_iff in H as [H1 H2]. apply andb_true_iff in H' as [H3 H4].
  apply Nat.leb_le in H1, H2, H3, H4. rewrite <- (ascii_nat_embedding c), <- (ascii_nat_embedding c'). f_equal. lia.
Qed.
Lemma digit_bound c : is_digit c = true -> digit_val c < 10.
Proof. unfold is_digit, digit_val. intro H. apply andb_true_iff in H as [H1 H2]. apply Nat.leb_le in H1, H2. lia. Qed.
Lemma number_app a b s t : number a s -> number b t -> number (a + b) (s ++ t).
Proof.
  intros [H1 H2] [H3 H4]. split; [rewrite length_app_str; lia|]. intros c Hc. rewrite chars_app, in_app_iff in Hc. destruct Hc; auto.
Qed.
Lemma number_dec k : forall n, number k (dec k n).
Proof.
  induction k as [|k IH]; intro n; cbn [dec]; [split; [reflexivity| intros c []]|]. rewrite <- Nat.add_1_r. apply number_app; [apply IH|].
  split; [reflexivity|]. intros c [<-|[]]. apply digit_char. apply Nat.mod_upper_bound. lia.
Qed.
Lemma value_app s t acc : value (s ++ t) acc = value t (value s acc).
Proof. revert acc. induction s as [|c s IH]; intro acc; cbn [append value]; [reflexivity| apply IH]. Qed.
Lemma value_dec k : forall n, n < 10 ^ k -> value (dec k n) 0 = n.
Proof.
  induction k as [|k IH]; intros n Hn; cbn [dec].
  - cbn in *. lia.
  - rewrite value_app, IH; [|apply Nat.div_lt_upper_bound; [lia| rewrite Nat.pow_succ_r' in Hn; exact Hn]].
    cbn [value]. destruct (digit_char (n mod 10)) as [_ ->]; [apply Nat.mod_upper_bound; lia|]. symmetry. apply Nat.div_mod. lia.
Qed.
Lemma value_bound s : forall acc, (forall c, In c (chars s) -> is_digit c = true) -> value s acc < S acc * 10 ^ String.length s.
Proof.
  induction s as [|c s IH]; intros acc H; cbn [value String.length].
  - cbn. lia.
  - specialize (IH (10 * acc + digit_val c) (fun x Hx => H x (or_intror Hx))). rewrite Nat.pow_succ_r'.
    pose proof (digit_bound c (H c (or_introl eq_refl))) as Hd. set (p := 10 ^ String.length s) in *. clearbody p. nia.
Qed.
Lemma value_inj s : forall t a b, String.length s = String.length t -> (forall c, In c (chars s) -> is_digit c = true) ->
  (forall c, In c (chars t) -> is_digit c = true) -> value s a = value t b -> a = b /\ s = t.
Proof.
  induction s as [|c s IH]; intros [|d t] a b Hl Hs Ht E; try discriminate Hl; [auto|].
  cbn [value] in E. cbn [String.length] in Hl. destruct (IH t (10 * a + digit_val c) (10 * b + digit_val d)) as [E1 E2]; [lia| | |exact E|].
  - intros; apply Hs; right; assumption.
  - intros; apply Ht; right; assumption.
  - assert (Hc := Hs c (or_introl eq_refl)). assert (Hd := Ht d (or_introl eq_refl)).
    pose proof (digit_bound c Hc). pose proof (digit_bound d Hd). assert (Hv : digit_val c = digit_val d) by lia.
    split; [lia|]. rewrite (digit_inj c d Hc Hd Hv), E2. reflexivity.
Qed.
Lemma number_padded k n : n < 10 ^ k -> number k (padded k n).
Proof. intro H. unfold padded. apply Nat.ltb_lt in H. rewrite H. apply number_dec. Qed.
Lemma padded_value k t : number k t -> t = padded k (value t 0) /\ value t 0 < 10 ^ k.
Proof.
  intros [H1 H2]. pose proof (value_bound t 0 H2) as Hb. rewrite H1, Nat.mul_1_l in Hb. split; [|exact Hb].
  unfold padded. apply Nat.ltb_lt in Hb as Hb'. rewrite Hb'. destruct (number_dec k (value t 0)) as [H3 H4].
  apply (value_inj t (dec k (value t 0)) 0 0); [congruence| exact H2| exact H4|]. symmetry. apply value_dec, Hb.
Qed.
Lemma value_padded k n : n < 10 ^ k -> value (padded k n) 0 = n.
Proof. intro H. unfold padded. apply Nat.ltb_lt in H as H'. rewrite H'. apply value_dec, H. Qed.
Lemma decimal_digits d c : In c (chars (NilEmpty.string_of_uint d)) -> is_digit c = true.
Proof. induction d; cbn; [contradiction|..]; (intros [<-|H]; [reflexivity| auto]). Qed.
Lemma decimal_nonempty n : decimal n <> "".
Proof.
  unfold decimal. destruct (Nat.to_uint n) eqn:E; try discriminate. exfalso. pose proof (DecimalNat.Unsigned.of_to n) as H. rewrite E in H. cbn in H. subst n. discriminate E.
Qed.
Lemma padded_digits k n c : In c (chars (padded k n)) -> is_digit c = true.
Proof. unfold padded. destruct (Nat.ltb _ _); [apply number_dec| apply decimal_digits]. Qed.
Lemma padded_nonempty k n : 0 < k -> padded k n <> "".
Proof.
  intro Hk. unfold padded. destruct (Nat.ltb _ _); [|apply decimal_nonempty]. destruct (number_dec k n) as [H _]. intro E. rewrite E in H. cbn in H. lia.
Qed.

Lemma stamp_width t k : valid t -> k <> KCount -> number (width k) (stamp t k).
Proof.
  intros [Hy [Hm [Hd [Hh [Hi Hs]]]]] Hk.
  assert (H2 : forall n, n < 100 -> number 2 (padded 2 n)) by (intros n Hn; apply number_padded; cbn; lia).
  assert (H4 : number 4 (padded 4 (ck_y t))).
  { apply number_padded. assert (Hx : ck_y t < 1000 * 10) by (pose proof (Nat.div_mod (ck_y t) 1000 ltac:(lia)); pose proof (Nat.mod_upper_bound (ck_y t) 1000 ltac:(lia)); lia).
    change (10 ^ 4) with (1000 * 10). exact Hx. }
  destruct k; cbn [width stamp]; try congruence; try (apply H2; lia); try assumption.
  - apply (number_app 4 4); [exact H4|]. apply (number_app 2 2); apply H2; lia.
  - apply H2, Nat.mod_upper_bound. lia.
  - apply (number_app 2 4); [apply H2; lia|]. apply (number_app 2 2); apply H2; lia.
Qed.

(** ** get_name renders the format *)
Definition lit (c : ascii) : string := String c "".
Lemma emap_lit s : emap lit s = s.
Proof. induction s as [|c s IH]; cbn; [|rewrite IH]; reflexivity. Qed.
Lemma inner_char a : inner a -> a <> "%"%char /\ is_digit a = false /\ a <> "["%char.
Proof.
  intros [k H]. destruct k; cbn in H; repeat (destruct H as [<-|H]; [splits; [discriminate| reflexivity| discriminate]|]); destruct H.
Qed.
Definition stamps (t : clock) (n : nat) (k : code) : string := match k with KCount => padded 3 n | _ => stamp t k end.
Lemma stamps_digits t n k c : In c (chars (stamps t n k)) -> is_digit c = true.
Proof.
  destruct k; cbn [stamps stamp]; rewrite ?chars_app, ?in_app_iff; intros H; repeat (destruct H as [H|H]); eapply padded_digits; exact H.
Qed.
Lemma stamps_nonempty t n k : stamps t n k <> "".
Proof.
  assert (H : forall k n s, 0 < k -> padded k n ++ s <> "").
  { intros k' m s Hk E. destruct (padded k' m) eqn:E'; [eapply padded_nonempty; [exact Hk| exact E']| discriminate]. }
  destruct k; cbn [stamps stamp]; try (apply padded_nonempty; lia); apply H; lia.
Qed.
Lemma flat_rend l b : rend (fun k t => t = b k) l (flat lit b (fun _ => true) l).
Proof. induction l as [|[c|k] l IH]; cbn; constructor; auto. Qed.

Ltac chain_name t n l Hl :=
  rewrite (replace_one lit (stamps t n)); [|reflexivity| | | | | exact Hl| reflexivity].

Lemma get_name_renders fmt t dir name n : count_of fmt dir = Ok n -> get_name fmt t dir = Ok name ->
  rendered (fun k x => x = stamps t n k) fmt name.
Proof.
  intros Hn Hg. unfold get_name in Hg. rewrite Hn in Hg. injection Hg as <-. destruct (tokenised fmt) as [l [Hl <-]].
  assert (Hstep : forall D k, D k = false -> replace (key k) (stamps t n k) (flat lit (stamps t n) D l) =
             flat lit (stamps t n) (fun k' => if code_eq_dec k k' then true else D k') l).
  { intros D k HD. rewrite <- (replace_one lit (stamps t n)); [|..|exact Hl| exact HD].
    - unfold ekey. rewrite emap_lit. reflexivity.
    - reflexivity.
    - intros c Hc. split; [discriminate|]. intros [H|[]]. congruence.
    - intros a c r y Ha [= -> ->]. auto.
    - intros k' H. apply stamps_digits in H. discriminate H.
    - intros a k' y r Ha H. destruct (stamps t n k') as [|x s] eqn:E; [eapply stamps_nonempty, E|]. cbn in H. injection H as -> _.
      assert (Hd : is_digit a = true) by (apply (stamps_digits t n k'); rewrite E; left; reflexivity).
      destruct (inner_char a Ha) as [_ [Hx _]]. congruence. }
  assert (E0 : detok l = flat lit (stamps t n) (fun _ => false) l) by (rewrite flat_none, emap_lit; reflexivity).
  apply rend_rendered; [exact Hl|]. rewrite E0. cbn [fold_left dated].
  change (stamp t KDate) with (stamps t n KDate). change (stamp t KYear) with (stamps t n KYear). change (stamp t KYr) with (stamps t n KYr).
  change (stamp t KMonth) with (stamps t n KMonth). change (stamp t KDay) with (stamps t n KDay). change (stamp t KTime) with (stamps t n KTime).
  change (stamp t KHour) with (stamps t n KHour). change (stamp t KMin) with (stamps t n KMin). change (stamp t KSec) with (stamps t n KSec).
  change (padded 3 n) with (stamps t n KCount).
  do 10 (rewrite Hstep by reflexivity).
  erewrite flat_ext; [apply (flat_rend l (stamps t n))|]. intro k. destruct k; reflexivity.
Qed.

(** ** The regular expression *)
Definition block (k : code) : string := match k with KCount => "(?P<index>[0-9]{3})" | _ => "[0-9]{" ++ decimal (width k) ++ "}" end.
Lemma esc_cases c : (exists p, In p ["{"; "("; "+"; "*"; "|"; "."; "$"; ")"; "}"]%char /\ c = p /\ esc c = "[" ++ String p "]") \/
  (exists p, In p ["^"; "["; "]"]%char /\ c = p /\ esc c = String "\" (String p "")) \/
  ((forall p, In p ["{"; "("; "+"; "*"; "|"; "."; "$"; ")"; "}"; "^"; "["; "]"]%char -> c <> p) /\ esc c = String c "").
Proof.
  unfold esc. destruct (existsb (Ascii.eqb c) ["{"; "("; "+"; "*"; "|"; "."; "$"; ")"; "}"]%char) eqn:E1.
  - left. apply existsb_exists in E1 as [p [Hp E]]. apply Ascii.eqb_eq in E. exists p. subst. auto.
  - right. destruct (existsb (Ascii.eqb c) ["^"; "["; "]"]%char) eqn:E2.
    + left. apply existsb_exists in E2 as [p [Hp E]]. apply Ascii.eqb_eq in E. exists p. subst. auto.
    + right. split; [|reflexivity]. intros p Hp ->.
      assert (Hor : In p ["{"; "("; "+"; "*"; "|"; "."; "$"; ")"; "}"]%char \/ In p ["^"; "["; "]"]%char) by (cbn in *; tauto).
      destruct Hor as [Hi|Hi]; [rewrite (proj2 (existsb_exists _ _)) in E1| rewrite (proj2 (existsb_exists _ _)) in E2];
        try discriminate; exists p; split; auto; apply Ascii.eqb_refl.
Qed.
Lemma inner_cases a : inner a -> (a = "("%char \/ a = ")"%char) \/ (esc a = String a "" /\ a <> "["%char /\ a <> "\"%char).
Proof.
  intros [k H]. destruct k; cbn in H; repeat (destruct H as [<-|H]; [solve [left; auto | right; split; [reflexivity| split; discriminate]]|]); destruct H.
Qed.
Lemma format_re_flat l : wt l -> format_re (detok l) = flat esc block (fun _ => true) l.
Proof.
  intro Hl.
  assert (Hstep : forall D k, D k = false -> replace (key_re k) (block k) (flat esc block D l) =
             flat esc block (fun k' => if code_eq_dec k k' then true else D k') l).
  { intros D k HD. rewrite <- (replace_one esc block); [|..|exact Hl| exact HD].
    - destruct k; reflexivity.
    - reflexivity.
    - intros c Hc. destruct (esc_cases c) as [[p [Hp [-> ->]]]|[[p [Hp [-> ->]]]|[Hn ->]]].
      + split; [discriminate|]. cbn. intros [H|[H|[H|[]]]]; congruence.
      + split; [discriminate|]. cbn. intros [H|[H|[]]]; congruence.
      + split; [discriminate|]. cbn. intros [H|[]]; congruence.
    - intros a c r y Ha H. destruct (inner_cases a Ha) as [[-> | ->]|[Hea [H1 H2]]].
      + destruct (esc_cases c) as [[p [Hp [-> Hc]]]|[[p [Hp [-> Hc]]]|[Hn Hc]]]; rewrite Hc in H; cbn in H.
        * injection H as -> ->. auto.
        * discriminate.
        * injection H as -> _. exfalso. eapply (Hn "["%char); [cbn; auto 12| reflexivity].
      + destruct (esc_cases c) as [[p [Hp [-> Hc]]]|[[p [Hp [-> Hc]]]|[Hn Hc]]]; rewrite Hc in H; cbn in H.
        * injection H as -> ->. auto.
        * discriminate.
        * injection H as -> _. exfalso. eapply (Hn "["%char); [cbn; auto 12| reflexivity].
      + rewrite Hea in H. destruct (esc_cases c) as [[p [Hp [-> Hc]]]|[[p [Hp [-> Hc]]]|[Hn Hc]]]; rewrite Hc in H; cbn in H.
        * injection H as Hx _. congruence.
        * injection H as Hx _. congruence.
        * injection H as -> ->. auto.
    - intros k'. destruct k'; cbn; intro H; repeat (destruct H as [H|H]; [discriminate|]); exact H.
    - intros a k' y r Ha H. destruct (inner_cases a Ha) as [[-> | ->]|[Hea [H1 H2]]].
      + destruct k'; discriminate H.
      + destruct k'; discriminate H.
      + rewrite Hea in H. destruct Ha as [k2 Hk]. destruct (inner_char a (ex_intro _ k2 Hk)) as [_ [_ Hb]].
        destruct k'; cbn in H; injection H as Hx _; try congruence. subst a. discriminate Hea. }
  assert (Hesc : forall s, escaped s = emap esc s) by (induction s as [|c s IH]; cbn; [|rewrite IH]; reflexivity).
  unfold format_re. rewrite Hesc, <- (flat_none esc block). cbn [fold_left dated].
  change ("[0-9]{" ++ decimal (width KDate) ++ "}") with (block KDate). change ("[0-9]{" ++ decimal (width KYear) ++ "}") with (block KYear).
  change ("[0-9]{" ++ decimal (width KYr) ++ "}") with (block KYr). change ("[0-9]{" ++ decimal (width KMonth) ++ "}") with (block KMonth).
  change ("[0-9]{" ++ decimal (width KDay) ++ "}") with (block KDay). change ("[0-9]{" ++ decimal (width KTime) ++ "}") with (block KTime).
  change ("[0-9]{" ++ decimal (width KHour) ++ "}") with (block KHour). change ("[0-9]{" ++ decimal (width KMin) ++ "}") with (block KMin).
  change ("[0-9]{" ++ decimal (width KSec) ++ "}") with (block KSec). change ("(?P<index>[0-9]{3})") with (block KCount) at 1.
  do 10 (rewrite Hstep by reflexivity).
  apply flat_ext. intro k. destruct k; reflexivity.
Qed.

(** ** Compiling *)
Fixpoint lexemes (l : list tok) : list lexeme :=
  match l with
  | [] => []
  | Ch c :: l' => LCls (One c) :: lexemes l'
  | Cd KCount :: l' => LIndex :: lexemes l'
  | Cd k :: l' => LCls Digit :: LTimes (width k) :: lexemes l'
  end.
Definition plain_toks (l : list tok) : Prop := forall c, In (Ch c) l -> ~ unescaped c.
Lemma lex_char c s : ~ unescaped c -> lex 0 (esc c ++ s) = ocons (LCls (One c)) (lex 0 s).
Proof.
  intro Hu. destruct (esc_cases c) as [[p [Hp [-> Hc]]]|[[p [Hp [-> Hc]]]|[Hn Hc]]]; rewrite Hc.
  - cbn in Hp. repeat (destruct Hp as [<-|Hp]; [reflexivity|]). destruct Hp.
  - cbn in Hp. repeat (destruct Hp as [<-|Hp]; [reflexivity|]). destruct Hp.
  - cbn [append]. assert (Hm : mark_of c = MLit).
    { unfold mark_of. repeat match goal with |- context [Ascii.eqb c ?d] => destruct (Ascii.eqb_spec c d) as [->|]; [exfalso|] end;
        try (unfold unescaped in Hu; tauto); try (eapply Hn; [|reflexivity]; cbn; auto 14; fail).
      cbn [existsb]. repeat match goal with |- context [Ascii.eqb c ?d] => destruct (Ascii.eqb_spec c d) as [->|]; [exfalso; eapply Hn; [|reflexivity]; cbn; auto 14|] end.
      reflexivity. }
    cbn [lex]. rewrite Hm. reflexivity.
Qed.
Lemma lex_block k s : lex 0 (block k ++ s) = match k with KCount => ocons LIndex (lex 0 s) | _ => ocons (LCls Digit) (ocons (LTimes (width k)) (lex 0 s)) end.
Proof. destruct k; reflexivity. Qed.
Lemma lex_flat l : plain_toks l -> lex 0 (flat esc block (fun _ => true) l) = Some (lexemes l).
Proof.
  induction l as [|[c|k] l IH]; intro H; [reflexivity| |].
  - cbn [flat]. rewrite lex_char by (apply H; left; reflexivity). rewrite IH by (intros c' Hc; apply H; right; exact Hc). reflexivity.
  - cbn [flat]. rewrite lex_block. rewrite IH by (intros c' Hc; apply H; right; exact Hc). destruct k; reflexivity.
Qed.
Fixpoint counters (l : list tok) : nat := match l with [] => 0 | Cd KCount :: l' => S (counters l') | _ :: l' => counters l' end.
Fixpoint its (l : list tok) : list item :=
  match l with
  | [] => []
  | Ch c :: l' => Rep (One c) 1 :: its l'
  | Cd KCount :: l' => Index :: its l'
  | Cd k :: l' => Rep Digit (width k) :: its l'
  end.
Lemma no_index l : counters l = 0 -> existsb (fun x => match x with LIndex => true | _ => false end) (lexemes l) = false.
Proof. induction l as [|[c|[]] l IH]; cbn; intro H; auto; discriminate. Qed.
Lemma items_its l : counters l <= 1 -> items (lexemes l) = Some (its l).
Proof.
  induction l as [|[c|k] l IH]; intro H; [reflexivity| |].
  - cbn in H. specialize (IH H). cbn [lexemes its]. 
    assert (E : items (LCls (One c) :: lexemes l) = ocons (Rep (One c) 1) (items (lexemes l))) by (destruct l as [|[c'|[]] l]; reflexivity).
    rewrite E, IH. reflexivity.
  - destruct k; cbn [lexemes its counters] in *;
      try (match goal with |- items (_ :: LTimes ?n :: _) = _ => 
           assert (E : items (LCls Digit :: LTimes n :: lexemes l) = ocons (Rep Digit n) (items (lexemes l))) by (destruct l as [|[c'|[]] l]; reflexivity) end;
           rewrite E, IH by exact H; reflexivity).
    assert (H0 : counters l = 0) by lia. specialize (IH ltac:(lia)).
    assert (E : items (LIndex :: lexemes l) = ocons Index (items (lexemes l))).
    { pose proof (no_index l H0) as Hx. destruct l as [|[c'|[]] l]; cbn [lexemes] in *; cbn [items]; try (rewrite Hx; reflexivity); reflexivity. }
    rewrite E, IH. reflexivity.
Qed.
Lemma compiled l : wt l -> plain_toks l -> counters l <= 1 -> compile (format_re (detok l)) = Some (its l).
Proof. intros H1 H2 H3. unfold compile. rewrite format_re_flat, lex_flat by assumption. apply items_its, H3. Qed.

(** ** Matching *)
Lemma times_digits n : forall s r, times Digit n s = Some r <-> exists t, s = t ++ r /\ number n t.
Proof.
  induction n as [|n IH]; intros s r; cbn [times].
  - split.
    + intros [= ->]. exists "". split; [reflexivity|]. split; [reflexivity| intros c []].
    + intros [t [-> [Ht _]]]. destruct t; [reflexivity| discriminate].
  - destruct s as [|c s]; [split; [discriminate|]; intros [t [Hs [Ht _]]]; destruct t; discriminate|]. cbn [fits]. split.
    + destruct (is_digit c) eqn:E; [|discriminate]. intro H. apply IH in H as [t [-> [Ht1 Ht2]]]. exists (String c t).
      split; [reflexivity|]. split; [cbn; rewrite Ht1; reflexivity|]. intros d [<-|Hd]; auto.
    + intros [t [Hs [Ht1 Ht2]]]. destruct t as [|d t]; [discriminate|]. injection Hs as <- ->. cbn in Ht1.
      rewrite (Ht2 c) by (left; reflexivity). apply IH. exists t. split; [reflexivity|]. split; [lia|]. intros d Hd. apply Ht2. right. exact Hd.
Qed.
Lemma fetch_app t r : fetch (String.length t) (t ++ r) = t.
Proof. unfold fetch. induction t as [|c t IH]; cbn; [destruct r; reflexivity|]. rewrite IH. reflexivity. Qed.

Definition seen (o : option nat) (k : code) (t : string) : Prop := number (width k) t /\ (k = KCount -> o = Some (value t 0)).
Lemma rmatch_rend l : counters l <= 1 -> forall x o, rmatch (its l) x = Some o <->
  (counters l = 0 -> o = None) /\ exists y z, x = y ++ z /\ rend (seen o) l y.
Proof.
  assert (Hfree : forall l y o o', counters l = 0 -> rend (seen o) l y -> rend (seen o') l y).
  { clear. induction 2 as [|k t l x Hv Hr IH|c l x Hr IH]; [constructor| |].
    - cbn in H. destruct (code_eq_dec k KCount) as [->|Hk]; [discriminate|]. constructor; [|apply IH; destruct k; auto; discriminate].
      split; [apply Hv| congruence].
    - constructor. apply IH, H. }
  induction l as [|[c|k] l IH]; intros Hc x o.
  - cbn. split.
    + intros [= <-]. split; [auto|]. exists "", x. split; [reflexivity| constructor].
    + intros [H _]. rewrite H; reflexivity.
  - cbn [its rmatch counters times] in *. specialize (IH Hc). destruct x as [|d x].
    + split; [discriminate|]. intros [_ [y [z [Hx Hr]]]]. inversion Hr; subst. discriminate Hx.
    + cbn [fits]. destruct (Ascii.eqb_spec d c) as [->|Hd].
      * rewrite (IH x o). split; intros [H0 [y [z [Hx Hr]]]]; (split; [exact H0|]).
        -- exists (String c y), z. subst. split; [reflexivity| constructor; exact Hr].
        -- inversion Hr; subst. cbn in Hx. injection Hx as ->. eauto.
      * split; [discriminate|]. intros [_ [y [z [Hx Hr]]]]. inversion Hr; subst. cbn in Hx. injection Hx as -> _. congruence.
  - assert (Hdig : k <> KCount -> its (Cd k :: l) = Rep Digit (width k) :: its l /\ counters (Cd k :: l) = counters l) by (destruct k; auto; congruence).
    destruct (code_eq_dec k KCount) as [->|Hk].
    + clear Hdig. cbn [its rmatch counters] in *. assert (H0 : counters l = 0) by lia. specialize (IH ltac:(lia)). split.
      * destruct (times Digit 3 x) as [r|] eqn:Et; [|discriminate]. apply times_digits in Et as [t [-> Ht]].
        destruct (rmatch (its l) r) as [o'|] eqn:Er; [|discriminate]. apply IH in Er as [H1 [y [z [-> Hr]]]]. intros [= <-].
        split; [discriminate|]. exists (t ++ y), z. split; [symmetry; apply app_str_assoc|].
        assert (Hf : fetch 3 (t ++ y ++ z) = t) by (destruct Ht as [Ht _]; rewrite <- Ht; apply fetch_app). rewrite Hf. constructor.
        -- split; [exact Ht| reflexivity].
        -- eapply Hfree; [exact H0| exact Hr].
      * intros [_ [y [z [-> Hr]]]]. inversion Hr as [|? t ? y' [Hv1 Hv2] Hr'|]; subst. rewrite app_str_assoc.
        assert (Et : times Digit 3 (t ++ y' ++ z) = Some (y' ++ z)) by (apply times_digits; exists t; split; [reflexivity| exact Hv1]).
        rewrite Et. assert (Er : rmatch (its l) (y' ++ z) = Some None).
        { apply IH. split; [reflexivity|]. exists y', z. split; [reflexivity|]. eapply Hfree; [exact H0| exact Hr']. }
        rewrite Er. rewrite Hv2 by reflexivity. destruct Hv1 as [Hv1 _]. cbn in Hv1. rewrite <- Hv1 at 1. rewrite fetch_app. reflexivity.
    + destruct (Hdig Hk) as [E1 E2]. rewrite E1, E2 in *. cbn [rmatch]. specialize (IH Hc). split.
      * destruct (times Digit (width k) x) as [r|] eqn:Et; [|discriminate]. apply times_digits in Et as [t [-> Ht]].
        intro Hr. apply IH in Hr as [H1 [y [z [-> Hr]]]]. split; [exact H1|]. exists (t ++ y), z. split; [symmetry; apply app_str_assoc|].
        constructor; [split; [exact Ht| congruence]| exact Hr].
      * intros [H1 [y [z [-> Hr]]]]. inversion Hr as [|? t ? y' [Hv1 Hv2] Hr'|]; subst. rewrite app_str_assoc.
        assert (Et : times Digit (width k) (t ++ y' ++ z) = Some (y' ++ z)) by (apply times_digits; exists t; split; [reflexivity| exact Hv1]).
        rewrite Et. apply IH. split; [exact H1|]. eauto.
Qed.

(** ** Occurrences of %(count) *)
Lemma cut_keys k a r b : key k ++ r = a ++ key KCount ++ b -> (a = "" /\ k = KCount /\ r = b) \/ exists a', a = key k ++ a'.
Proof.
  destruct a as [|c a]; intro H.
  - left. cbn [append] in H. change ("" ++ key KCount ++ b) with (key KCount ++ b) in H. apply key_prefix_free in H. tauto.
  - right. assert (G : forall s r a, (forall c, In c (chars s) -> c <> "%"%char) -> s ++ r = a ++ key KCount ++ b -> exists a', a = s ++ a').
    { clear. induction s as [|x s IH]; intros r a Hs H; [exists a; reflexivity|]. destruct a as [|y a].
      - exfalso. cbn in H. injection H as Hx _. eapply Hs; [left; reflexivity| exact Hx].
      - cbn [append] in H. injection H as -> H. destruct (IH r a) as [a' ->]; [intros; apply Hs; right; assumption| exact H|]. exists a'. reflexivity. }
    unfold key in *. cbn [append] in H. injection H as <- H. destruct (G ("(" ++ word k ++ ")") r a) as [a' ->].
    + intros d Hd ->. destruct k; cbn in Hd; repeat (destruct Hd as [Hd|Hd]; [discriminate|]); exact Hd.
    + exact H.
    + exists a'. reflexivity.
Qed.
Lemma detok_app l1 l2 : detok (l1 ++ l2)%list = detok l1 ++ detok l2.
Proof. induction l1 as [|[c|k] l1 IH]; cbn [detok app]; [reflexivity| |]; rewrite IH; [|rewrite app_str_assoc]; reflexivity. Qed.
Lemma occurrence l : wt l -> forall a b, detok l = a ++ key KCount ++ b -> exists l1 l2, l = (l1 ++ Cd KCount :: l2)%list /\ detok l1 = a /\ detok l2 = b.
Proof.
  induction 1 as [|k l Hl IH|c l Hc Hl IH]; intros a b H; cbn [detok] in H.
  - destruct a; discriminate.
  - destruct (cut_keys _ _ _ _ H) as [[-> [-> <-]]|[a' ->]].
    + exists [], l. auto.
    + rewrite app_str_assoc in H. apply app_str_inj in H. destruct (IH _ _ H) as [l1 [l2 [-> [<- <-]]]]. exists (Cd k :: l1), l2. auto.
  - destruct a as [|d a]; [exfalso; eapply (Hc KCount); exact H|]. cbn [append] in H. injection H as -> H.
    destruct (IH _ _ H) as [l1 [l2 [-> [<- <-]]]]. exists (Ch d :: l1), l2. auto.
Qed.
Lemma counters_app l1 l2 : counters (l1 ++ l2) = counters l1 + counters l2.
Proof. induction l1 as [|[c|[]] l1 IH]; cbn; auto. Qed.
Lemma counters_split l : 0 < counters l -> exists l1 l2, l = (l1 ++ Cd KCount :: l2)%list /\ counters l1 = 0.
Proof.
  induction l as [|t l IH]; cbn; [lia|]. intro H. assert (Ht : t = Cd KCount \/ t <> Cd KCount) by (destruct t as [c|[]]; auto; right; discriminate).
  destruct Ht as [->|Ht]; [exists [], l; auto|]. destruct IH as [l1 [l2 [-> H1]]]; [destruct t as [c|[]]; auto; congruence|].
  exists (t :: l1), l2. split; [reflexivity|]. destruct t as [c|[]]; auto. congruence.
Qed.
Lemma once_counters l : wt l -> counts_once (detok l) -> counters l = 1.
Proof.
  intros Hl [[a [b Hab]] Hu]. destruct (occurrence l Hl a b Hab) as [l1 [l2 [-> [<- <-]]]]. clear Hab.
  rewrite counters_app. cbn. enough (counters l1 = 0 /\ counters l2 = 0) by lia. split.
  - destruct (Nat.eq_dec (counters l1) 0) as [|Hn]; [assumption|]. exfalso. destruct (counters_split l1) as [l3 [l4 [-> _]]]; [lia|].
    specialize (Hu (detok l3) (detok (l4 ++ Cd KCount :: l2)) (detok (l3 ++ Cd KCount :: l4)) (detok l2)).
    rewrite !detok_app in Hu. cbn [detok] in Hu. rewrite ?detok_app in Hu. cbn [detok] in Hu. rewrite !app_str_assoc in Hu. specialize (Hu eq_refl eq_refl).
    apply (f_equal String.length) in Hu. rewrite !length_app_str in Hu. change (String.length (key KCount)) with 8 in Hu. lia.
  - destruct (Nat.eq_dec (counters l2) 0) as [|Hn]; [assumption|]. exfalso. destruct (counters_split l2) as [l3 [l4 [-> _]]]; [lia|].
    specialize (Hu (detok l1) (detok (l3 ++ Cd KCount :: l4)) (detok (l1 ++ Cd KCount :: l3)) (detok l4)).
    rewrite !detok_app in Hu. cbn [detok] in Hu. rewrite ?detok_app in Hu. cbn [detok] in Hu. rewrite !app_str_assoc in Hu. specialize (Hu eq_refl eq_refl).
    apply (f_equal String.length) in Hu. rewrite !length_app_str in Hu. change (String.length (key KCount)) with 8 in Hu. lia.
Qed.
Lemma never_counters l : wt l -> counts_never (detok l) -> counters l = 0.
Proof.
  intros Hl Hn. destruct (Nat.eq_dec (counters l) 0) as [|H]; [assumption|]. exfalso. destruct (counters_split l) as [l1 [l2 [-> _]]]; [lia|].
  apply Hn. exists (detok l1), (detok l2). rewrite detok_app. reflexivity.
Qed.
Lemma plain_tokens l : plain (detok l) -> plain_toks l.
Proof.
  intros H c Hc. apply H. clear H. induction l as [|[d|k] l IH]; [destruct Hc| |]; cbn [detok].
  - destruct Hc as [[= ->]|Hc]; [left; reflexivity| right; auto].
  - destruct Hc as [Hc|Hc]; [discriminate|]. rewrite chars_app. apply in_or_app. right. auto.
Qed.

(** ** What is recognised *)
Lemma rend_impl (v v' : code -> string -> Prop) l x : (forall k t, v k t -> v' k t) -> rend v l x -> rend v' l x.
Proof. intros H. induction 1; constructor; auto. Qed.
Lemma rend_count (v : code -> string -> Prop) l x : rend v l x -> 0 < counters l -> exists t, v KCount t.
Proof. induction 1 as [|k t l x Hv Hr IH|c l x Hr IH]; cbn; [lia| |auto]. destruct k; eauto. Qed.
Lemma seen_shaped i k t : i < 1000 -> seen (Some i) k t <-> shaped i k t.
Proof.
  intro Hi. assert (Hi' : i < 10 ^ 3) by (cbn; lia). unfold seen, shaped. split; intros [H1 H2]; (split; [exact H1|]); intros ->; specialize (H2 eq_refl).
  - injection H2 as ->. exact (proj1 (padded_value 3 t H1)).
  - subst t. rewrite value_padded by exact Hi'. reflexivity.
Qed.
Lemma index_bears l x i : wt l -> counters l = 1 -> rmatch (its l) x = Some (Some i) <-> bears (detok l) x i.
Proof.
  intros Hl Hc. rewrite (rmatch_rend l) by lia. unfold bears. split.
  - intros [_ [y [z [-> Hr]]]].
    assert (Hi : i < 1000).
    { destruct (rend_count _ _ _ Hr) as [t [H1 H2]]; [lia|]. specialize (H2 eq_refl). injection H2 as ->. apply (padded_value 3 t H1). }
    split; [exact Hi|]. exists y, z. split; [reflexivity|]. apply rend_rendered; [exact Hl|]. eapply rend_impl; [|exact Hr].
    intros k t. apply seen_shaped, Hi.
  - intros [Hi [y [z [-> Hr]]]]. split; [lia|]. exists y, z. split; [reflexivity|].
    eapply rend_impl; [|exact (rendered_rend _ _ _ Hr l Hl eq_refl)]. intros k t. apply seen_shaped, Hi.
Qed.
Lemma index_some l x o : counters l = 1 -> rmatch (its l) x = Some o -> exists i, o = Some i.
Proof.
  intros Hc H. apply (rmatch_rend l) in H as [_ [y [z [_ Hr]]]]; [|lia]. destruct (rend_count _ _ _ Hr) as [t [_ H2]]; [lia|]. eauto.
Qed.
Lemma plain_bears l x : wt l -> counters l = 0 -> (exists o, rmatch (its l) x = Some o) <-> exists i, bears (detok l) x i.
Proof.
  intros Hl Hc. split.
  - intros [o H]. apply (rmatch_rend l) in H as [_ [y [z [-> Hr]]]]; [|lia]. exists 0. split; [lia|]. exists y, z. split; [reflexivity|].
    apply rend_rendered; [exact Hl|]. clear Hl. induction Hr as [|k t l x [Hv _] Hr IH|c l x Hr IH]; constructor; auto.
    + split; [exact Hv|]. intros ->. discriminate Hc.
    + apply IH. destruct k; auto; discriminate.
  - intros [i [Hi [y [z [-> Hr]]]]]. exists None. apply (rmatch_rend l); [lia|]. split; [reflexivity|]. exists y, z. split; [reflexivity|].
    pose proof (rendered_rend _ _ _ Hr l Hl eq_refl) as H. clear Hr Hl. induction H as [|k t l x [Hv _] Hr IH|c l x Hr IH]; constructor; auto.
    + split; [exact Hv|]. intros ->. discriminate Hc.
    + apply IH. destruct k; auto; discriminate.
Qed.
Lemma recognises fmt x : plain fmt -> counts_once fmt \/ counts_never fmt ->
  exists b, matches_format fmt x = Ok b /\ (b = true <-> exists i, bears fmt x i).
Proof.
  intros Hp Hc. destruct (tokenised fmt) as [l [Hl <-]]. apply plain_tokens in Hp.
  assert (Hcc : counters l = 1 \/ counters l = 0) by (destruct Hc; [left; apply once_counters| right; apply never_counters]; assumption).
  assert (Hle : counters l <= 1) by lia.
  unfold matches_format. rewrite (compiled l Hl Hp Hle). eexists. split; [reflexivity|]. destruct Hcc as [H1|H0].
  - destruct (rmatch (its l) x) as [o|] eqn:E.
    + split; [|reflexivity]. intros _. destruct (index_some l x o H1 E) as [i ->]. exists i. apply index_bears; assumption.
    + split; [discriminate|]. intros [i Hi]. apply (index_bears l x i Hl H1) in Hi. congruence.
  - pose proof (plain_bears l x Hl H0) as Hb. destruct (rmatch (its l) x) as [o|] eqn:E.
    + split; [|reflexivity]. intros _. apply Hb. eauto.
    + split; [discriminate|]. intros Hi. apply Hb in Hi as [o Ho]. congruence.
Qed.

Lemma max_index_spec l names : forall m0, let m := fold_left (fun m x => match rmatch l x with
                        | Some (Some i) => match m with Some j => Some (if Nat.ltb j i then i else j) | None => Some i end
                        | _ => m
                        end) names m0 in
  (forall x i, In x names -> rmatch l x = Some (Some i) -> exists j, m = Some j /\ i <= j) /\
  (forall j, m0 = Some j -> exists j', m = Some j' /\ j <= j') /\
  (forall j, m = Some j -> m0 = Some j \/ exists x, In x names /\ rmatch l x = Some (Some j)).
Proof.
  induction names as [|x names IH]; intro m0; cbn [fold_left In]; cbv zeta.
  - splits; [intros ? ? []| intros j ->; eauto| auto].
  - match goal with |- context [fold_left _ names ?m] => set (m1 := m) end. destruct (IH m1) as [H1 [H2 H3]]. splits.
    + intros y i [<-|Hy] Hr; [|eauto]. assert (Hm : exists j, m1 = Some j /\ i <= j).
      { unfold m1. rewrite Hr. destruct m0 as [j|]; [|eauto]. destruct (Nat.ltb_spec j i); eauto. }
      destruct Hm as [j [Hm Hij]]. destruct (H2 j Hm) as [j' [Hj' ?]]. exists j'. split; [exact Hj'| lia].
    + intros j ->. assert (Hm : exists j', m1 = Some j' /\ j <= j').
      { unfold m1. destruct (rmatch l x) as [[i|]|]; eauto. destruct (Nat.ltb_spec j i); eexists; split; eauto; lia. }
      destruct Hm as [j1 [Hm Hij]]. destruct (H2 j1 Hm) as [j' [Hj' ?]]. exists j'. split; [exact Hj'| lia].
    + intros j Hj. destruct (H3 j Hj) as [Hm|[y [Hy Hr]]]; [|right; eauto].
      unfold m1 in Hm. destruct (rmatch l x) as [[i|]|] eqn:E; auto. destruct m0 as [j0|].
      * destruct (Nat.ltb_spec j0 i); injection Hm as <-; auto. right. eauto.
      * injection Hm as <-. right. eauto.
Qed.
Lemma count_spec fmt dir : plain fmt -> counts_once fmt -> exists n, count_of fmt dir = Ok n /\
  let names := match dir with Some l => l | None => [] end in
  (forall x i, In x names -> bears fmt x i -> i < n) /\ (n = 0 \/ exists x i, In x names /\ bears fmt x i /\ n = S i).
Proof.
  intros Hp Hc. destruct (tokenised fmt) as [l [Hl <-]]. apply plain_tokens in Hp. apply once_counters in Hc; [|exact Hl].
  unfold count_of. destruct dir as [[|x0 names]|]; try (exists 0; cbn; splits; [reflexivity| intros ? ? []| auto]).
  rewrite (compiled l Hl Hp ltac:(lia)). eexists. split; [reflexivity|]. cbv zeta. unfold max_index.
  destruct (max_index_spec (its l) (x0 :: names) None) as [H1 [_ H3]]. cbv zeta in H1, H3.
  set (m := fold_left _ (x0 :: names) None) in *. clearbody m. split.
  - intros x i Hx Hb. apply index_bears in Hb; [|assumption..]. destruct (H1 x i Hx Hb) as [j [-> Hij]]. lia.
  - destruct m as [j|]; [|auto]. right. destruct (H3 j eq_refl) as [?|[x [Hx Hr]]]; [discriminate|].
    exists x, j. splits; auto. apply index_bears; assumption.
Qed.

Lemma rendered_impl (v v' : code -> string -> Prop) f x : (forall k t, v k t -> v' k t) -> rendered v f x -> rendered v' f x.
Proof. intros H. induction 1; constructor; auto. Qed.
Lemma name_bears fmt t dir name n : valid t -> count_of fmt dir = Ok n -> n < 1000 -> get_name fmt t dir = Ok name -> bears fmt name n.
Proof.
  intros Hv Hn Hlt Hg. split; [exact Hlt|]. exists name, "". split; [symmetry; apply app_nil_str|].
  eapply rendered_impl; [|exact (get_name_renders _ _ _ _ _ Hn Hg)]. intros k x ->. assert (Hlt' : n < 10 ^ 3) by (cbn; lia). split.
  - destruct (code_eq_dec k KCount) as [->|Hk]; [apply number_padded, Hlt'|].
    assert (E : stamps t n k = stamp t k) by (destruct k; auto; congruence). rewrite E. apply stamp_width; assumption.
  - intros ->. reflexivity.
Qed.
Lemma bears_app fmt x z i : bears fmt x i -> bears fmt (x ++ z) i.
Proof. intros [Hi [y [z' [-> Hr]]]]. split; [exact Hi|]. exists y, (z' ++ z). split; [apply app_str_assoc| exact Hr]. Qed.

(** ** with_suffix *)
Lemma cut_dot_none s : ~ In "."%char (chars s) -> cut_dot s = None.
Proof.
  induction s as [|c s IH]; intro H; cbn in *; [reflexivity|]. rewrite IH by tauto. destruct (Ascii.eqb_spec c "."); [subst; tauto| reflexivity].
Qed.
Lemma tar_undotted s : ~ In "."%char (chars s) -> tar_name s = s ++ ".tar.gz".
Proof. intro H. unfold tar_name. rewrite cut_dot_none by exact H. reflexivity. Qed.
Lemma rendered_chars (v : code -> string -> Prop) fmt x c : (forall k t d, v k t -> In d (chars t) -> is_digit d = true) -> rendered v fmt x -> In c (chars x) ->
  is_digit c = true \/ In c (chars fmt).
Proof.
  intros Hv Hr. induction Hr as [|k t f x Ht Hr IH|d f x Hn Hr IH]; cbn; [auto| |].
  - rewrite !chars_app, !in_app_iff. intros [H|H]; [left; eauto|]. destruct (IH H); auto.
  - intros [<-|H]; [auto|]. destruct (IH H); auto.
Qed.

(** ** Clean-up *)
Lemma sle_refl a : sle a a = true.
Proof. induction a as [|c a IH]; cbn; [reflexivity|]. rewrite Ascii.eqb_refl. exact IH. Qed.
Lemma sle_total a : forall b, sle a b = false -> sle b a = true.
Proof.
  induction a as [|c a IH]; intros [|d b]; cbn; auto; try discriminate. rewrite (Ascii.eqb_sym d c). destruct (Ascii.eqb_spec c d); [auto|].
  intro H. apply Nat.ltb_lt. apply Nat.ltb_ge in H. assert (nat_of_ascii c <> nat_of_ascii d); [|lia].
  intro E. apply n. rewrite <- (ascii_nat_embedding c), <- (ascii_nat_embedding d), E. reflexivity.
Qed.
Lemma sle_trans a : forall b c, sle a b = true -> sle b c = true -> sle a c = true.
Proof.
  induction a as [|x a IH]; intros [|y b] [|z c]; cbn; auto; try discriminate.
  destruct (Ascii.eqb_spec x y) as [->|Hxy].
  - destruct (Ascii.eqb_spec y z); eauto.
  - intro H1. destruct (Ascii.eqb_spec y z) as [->|Hyz].
    + destruct (Ascii.eqb_spec x z); [congruence| auto].
    + intro H2. apply Nat.ltb_lt in H1, H2. destruct (Ascii.eqb_spec x z) as [->|]; [lia|]. apply Nat.ltb_lt. lia.
Qed.
Lemma sle_antisym a : forall b, sle a b = true -> sle b a = true -> a = b.
Proof.
  induction a as [|x a IH]; intros [|y b]; cbn; auto; try discriminate. rewrite (Ascii.eqb_sym y x). destruct (Ascii.eqb_spec x y) as [->|].
  - intros H1 H2. rewrite (IH b H1 H2). reflexivity.
  - intros H1 H2. apply Nat.ltb_lt in H1, H2. lia.
Qed.

(** How many of the names are greater. *)
Definition greater (x : string) (l : list string) : list string := filter (fun y => negb (sle y x)) l.
Fixpoint desc (l : list string) : Prop := match l with [] => True | x :: l' => (forall y, In y l' -> sle y x = true) /\ desc l' end.
Lemma insert_in x l y : In y (insert_desc x l) <-> y = x \/ In y l.
Proof.
  induction l as [|z l IH]; cbn; [intuition congruence|]. destruct (sle z x); cbn; [intuition congruence|]. rewrite IH. intuition congruence.
Qed.
Lemma insert_sorted x l : desc l -> desc (insert_desc x l).
Proof.
  induction l as [|z l IH]; cbn; [intros _; split; [intros ? []| exact I]|]. intros [H1 H2]. destruct (sle z x) eqn:E; cbn.
  - split; [|auto]. intros y [<-|Hy]; [exact E|]. eapply sle_trans; [apply H1, Hy| exact E].
  - split; [|auto]. intros y Hy. apply insert_in in Hy as [->|Hy]; [|auto]. apply sle_total, E.
Qed.
Lemma sort_in l y : In y (sort_desc l) <-> In y l.
Proof. induction l as [|x l IH]; cbn; [tauto|]. rewrite insert_in, IH. intuition congruence. Qed.
Lemma sort_sorted l : desc (sort_desc l).
Proof. induction l as [|x l IH]; cbn; [exact I| apply insert_sorted, IH]. Qed.
Lemma greater_insert x z l : length (greater x (insert_desc z l)) = length (greater x (z :: l)).
Proof.
  induction l as [|y l IH]; cbn; [reflexivity|]. destruct (sle y z); [reflexivity|]. unfold greater in *. cbn [filter] in *. destruct (sle y x), (sle z x); cbn [negb length] in *; lia.
Qed.
Lemma greater_sort x l : length (greater x (sort_desc l)) = length (greater x l).
Proof.
  induction l as [|y l IH]; cbn [sort_desc fold_right]; [reflexivity|]. rewrite greater_insert. unfold greater in *. cbn [filter]. change (fold_right insert_desc [] l) with (sort_desc l). destruct (sle y x); cbn [negb length]; rewrite IH; reflexivity.
Qed.
Lemma nodup_insert x l : ~ In x l -> NoDup l -> NoDup (insert_desc x l).
Proof.
  induction l as [|y l IH]; cbn; intros Hn Hd; [constructor; [auto| constructor]|]. destruct (sle y x); [constructor; auto|].
  inversion Hd; subst. constructor; [|apply IH; tauto]. rewrite insert_in. intros [->|]; tauto.
Qed.
Lemma nodup_sort l : NoDup l -> NoDup (sort_desc l).
Proof.
  induction 1 as [|x l Hn Hd IH]; cbn; [constructor|]. apply nodup_insert; [|exact IH]. change (fold_right insert_desc [] l) with (sort_desc l).
  rewrite sort_in. exact Hn.
Qed.
(** In a descending list without repetitions the position of an element is the number of greater ones. *)
Lemma skipn_rank l : desc l -> NoDup l -> forall n x, In x l -> In x (skipn n l) <-> n <= length (greater x l).
Proof.
  intros Hs Hd. induction l as [|y l IH]; intros n x Hx; [destruct Hx|]. destruct Hs as [H1 H2]. inversion Hd as [|? ? Hy Hd']; subst.
  destruct n as [|n]; cbn [skipn]; [split; [lia| auto]|]. cbn [greater filter]. destruct Hx as [->|Hx].
  - rewrite sle_refl. cbn [negb]. assert (E : filter (fun z => negb (sle z x)) l = []).
    { clear -H1. induction l as [|z l IH]; cbn; [reflexivity|]. rewrite (H1 z) by (left; reflexivity). cbn. apply IH. intros; apply H1; right; assumption. }
    rewrite E. cbn. split; [|lia]. intro Hi. exfalso. apply Hy. clear -Hi. revert n Hi. induction l as [|z l IH]; intros [|n] Hi; cbn in *; auto. right. eapply IH, Hi.
  - assert (E : sle y x = false). { destruct (sle y x) eqn:E; [|reflexivity]. exfalso. apply Hy. rewrite (sle_antisym y x E (H1 x Hx)). exact Hx. }
    rewrite E. cbn [negb length]. rewrite (IH H2 Hd' n x Hx). fold (greater x l). lia.
Qed.

Lemma skipn_incl {A} n (l : list A) x : In x (skipn n l) -> In x l.
Proof. revert n. induction l as [|y l IH]; intros [|n]; cbn; auto. intro H. right. eapply IH, H. Qed.
Lemma filter_greater x p l : greater x (filter p l) = filter (fun y => p y && negb (sle y x)) l.
Proof.
  unfold greater. induction l as [|y l IH]; cbn [filter]; [reflexivity|]. destruct (p y); cbn [filter andb]; [|exact IH].
  destruct (negb (sle y x)); rewrite IH; reflexivity.
Qed.

Lemma clean_spec fmt keep dir dir' e : NoDup (map fst dir) -> clean_up fmt keep dir = Ok dir' ->
  In e dir' <-> In e dir /\
    (snd e = false \/ matches_format fmt (fst e) = Ok false \/
     length (filter (fun y => match matches_format fmt y with Ok b => b | Err _ => false end && negb (sle y (fst e))) (map fst dir)) < keep + 2).
Proof.
  intros Hd Hc. unfold clean_up in Hc. destruct dir as [|e0 dir0]; [injection Hc as <-; cbn; tauto|]. set (dir := e0 :: dir0) in *. clearbody dir. clear e0 dir0.
  unfold matches_format. destruct (compile (format_re fmt)) as [l|]; [|discriminate]. injection Hc as <-. rewrite filter_In.
  set (p := fun x => match rmatch l x with Some _ => true | None => false end).
  assert (Hin : In e dir -> (existsb (String.eqb (fst e)) (doomed l keep (map fst dir)) = true <->
                 p (fst e) = true /\ keep + 2 <= length (filter (fun y => p y && negb (sle y (fst e))) (map fst dir)))).
  { intro He. assert (Hm : In (fst e) (map fst dir)) by (apply in_map, He). unfold doomed. fold p. rewrite existsb_exists. split.
    - intros [x [Hx E]]. apply String.eqb_eq in E. subst x.
      assert (Hf : In (fst e) (filter p (map fst dir))) by (apply sort_in; eapply skipn_incl, Hx).
      split; [apply filter_In in Hf; apply Hf|]. rewrite <- filter_greater, <- greater_sort. apply skipn_rank; [apply sort_sorted| apply nodup_sort, NoDup_filter, Hd| apply sort_in, Hf| exact Hx].
    - intros [Hp Hr]. exists (fst e). split; [|apply String.eqb_refl]. assert (Hf : In (fst e) (filter p (map fst dir))) by (apply filter_In; auto).
      rewrite <- filter_greater, <- greater_sort in Hr. apply skipn_rank; [apply sort_sorted| apply nodup_sort, NoDup_filter, Hd| apply sort_in, Hf| exact Hr]. }
  change (fun y => match rmatch l y with Some _ => true | None => false end && negb (sle y (fst e))) with (fun y => p y && negb (sle y (fst e))).
  split.
  - intros [He Hk]. split; [exact He|]. apply negb_true_iff, andb_false_iff in Hk as [Hk|Hk]; [auto|]. right.
    assert (Hpe : p (fst e) = true \/ p (fst e) = false) by (destruct (p (fst e)); auto).
    destruct Hpe as [Hpe|Hpe]; [|left; unfold p in Hpe; rewrite Hpe; reflexivity]. right.
    destruct (Nat.lt_ge_cases (length (filter (fun y => p y && negb (sle y (fst e))) (map fst dir))) (keep + 2)) as [H|H]; [exact H|].
    rewrite (proj2 (Hin He)) in Hk by auto. discriminate.
  - intros [He Hk]. split; [exact He|]. apply negb_true_iff, andb_false_iff. destruct Hk as [Hk|[Hk|Hk]]; [auto| |]; right.
    + apply not_true_iff_false; intro E. apply (Hin He) in E as [E _]. unfold p in E. injection Hk as Hk. congruence.
    + apply not_true_iff_false; intro E. apply (Hin He) in E as [_ E]. lia.
Qed.

(** ** Numbered names are ordered by their number *)
Lemma sle_same p a b : sle (p ++ a) (p ++ b) = sle a b.
Proof. induction p as [|c p IH]; cbn; [reflexivity|]. rewrite Ascii.eqb_refl. exact IH. Qed.
Lemma number_order s : forall t a b, String.length s = String.length t -> (forall c, In c (chars s) -> is_digit c = true) ->
  (forall c, In c (chars t) -> is_digit c = true) -> forall acc, value s acc < value t acc -> sle (s ++ a) (t ++ b) = true /\ sle (t ++ b) (s ++ a) = false.
Proof.
  induction s as [|c s IH]; intros [|d t] a b Hl Hs Ht acc H; try discriminate Hl; [cbn in H; lia|]. cbn [append sle value] in *. cbn in Hl.
  rewrite (Ascii.eqb_sym d c). assert (Hc := Hs c (or_introl eq_refl)). assert (Hd := Ht d (or_introl eq_refl)).
  destruct (Ascii.eqb_spec c d) as [->|Hn].
  - eapply IH; [lia| intros; apply Hs; right; assumption| intros; apply Ht; right; assumption| exact H].
  - assert (Hv : digit_val c < digit_val d).
    { destruct (Nat.lt_trichotomy (digit_val c) (digit_val d)) as [|[E|G]]; [assumption| exfalso; apply Hn, digit_inj; assumption|].
      exfalso. pose proof (value_bound t (10 * acc + digit_val d) (fun x Hx => Ht x (or_intror Hx))) as B.
      assert (L : forall s0 x, x * 10 ^ String.length s0 <= value s0 x).
      { clear. induction s0 as [|y s0 IH]; intro x; cbn [value String.length]; [cbn; lia|]. rewrite Nat.pow_succ_r'. specialize (IH (10 * x + digit_val y)).
        set (q := 10 ^ String.length s0) in *. clearbody q. nia. }
      specialize (L s (10 * acc + digit_val c)). assert (El : String.length s = String.length t) by lia. rewrite El in L.
      set (q := 10 ^ String.length t) in *. clearbody q. nia. }
    unfold is_digit, digit_val in *. apply andb_true_iff in Hc as [Hc1 _]. apply andb_true_iff in Hd as [Hd1 _]. apply Nat.leb_le in Hc1, Hd1.
    split; [apply Nat.ltb_lt; lia| apply Nat.ltb_ge; lia].
Qed.
Lemma undated_tail k f : undated (key k ++ f) -> k = KCount.
Proof. intro H. destruct (code_eq_dec k KCount) as [|Hk]; [assumption|]. exfalso. apply (H k Hk). exists "", f. reflexivity. Qed.
Lemma undated_app a f : undated (a ++ f) -> undated f.
Proof. intros H k Hk [x [y ->]]. apply (H k Hk). exists (a ++ x), y. symmetry. apply app_str_assoc. Qed.
Lemma rendered_key_inv (v : code -> string -> Prop) g w : rendered v g w -> forall k f, g = key k ++ f -> exists t x, w = t ++ x /\ v k t /\ rendered v f x.
Proof.
  intros H k f E. destruct H as [|k' t f' x Hv Hr|c f' x Hn Hr]; [discriminate| |].
  - apply key_prefix_free in E as [-> ->]. eauto.
  - exfalso. eapply Hn, E.
Qed.
Lemma rendered_char_inv (v : code -> string -> Prop) g w : rendered v g w -> forall c f, g = String c f -> (forall k r, String c f <> key k ++ r) ->
  exists x, w = String c x /\ rendered v f x.
Proof.
  intros H c f E Hn. destruct H as [|k' t f' x Hv Hr|c' f' x Hn' Hr]; [discriminate| |].
  - exfalso. eapply (Hn k'). symmetry. exact E.
  - injection E as -> ->. eauto.
Qed.
Lemma numbered_order fmt i j y y' z z' : undated fmt -> occurs (key KCount) fmt -> i < j -> j < 1000 ->
  rendered (shaped i) fmt y -> rendered (shaped j) fmt y' -> sle (y ++ z) (y' ++ z') = true /\ sle (y' ++ z') (y ++ z) = false.
Proof.
  intros Hu Ho Hij Hj Hr. revert y' Hu Ho. induction Hr as [|k t f x [Hv1 Hv2] Hr IH|c f x Hn Hr IH]; intros y' Hu Ho Hr'.
  - destruct Ho as [a [b E]]. destruct a; discriminate.
  - assert (k = KCount) by (eapply undated_tail; exact Hu). subst k. rewrite Hv2 by reflexivity.
    destruct (rendered_key_inv _ _ _ Hr' KCount f eq_refl) as [t' [x' [-> [[Hv1' Hv2'] Hr2]]]]. rewrite Hv2' by reflexivity. rewrite !app_str_assoc.
      assert (Hi3 : i < 10 ^ 3) by (cbn; lia). assert (Hj3 : j < 10 ^ 3) by (cbn; lia).
      destruct (number_padded 3 i Hi3) as [A1 A2]. destruct (number_padded 3 j Hj3) as [B1 B2].
      apply number_order with (acc := 0); [congruence| exact A2| exact B2|]. rewrite !value_padded by assumption. exact Hij.
  - destruct (rendered_char_inv _ _ _ Hr' c f eq_refl Hn) as [x' [-> Hr2]].
    cbn [append sle]. rewrite Ascii.eqb_refl. apply IH; [eapply (undated_app (String c "")); exact Hu| |exact Hr2].
    destruct Ho as [a [b E]]. destruct a as [|d a]; [exfalso; eapply (Hn KCount); exact E|]. cbn in E. injection E as -> E. exists a, b. exact E.
Qed.

Lemma bears_unique fmt x i j : counts_once fmt -> bears fmt x i -> bears fmt x j -> i = j.
Proof.
  destruct (tokenised fmt) as [l [Hl <-]]. intros Hc Hi Hj. apply once_counters in Hc; [|exact Hl].
  apply index_bears in Hi; [|assumption..]. apply index_bears in Hj; [|assumption..]. congruence.
Qed.
Lemma bears_order fmt x i y j : undated fmt -> counts_once fmt -> bears fmt x i -> bears fmt y j -> i < j -> sle y x = false.
Proof.
  intros Hu [Ho _] [_ [a [b [-> Ha]]]] [Hj [c [d [-> Hc]]]] Hij. eapply numbered_order; eassumption.
Qed.
Lemma bears_le fmt x i y j : undated fmt -> counts_once fmt -> bears fmt x i -> bears fmt y j -> i < j -> sle x y = true.
Proof.
  intros Hu [Ho _] [_ [a [b [-> Ha]]]] [Hj [c [d [-> Hc]]]] Hij. eapply numbered_order; eassumption.
Qed.
Lemma same_length {A} (l l' : list A) : NoDup l -> NoDup l' -> (forall x, In x l <-> In x l') -> length l = length l'.
Proof. intros H1 H2 H. apply Nat.le_antisymm; apply NoDup_incl_length; auto; intros x Hx; apply H, Hx. Qed.
Lemma sle_prefix a z : sle a (a ++ z) = true.
Proof. induction a as [|c a IH]; cbn; [reflexivity|]. rewrite Ascii.eqb_refl. exact IH. Qed.
Lemma nodup_filter_map {A B} (f : A -> B) p l : NoDup (map f l) -> NoDup (map f (filter p l)).
Proof.
  induction l as [|a l IH]; cbn; [auto|]. intro H. inversion H as [|? ? Hn Hd]; subst. destruct (p a); cbn; [|auto]. constructor; [|auto].
  intro Hi. apply Hn. apply in_map_iff in Hi as [b [<- Hb]]. apply filter_In in Hb as [Hb _]. apply in_map, Hb.
Qed.

(** [x] carries the number [i], the entries with greater names are those with greater numbers. *)
Lemma recent_rank fmt keep dir nm n old dir' : plain fmt -> counts_once fmt -> undated fmt -> NoDup (map fst dir) ->
  In (nm, false) dir -> In ((nm ++ ".tar.gz")%string, true) dir -> bears fmt nm n ->
  NoDup (map fst old) -> NoDup (map snd old) ->
  (forall i x, In (i, x) old -> i < n /\ bears fmt x i /\ In (x, true) dir) ->
  (forall e i, In e dir -> bears fmt (fst e) i -> fst e = nm \/ fst e = (nm ++ ".tar.gz")%string \/ In (i, fst e) old) ->
  clean_up fmt keep dir = Ok dir' ->
  In ((nm ++ ".tar.gz")%string, true) dir' /\
  forall i x, In (i, x) old -> (In (x, true) dir' <-> length (filter (fun p => Nat.ltb i (fst p)) old) < keep).
Proof.
  intros Hp Hc Hu Hd Hnew Htar Hn Hold1 Hold2 Hold Hall Hcl.
  assert (Hm : forall x, match matches_format fmt x with Ok b => b | Err _ => false end = true <-> exists i, bears fmt x i).
  { intro x. destruct (recognises fmt x Hp (or_introl Hc)) as [b [-> Hb]]. exact Hb. }
  assert (Htn : bears fmt (nm ++ ".tar.gz") n) by (apply bears_app, Hn).
  assert (Hne : nm <> (nm ++ ".tar.gz")%string).
  { intro E. assert (L : String.length nm = String.length (nm ++ ".tar.gz")%string) by (rewrite <- E; reflexivity). rewrite length_app_str in L. cbn in L. lia. }
  assert (Hlow : forall i x, In (i, x) old -> x <> nm /\ x <> (nm ++ ".tar.gz")%string).
  { intros i x Hx. destruct (Hold i x Hx) as [Hi [Hb _]]. split; intros ->; [pose proof (bears_unique _ _ _ _ Hc Hb Hn)| pose proof (bears_unique _ _ _ _ Hc Hb Htn)]; lia. }
  split.
  - apply (clean_spec fmt keep dir dir' _ Hd Hcl). split; [exact Htar|]. right. right. cbn [fst].
    enough (E : filter (fun y => match matches_format fmt y with Ok b => b | Err _ => false end && negb (sle y (nm ++ ".tar.gz"))) (map fst dir) = []) by (rewrite E; cbn; lia).
    destruct (filter _ _) as [|y l] eqn:E; [reflexivity|]. exfalso. assert (Hy : In y (y :: l)) by (left; reflexivity). rewrite <- E in Hy.
    apply filter_In in Hy as [Hy1 Hy2]. apply andb_true_iff in Hy2 as [Hy2 Hy3]. apply Hm in Hy2 as [i Hi]. apply negb_true_iff in Hy3.
    apply in_map_iff in Hy1 as [e [<- He]]. destruct (Hall e i He Hi) as [H|[H|H]].
    + rewrite H, sle_prefix in Hy3. discriminate.
    + rewrite H, sle_refl in Hy3. discriminate.
    + destruct (Hold _ _ H) as [H1 [H2 _]]. pose proof (bears_le _ _ _ _ _ Hu Hc H2 Htn H1) as H3. rewrite H3 in Hy3. discriminate.
  - intros i x Hx. destruct (Hold i x Hx) as [Hi [Hb He]]. rewrite (clean_spec fmt keep dir dir' _ Hd Hcl). cbn [fst snd].
    assert (EL : length (filter (fun y => match matches_format fmt y with Ok b => b | Err _ => false end && negb (sle y x)) (map fst dir))
            = S (S (length (filter (fun p => Nat.ltb i (fst p)) old)))).
    { rewrite <- (map_length snd (filter _ old)).
      change (S (S (length (map snd (filter (fun p => Nat.ltb i (fst p)) old))))) with (length (nm :: (nm ++ ".tar.gz")%string :: map snd (filter (fun p => Nat.ltb i (fst p)) old))).
      apply same_length.
      - apply NoDup_filter, Hd.
      - assert (Hin : forall y, In y (map snd (filter (fun p => Nat.ltb i (fst p)) old)) -> y <> nm /\ y <> (nm ++ ".tar.gz")%string).
        { intros y Hy. apply in_map_iff in Hy as [[j z] [<- Hy]]. apply filter_In in Hy as [Hy _]. exact (Hlow j z Hy). }
        constructor; [intros [H|H]; [congruence| destruct (Hin _ H); congruence]|]. constructor; [intro H; destruct (Hin _ H); congruence|].
        apply nodup_filter_map, Hold2.
      - intro y. rewrite filter_In, andb_true_iff, Hm, negb_true_iff. split.
        + intros [Hy1 [[j Hj] Hy3]]. apply in_map_iff in Hy1 as [e [<- Hy1]]. destruct (Hall e j Hy1 Hj) as [H|[H|H]]; [left; congruence| right; left; congruence|].
          right. right. apply in_map_iff. exists (j, fst e). split; [reflexivity|]. apply filter_In. split; [exact H|]. cbn [fst]. apply Nat.ltb_lt.
          destruct (Nat.lt_trichotomy i j) as [|[->|L]]; [assumption| |].
          * exfalso. destruct (Hold _ _ H) as [_ [_ _]].
            assert (E : fst e = x). { clear -Hold1 H Hx. induction old as [|[a b] old IH]; [destruct H|]. cbn in Hold1. inversion Hold1 as [|? ? Hn Hd]; subst.
              destruct H as [H|H], Hx as [Hx|Hx].
              - congruence.
              - injection H as -> ->. exfalso. apply Hn. change j with (fst (j, x)). apply in_map, Hx.
              - injection Hx as -> ->. exfalso. apply Hn. change j with (fst (j, fst e)). apply in_map, H.
              - auto. }
            rewrite E, sle_refl in Hy3. discriminate.
          * exfalso. rewrite (bears_le _ _ _ _ _ Hu Hc Hj Hb L) in Hy3. discriminate.
        + intros [<-|[<-|H]].
          * split; [change nm with (fst (nm, false)); apply in_map, Hnew|]. split; [eauto|]. eapply bears_order; eassumption.
          * split; [change (nm ++ ".tar.gz")%string with (fst ((nm ++ ".tar.gz")%string, true)); apply in_map, Htar|]. split; [eauto|]. eapply bears_order; eassumption.
          * apply in_map_iff in H as [[j z] [<- H]]. apply filter_In in H as [H1 H2]. cbn [fst snd] in *. apply Nat.ltb_lt in H2.
            destruct (Hold j z H1) as [Hj [Hz He']]. split; [change z with (fst (z, true)); apply in_map, He'|]. split; [eauto|]. eapply bears_order; eassumption. }
    rewrite EL. split.
    + intros [_ [H|[H|H]]]; [discriminate| |lia]. exfalso. specialize (Hm x). rewrite H in Hm. destruct Hm as [_ Hm]. discriminate Hm. eauto.
    + intro H. split; [exact He|]. right. right. lia.
Qed.
