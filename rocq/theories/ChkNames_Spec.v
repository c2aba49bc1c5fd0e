(** * Checkpoint names: vocabulary of the properties *)
From Coq Require Import Ascii.
From Verif Require Import Prelude ChkNames_Model.

(** [x] is the format [fmt] with a text allowed by [v] for every key. *)
Inductive rendered (v : code -> string -> Prop) : string -> string -> Prop :=
  | rend_nil : rendered v "" ""
  | rend_key k t f x : v k t -> rendered v f x -> rendered v (key k ++ f) (t ++ x)
  | rend_char c f x : (forall k r, String c f <> (key k ++ r)%string) -> rendered v f x -> rendered v (String c f) (String c x).

Definition occurs (sub s : string) : Prop := exists a b, s = (a ++ sub ++ b)%string.
(** The two characters which are special in regular expressions but not escaped. *)
Definition unescaped (c : ascii) : Prop := c = "?"%char \/ c = "\"%char.
Fixpoint chars (s : string) : list ascii := match s with EmptyString => [] | String c s' => c :: chars s' end.
Definition plain (fmt : string) : Prop := forall c, In c (chars fmt) -> ~ unescaped c.
(** %(count) is used exactly once, not at all. *)
Definition counts_once (fmt : string) : Prop :=
  occurs (key KCount) fmt /\
  forall a b a' b', fmt = (a ++ key KCount ++ b)%string -> fmt = (a' ++ key KCount ++ b')%string -> a = a'.
Definition counts_never (fmt : string) : Prop := ~ occurs (key KCount) fmt.

(** A decimal number written with [n] digits. *)
Definition number (n : nat) (t : string) : Prop := String.length t = n /\ forall c, In c (chars t) -> is_digit c = true.
(** Text of the right width for each key; the count has the value [i]. *)
Definition shaped (i : nat) (k : code) (t : string) : Prop :=
  number (width k) t /\ (k = KCount -> t = padded 3 i).
(** [x] is a name of this format with count [i], possibly with something appended ('.tar.gz'). *)
Definition bears (fmt x : string) (i : nat) : Prop := i < 1000 /\ exists y z, x = (y ++ z)%string /\ rendered (shaped i) fmt y.

Definition valid (t : clock) : Prop :=
  1 <= ck_y t / 1000 <= 9 /\ 1 <= ck_mo t <= 12 /\ 1 <= ck_d t <= 31 /\ ck_h t < 24 /\ ck_mi t < 60 /\ ck_s t < 62.

(** %(count) is the only key in use: names are ordered by their number. *)
Definition undated (fmt : string) : Prop := forall k, k <> KCount -> ~ occurs (key k) fmt.

(** The text for a key at time [t] with number [n]. *)
Definition spelled (t : clock) (n : nat) (k : code) (x : string) : Prop :=
  match k with
  | KDate => exists y m d, x = (y ++ m ++ d)%string /\ y = padded 4 (ck_y t) /\ m = padded 2 (ck_mo t) /\ d = padded 2 (ck_d t)
  | KYear => x = padded 4 (ck_y t)
  | KYr => x = padded 2 (ck_y t mod 100)
  | KMonth => x = padded 2 (ck_mo t)
  | KDay => x = padded 2 (ck_d t)
  | KTime => exists h m s, x = (h ++ m ++ s)%string /\ h = padded 2 (ck_h t) /\ m = padded 2 (ck_mi t) /\ s = padded 2 (ck_s t)
  | KHour => x = padded 2 (ck_h t)
  | KMin => x = padded 2 (ck_mi t)
  | KSec => x = padded 2 (ck_s t)
  | KCount => x = padded 3 n
  end.
(** How many of [names] are checkpoint names sorting after [x]. *)
Definition newer (fmt x : string) (names : list string) : nat :=
  length (filter (fun y => match matches_format fmt y with Ok b => b | Err _ => false end && negb (sle y x)) names).
