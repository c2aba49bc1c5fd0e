(** * Checkpoint names: glompo/core/checkpointing.py and the clean-up in GloMPOManager.checkpoint

    Directory entries are names without slashes; characters are those of ASCII. *)
From Coq Require Import Ascii DecimalString.
From Verif Require Import Prelude.

(** ** Python strings *)
(** What follows [k] in [s], if [s] starts with [k]. *)
Fixpoint strip (k s : string) : option string :=
  match k, s with
  | EmptyString, _ => Some s
  | String _ _, EmptyString => None
  | String a k', String b s' => if Ascii.eqb a b then strip k' s' else None
  end.

(** [s.replace(key, val)]: leftmost occurrences first, not overlapping.  [skip] characters belong to an occurrence. *)
Fixpoint repl (key val : string) (skip : nat) (s : string) : string :=
  match s with
  | EmptyString => EmptyString
  | String c s' =>
      match skip with
      | S k => repl key val k s'
      | 0 => match strip key s with
             | Some _ => val ++ repl key val (String.length key - 1) s'
             | None => String c (repl key val 0 s')
             end
      end
  end.
Definition replace (key val s : string) : string := repl key val 0 s.

(** [n] written with at least [k] digits ([strftime] and the format [:03]). *)
Definition decimal (n : nat) : string := NilEmpty.string_of_uint (Nat.to_uint n).
Fixpoint dec (k n : nat) : string :=
  match k with 0 => "" | S k' => dec k' (n / 10) ++ String (ascii_of_nat (48 + n mod 10)) "" end.
Definition padded (k n : nat) : string := if Nat.ltb n (10 ^ k) then dec k n else decimal n.

(** ** Keys of the naming format *)
Inductive code := KDate | KYear | KYr | KMonth | KDay | KTime | KHour | KMin | KSec | KCount.
(** Without %( and ). *)
Definition word (k : code) : string :=
  match k with
  | KDate => "date" | KYear => "year" | KYr => "yr" | KMonth => "month" | KDay => "day" | KTime => "time" | KHour => "hour"
  | KMin => "min" | KSec => "sec" | KCount => "count"
  end.
Definition key (k : code) : string := "%(" ++ word k ++ ")".
(** checkpointing.py 133-141; widths 111-113. *)
Definition dated : list code := [KDate; KYear; KYr; KMonth; KDay; KTime; KHour; KMin; KSec].
Definition width (k : code) : nat :=
  match k with KDate => 8 | KYear => 4 | KTime => 6 | KCount => 3 | _ => 2 end.

(** datetime.now(), checkpointing.py 131 *)
Record clock := mkClock { ck_y : nat; ck_mo : nat; ck_d : nat; ck_h : nat; ck_mi : nat; ck_s : nat }.
(** time.strftime(val), checkpointing.py 133-143. *)
Definition stamp (t : clock) (k : code) : string :=
  match k with
  | KDate => padded 4 (ck_y t) ++ padded 2 (ck_mo t) ++ padded 2 (ck_d t)
  | KYear => padded 4 (ck_y t)
  | KYr => padded 2 (ck_y t mod 100)
  | KMonth => padded 2 (ck_mo t)
  | KDay => padded 2 (ck_d t)
  | KTime => padded 2 (ck_h t) ++ padded 2 (ck_mi t) ++ padded 2 (ck_s t)
  | KHour => padded 2 (ck_h t)
  | KMin => padded 2 (ck_mi t)
  | KSec => padded 2 (ck_s t)
  | KCount => ""
  end.

(** ** The regular expression, checkpointing.py 111-126 *)
(** Lines 115-121. *)
Definition esc (c : ascii) : string :=
  if existsb (Ascii.eqb c) ["{"; "("; "+"; "*"; "|"; "."; "$"; ")"; "}"]%char then "[" ++ String c "]"
  else if existsb (Ascii.eqb c) ["^"; "["; "]"]%char then String "\" (String c "")
  else String c "".
Fixpoint escaped (s : string) : string :=
  match s with EmptyString => EmptyString | String c s' => esc c ++ escaped s' end.
(** The dictionary keys of 111-113 ('%[(]date[)]' ...). *)
Definition key_re (k : code) : string := "%[(]" ++ word k ++ "[)]".
(** Lines 121-124. *)
Definition format_re (fmt : string) : string :=
  replace (key_re KCount) "(?P<index>[0-9]{3})"
    (fold_left (fun s k => replace (key_re k) ("[0-9]{" ++ decimal (width k) ++ "}") s) dated (escaped fmt)).

(** ** re.match for the expressions that can come out of this

    Classes of one character or [0-9], escaped punctuation, {n}, ? and the one named group.  Everything else -
    including expressions that do not compile, such as two groups of one name - is [None]. *)
Inductive cls := One (c : ascii) | Digit.
Inductive lexeme := LCls (a : cls) | LTimes (n : nat) | LOpt | LIndex.
Definition is_digit (c : ascii) : bool := let n := nat_of_ascii c in Nat.leb 48 n && Nat.leb n 57.
Definition digit_val (c : ascii) : nat := nat_of_ascii c - 48.
Definition is_alnum (c : ascii) : bool :=
  let n := nat_of_ascii c in is_digit c || (Nat.leb 65 n && Nat.leb n 90) || (Nat.leb 97 n && Nat.leb n 122) || Nat.eqb n 95.
Definition ocons {A} (a : A) (o : option (list A)) : option (list A) := match o with Some l => Some (a :: l) | None => None end.
(** What a first character announces. *)
Inductive mark := MLit | MBracket | MBack | MBrace | MQuest | MParen | MOther.
Definition mark_of (c : ascii) : mark :=
  if Ascii.eqb c "[" then MBracket else if Ascii.eqb c "\" then MBack else if Ascii.eqb c "{" then MBrace
  else if Ascii.eqb c "?" then MQuest else if Ascii.eqb c "(" then MParen
  else if existsb (Ascii.eqb c) ["]"; "}"; ")"; "+"; "*"; "|"; "."; "$"; "^"]%char then MOther else MLit.
Fixpoint lex (skip : nat) (s : string) : option (list lexeme) :=
  match s with
  | EmptyString => Some []
  | String c s' =>
      match skip with
      | S k => lex k s'
      | 0 =>
          match mark_of c with
          | MLit => ocons (LCls (One c)) (lex 0 s')
          | MQuest => ocons LOpt (lex 0 s')
          | MBack => match s' with String d _ => if is_alnum d then None else ocons (LCls (One d)) (lex 1 s') | _ => None end
          | MBracket => match strip "0-9]" s' with
                        | Some _ => ocons (LCls Digit) (lex 4 s')
                        | None => match s' with
                                  | String d (String "]" _) => if existsb (Ascii.eqb d) ["^"; "["; "]"; "\"]%char then None
                                                               else ocons (LCls (One d)) (lex 2 s')
                                  | _ => None
                                  end
                        end
          | MBrace => match s' with String d (String "}" _) => if is_digit d then ocons (LTimes (digit_val d)) (lex 2 s') else None | _ => None end
          | MParen => match strip "?P<index>[0-9]{3})" s' with Some _ => ocons LIndex (lex 18 s') | None => None end
          | MOther => None
          end
      end
  end.
Inductive item := Rep (a : cls) (n : nat) | Opt (a : cls) | Index.
Fixpoint items (l : list lexeme) : option (list item) :=
  match l with
  | [] => Some []
  | LCls a :: LTimes n :: LOpt :: _ => None
  | LCls a :: LTimes n :: l' => ocons (Rep a n) (items l')
  | LCls a :: LOpt :: LOpt :: _ => None
  | LCls a :: LOpt :: l' => ocons (Opt a) (items l')
  | LCls a :: l' => ocons (Rep a 1) (items l')
  | LIndex :: l' => match l' with
                    | LTimes _ :: _ | LOpt :: _ => None
                    | _ => if existsb (fun x => match x with LIndex => true | _ => false end) l' then None else ocons Index (items l')
                    end
  | LTimes _ :: _ | LOpt :: _ => None
  end.
(** re.compile *)
Definition compile (s : string) : option (list item) := match lex 0 s with Some l => items l | None => None end.

Definition fits (a : cls) (c : ascii) : bool := match a with One d => Ascii.eqb c d | Digit => is_digit c end.
Fixpoint times (a : cls) (n : nat) (s : string) : option string :=
  match n, s with
  | 0, _ => Some s
  | S n', String c s' => if fits a c then times a n' s' else None
  | S _, EmptyString => None
  end.
Fixpoint value (s : string) (acc : nat) : nat :=
  match s with EmptyString => acc | String c s' => value s' (10 * acc + digit_val c) end.
Definition fetch (n : nat) (s : string) : string := substring 0 n s.
(** re.match: [Some o] on success, [o] the text of group 'index' as a number. *)
Fixpoint rmatch (l : list item) (s : string) : option (option nat) :=
  match l with
  | [] => Some None
  | Rep a n :: l' => match times a n s with Some s' => rmatch l' s' | None => None end
  | Opt a :: l' => match times a 1 s with
                   | Some s' => match rmatch l' s' with Some o => Some o | None => rmatch l' s end
                   | None => rmatch l' s
                   end
  | Index :: l' => match times Digit 3 s with
                   | Some s' => match rmatch l' s' with Some _ => Some (Some (value (fetch 3 s) 0)) | None => None end
                   | None => None
                   end
  end.

(** ** get_name, 128-159, and matches_naming_format, 161-163 *)
Definition max_index (l : list item) (names : list string) : option nat :=
  fold_left (fun m x => match rmatch l x with
                        | Some (Some i) => match m with Some j => Some (if Nat.ltb j i then i else j) | None => Some i end
                        | _ => m
                        end) names None.
(** [dir]: the names in checkpointing_dir, if that exists.  The expression is only compiled when there is a name. *)
Definition count_of (fmt : string) (dir : option (list string)) : res nat :=
  match dir with
  | None | Some [] => Ok 0
  | Some names => match compile (format_re fmt) with
                  | Some l => Ok (match max_index l names with Some i => S i | None => 0 end)
                  | None => Err ValueError    (* re.error *)
                  end
  end.
Definition get_name (fmt : string) (t : clock) (dir : option (list string)) : res string :=
  let name := fold_left (fun s k => replace (key k) (stamp t k) s) dated fmt in
  match count_of fmt dir with
  | Ok n => Ok (replace (key KCount) (padded 3 n) name)
  | Err e => Err e
  end.
Definition matches_format (fmt name : string) : res bool :=
  match compile (format_re fmt) with
  | Some l => Ok (match rmatch l name with Some _ => true | None => false end)
  | None => Err ValueError
  end.

(** ** Path.with_suffix('.tar.gz') on a file name: what follows the last dot, if that is neither the first nor the last
    character, is replaced (manager.py 1153). *)
Fixpoint cut_dot (s : string) : option string :=
  match s with
  | EmptyString => None
  | String c s' => match cut_dot s' with
                   | Some r => Some (String c r)
                   | None => if Ascii.eqb c "." then Some EmptyString else None
                   end
  end.
Definition last_char (s : string) : option ascii := String.get (String.length s - 1) s.
Definition tar_name (name : string) : string :=
  match cut_dot name, last_char name with
  | Some (String c r), Some l => if Ascii.eqb l "." then name ++ ".tar.gz" else String c r ++ ".tar.gz"
  | _, _ => name ++ ".tar.gz"
  end.

(** ** Deleting old checkpoints, manager.py 1172-1181 *)
Fixpoint sle (a b : string) : bool :=
  match a, b with
  | EmptyString, _ => true
  | String _ _, EmptyString => false
  | String c a', String d b' => if Ascii.eqb c d then sle a' b' else Nat.ltb (nat_of_ascii c) (nat_of_ascii d)
  end.
Fixpoint insert_desc (x : string) (l : list string) : list string :=
  match l with [] => [x] | y :: l' => if sle y x then x :: l else y :: insert_desc x l' end.
Definition sort_desc (l : list string) : list string := fold_right insert_desc [] l.
(** An entry of the directory: name, is it a file? *)
Definition entry : Type := string * bool.
Definition doomed (l : list item) (keep : nat) (names : list string) : list string :=
  skipn (keep + 2) (sort_desc (filter (fun x => match rmatch l x with Some _ => true | None => false end) names)).
Definition clean_up (fmt : string) (keep : nat) (dir : list entry) : res (list entry) :=
  match dir with
  | [] => Ok dir
  | _ =>
    match compile (format_re fmt) with
    | None => Err ValueError
    | Some l => let old := doomed l keep (map fst dir) in
                Ok (filter (fun e => negb (snd e && existsb (String.eqb (fst e)) old)) dir)
    end
  end.
