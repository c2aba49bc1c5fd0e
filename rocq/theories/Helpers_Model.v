(** * Helper functions
    Source: glompo/common/helpers.py. *)
From Coq Require Import Ascii DecimalString.
From Verif Require Export Prelude.

(** ** is_bounds_valid, lines 187-229
    A bound is a pair of numbers.  [numpy.isfinite] of the pair looks at both. *)
Fixpoint is_bounds_valid (bounds : list (num * num)) (raise_invalid : bool) : res bool :=
  match bounds with
  | [] => Ok true                                                             (* 229 *)
  | bnd :: rest =>                                                            (* 216 *)
      if nle (snd bnd) (fst bnd) then                                         (* 217 *)
        if raise_invalid then Err ValueError else Ok false                    (* 218-221 *)
      else if negb (nfinite (fst bnd) && nfinite (snd bnd)) then              (* 223 *)
        if raise_invalid then Err ValueError else Ok false                    (* 224-227 *)
      else is_bounds_valid rest raise_invalid
  end.

(** ** rolling_min, lines 302-317
    An entry of the argument is a number or something else ([None]). *)
(** [min(val, prev)]: the first argument unless the second is smaller. *)
Definition pymin (a b : num) : num := if nlt b a then b else a.

(** The loop 315-316; [prev] is [y[i - 1]]. *)
Fixpoint rolling (prev : num) (l : list num) : list num :=
  match l with [] => [] | v :: l' => pymin v prev :: rolling (pymin v prev) l' end.

Fixpoint numbers (x : list (option num)) : option (list num) :=
  match x with
  | [] => Some []
  | Some v :: x' => match numbers x' with Some l => Some (v :: l) | None => None end
  | None :: _ => None
  end.

Definition rolling_min (x : list (option num)) : res (list num) :=
  match numbers x with
  | None => Err AssertionError                                                (* 311 isinstance *)
  | Some l => if existsb nnan l then Err AssertionError                       (* 311 isnan *)
              else Ok (match l with [] => [] | v :: l' => v :: rolling v l' end) (* 314-317 *)
  end.

(** ** unravel, lines 320-339
    An object is a string, something that cannot be iterated over, or something iterable: the items it
    delivers and the exception, if any, its iterator raises after them ([None]: it ends).  A 0-dimensional
    numpy array is an iterable which raises TypeError at once.  Objects containing themselves (for which the
    function does not end) are not objects of this type.
    The result: what is yielded, and the exception which ends the generator. *)
Inductive obj :=
  | OStr (s : string)
  | OAtom (n : nat)
  | OIter (items : list obj) (fails : option exn).

Definition is_str (o : obj) : bool := match o with OStr _ => true | _ => false end.

(** The body of the loop over the items, 330-335: [f] is [unravel]. *)
Section Items.
Variable f : obj -> list obj * option exn.
Fixpoint unravel_items (l : list obj) (fails : option exn) : list obj * option exn :=
  match l with
  | [] => ([], fails)
  | item :: l' =>
      let (ys, e) := if is_str item then ([item], None) else f item in
      match e with
      | Some _ => (ys, e)
      | None => let (zs, e') := unravel_items l' fails in (ys ++ zs, e')
      end
  end.
End Items.

Fixpoint unravel (seq : obj) : list obj * option exn :=
  match seq with
  | OStr _ => ([seq], None)                                                   (* 328-329 *)
  | OAtom _ => ([seq], None)                                                  (* iter(seq) raises TypeError: 338-339 *)
  | OIter items fails =>
      match unravel_items unravel items fails with
      | (ys, Some TypeError) => (ys ++ [seq], None)                           (* 338-339 *)
      | r => r
      end
  end.

(** ** present_memory, lines 271-299
    Dividing a float by 1024 is exact (subnormal numbers aside); an int above 2^53 is rounded first, which is
    not modelled.  The loop is run with fuel. *)
Fixpoint scale (fuel : nat) (b : num) (units : nat) : res (num * nat) :=
  if nlt (Fin 1024) b then                                                    (* 292 *)
    match fuel with
    | 0 => Err OutOfFuel
    | S k => scale k (match b with Fin q => Fin (q / 1024) | v => v end) (S units) (* 293-294 *)
    end
  else Ok (b, units).

Definition suffixes : list string := [""; "k"; "M"; "G"; "T"; "P"; "E"; "Z"; "Y"]%string.

(** Rounding to the nearest integer, halves to the even one. *)
Definition round_even (q : Q) : Z :=
  let f := (Qnum q / QDen q)%Z in
  match Qcompare (q - inject_Z f) (1 # 2) with
  | Lt => f
  | Gt => (f + 1)%Z
  | Eq => if Z.even f then f else (f + 1)%Z
  end.

Fixpoint dec_digits (k : nat) (n : N) : string :=
  match k with
  | 0 => ""
  | S k' => dec_digits k' (n / 10) ++ String (ascii_of_N (48 + n mod 10)) ""
  end%string.

(** The format [{q:.{digits}f}] of a float. *)
Definition fixed (digits : nat) (v : num) : string :=
  match v with
  | NaN => "nan"
  | PInf => "inf"
  | NInf => "-inf"
  | Fin q =>
      let n := Z.to_N (round_even (Qabs q * inject_Z (10 ^ Z.of_nat digits))) in
      let p := (10 ^ N.of_nat digits)%N in
      (if Qle_bool 0 q then "" else "-") ++
      NilZero.string_of_uint (N.to_uint (n / p)) ++
      (match digits with 0 => "" | _ => "." ++ dec_digits digits (n mod p) end)
  end%string.

Definition present_memory (fuel : nat) (bytes : num) (digits : nat) : res string :=
  match scale fuel bytes 0 with
  | Err e => Err e
  | Ok (b, units) =>
      let digits := if Nat.eqb units 0 then 0 else digits in                  (* 296-297 *)
      match nth_error suffixes units with                                     (* 299 *)
      | None => Err IndexError
      | Some u => Ok (fixed digits b ++ u ++ "B")%string
      end
  end.

(** ** nested_string_formatting, lines 117-184
    Strings as lists of characters. *)
Definition chars := list ascii.
Definition c_nl : ascii := ascii_of_nat 10.
Definition c_open : ascii := "["%char.
Definition c_close : ascii := "]"%char.
Definition c_sp : ascii := " "%char.

(** [s.replace(c, t)] for a single character [c]. *)
Definition replace_char (c : ascii) (t : chars) (s : chars) : chars :=
  flat_map (fun a => if Ascii.eqb a c then t else [a]) s.

(** [s.split('\n')]. *)
Fixpoint split_lines (s : chars) : list chars :=
  match s with
  | [] => [[]]
  | a :: s' =>
      if Ascii.eqb a c_nl then [] :: split_lines s'
      else match split_lines s' with [] => [[a]] | l :: ls => (a :: l) :: ls end
  end.

(** ['\n'.join(lines)]. *)
Fixpoint join_lines (ls : list chars) : chars :=
  match ls with [] => [] | [l] => l | l :: ls' => l ++ c_nl :: join_lines ls' end.

Definition has (c : ascii) (l : chars) : bool := existsb (Ascii.eqb c) l.

(** ['  ' * level]; negative levels give nothing. *)
Definition spaces (level : Z) : chars := repeat c_sp (Z.to_nat level).

(** The loop 173-180. *)
Fixpoint indent (level : Z) (ls : list chars) : list chars :=
  match ls with
  | [] => []
  | line :: ls' =>
      if has c_open line then (spaces level ++ line) :: indent (level + 1) ls'
      else let level' := if has c_close line then (level - 1)%Z else level in
           (spaces level' ++ line) :: indent level' ls'
  end.

Definition strip_first (s : chars) : res chars :=                             (* 159-160 *)
  match s with
  | [] => Err IndexError
  | a :: s' => Ok (if Ascii.eqb a c_open then s' else s)
  end.
Definition strip_last (s : chars) : res chars :=                              (* 161-162 *)
  match s with
  | [] => Err IndexError
  | _ => Ok (if Ascii.eqb (last s c_sp) c_close then removelast s else s)
  end.

Definition format_chars (s : chars) : res chars :=
  match strip_first s with
  | Err e => Err e
  | Ok s =>
      match strip_last s with
      | Err e => Err e
      | Ok s =>
          let s := replace_char c_open [c_open; c_nl] s in                    (* 165 *)
          let s := replace_char c_close [c_nl; c_close] s in                  (* 166 *)
          Ok (join_lines (indent 0 (split_lines s)))                          (* 169-182 *)
      end
  end.

Definition nested_string_formatting (s : string) : res string :=
  match format_chars (list_ascii_of_string s) with
  | Err e => Err e
  | Ok l => Ok (string_of_list_ascii l)
  end.

(** ** bound_group_presenter, lines 489-495
    A bound is an object with a text ([f"({min}, {max})"]); two bounds may be equal without having the same
    text (a tuple of ints and one of floats).  [set] keeps one representative of every class of equal
    objects; it is the first one added; the order in which a set is iterated over is left open: [order]. *)
Section Bounds.
Variable bound : Type.
Variable text : bound -> string.
Variable same : bound -> bound -> bool.

Fixpoint to_set (kept : list bound) (l : list bound) : list bound :=
  match l with
  | [] => kept
  | b :: l' => to_set (if existsb (same b) kept then kept else kept ++ [b]) l'
  end.

Definition groups := list (string * list nat).

Fixpoint new_groups (l : list bound) (g : groups) : groups :=                 (* 491 *)
  match l with [] => g | b :: l' => new_groups l' (sset (text b) [] g) end.

Fixpoint fill (i : nat) (l : list bound) (g : groups) : res groups :=         (* 492-493 *)
  match l with
  | [] => Ok g
  | b :: l' =>
      match sget (text b) g with
      | None => Err KeyError
      | Some is => fill (S i) l' (sset (text b) (is ++ [i]) g)
      end
  end.

Definition bound_group_presenter (order : list bound -> list bound) (l : list bound) : res groups :=
  fill 0 l (new_groups (order (to_set [] l)) []).
End Bounds.
