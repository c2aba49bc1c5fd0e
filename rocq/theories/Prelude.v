(** * Prelude: numbers, dictionaries, exceptions

    Shared vocabulary of the models.  Nothing in this file models a particular
    function of glompo; it fixes how the Python values used there are represented. *)

From Coq Require Export String.
From Coq Require Export Arith Bool ZArith QArith Qabs Lia List.
Export ListNotations.
Global Open Scope string_scope.
Global Open Scope nat_scope.
Global Open Scope list_scope.
Global Open Scope bool_scope.

(** ** Python floats

    [Fin q] is a finite double (every finite double is a rational).  Comparison
    operators follow Python: anything compared with NaN is [False].  -0.0 and
    0.0 compare equal in Python and are both represented by [Fin 0]. *)
Inductive num : Type := NaN | NInf | Fin (q : Q) | PInf.

(** Python [a < b]. *)
Definition nlt (a b : num) : bool :=
  match a, b with
  | NaN, _ => false
  | _, NaN => false
  | PInf, _ => false
  | _, NInf => false
  | NInf, _ => true
  | _, PInf => true
  | Fin p, Fin q => negb (Qle_bool q p)
  end.

(** Python [a <= b]. *)
Definition nle (a b : num) : bool :=
  match a, b with
  | NaN, _ => false
  | _, NaN => false
  | NInf, _ => true
  | _, PInf => true
  | PInf, _ => false
  | _, NInf => false
  | Fin p, Fin q => Qle_bool p q
  end.

(** Python [a == b]. *)
Definition neq (a b : num) : bool := nle a b && nle b a.

(** [numpy.isfinite]. *)
Definition nfinite (a : num) : bool := match a with Fin _ => true | _ => false end.

Definition nnan (a : num) : bool := match a with NaN => true | _ => false end.

(** Arithmetic on floats: the special values follow IEEE 754, finite results are
    exact (no rounding, no overflow, one zero). *)
Definition nopp (a : num) : num :=
  match a with NaN => NaN | NInf => PInf | PInf => NInf | Fin q => Fin (- q) end.
Definition nplus (a b : num) : num :=
  match a, b with
  | NaN, _ | _, NaN => NaN
  | PInf, NInf | NInf, PInf => NaN
  | PInf, _ | _, PInf => PInf
  | NInf, _ | _, NInf => NInf
  | Fin p, Fin q => Fin (p + q)
  end.
Definition nminus (a b : num) : num := nplus a (nopp b).
Definition nabs (a : num) : num :=
  match a with NaN => NaN | NInf | PInf => PInf | Fin q => Fin (Qabs q) end.
Definition nmul (a b : num) : num :=
  let sgn q := Qcompare q 0 in
  let inf c := match c with Eq => NaN | Gt => PInf | Lt => NInf end in
  match a, b with
  | NaN, _ | _, NaN => NaN
  | Fin p, Fin q => Fin (p * q)
  | PInf, PInf | NInf, NInf => PInf
  | PInf, NInf | NInf, PInf => NInf
  | PInf, Fin q | Fin q, PInf => inf (sgn q)
  | NInf, Fin q | Fin q, NInf => inf (CompOpp (sgn q))
  end.

(** ** Exceptions as values *)
Inductive exn : Type :=
  | KeyError | IndexError | ValueError | TypeError | ZeroDivisionError | AssertionError
  | RuntimeError | EOFError | FileExistsError | OSError | TarError | CheckpointingError
  | KeyboardInterrupt | AttributeError | QueueFull | BrokenPipeError | PickleError | ImportError | OverflowError
  | Blocked    (** not a Python exception: the thread waits for something which does not come *)
  | OutOfFuel  (** not a Python exception: an unbounded loop of the code is still running *).

Inductive res (A : Type) : Type := Ok (a : A) | Err (e : exn).
Arguments Ok {A} a.
Arguments Err {A} e.

Definition is_ok {A} (r : res A) : bool := match r with Ok _ => true | Err _ => false end.

(** A method: it may raise, and the mutations made before the raise are kept. *)
Definition M (S A : Type) : Type := S -> res A * S.

Definition ret {S A} (a : A) : M S A := fun s => (Ok a, s).
Definition raise {S A} (e : exn) : M S A := fun s => (Err e, s).
Definition bind {S A B} (m : M S A) (f : A -> M S B) : M S B :=
  fun s => match m s with
           | (Ok a, s') => f a s'
           | (Err e, s') => (Err e, s')
           end.
Definition gets {S A} (f : S -> A) : M S A := fun s => (Ok (f s), s).
Definition modify {S} (f : S -> S) : M S unit := fun s => (Ok tt, f s).

Declare Scope m_scope.
Delimit Scope m_scope with M.
Notation "x <- m ;; k" := (bind m (fun x => k)) (at level 61, m at next level, right associativity) : m_scope.
Notation "m ;;; k" := (bind m (fun _ => k)) (at level 61, right associativity) : m_scope.
Open Scope m_scope.

Definition when {S} (b : bool) (m : M S unit) : M S unit := if b then m else ret tt.

(** [try: m  except <those accepted by f>: h]. *)
Definition try_except {S A} (m : M S A) (f : exn -> bool) (h : exn -> M S A) : M S A :=
  fun s => match m s with
           | (Ok a, s') => (Ok a, s')
           | (Err e, s') => if f e then h e s' else (Err e, s')
           end.

(** [for a in l: f a]. *)
Fixpoint for_each {S A} (l : list A) (f : A -> M S unit) : M S unit :=
  match l with
  | [] => ret tt
  | a :: l' => f a ;;; for_each l' f
  end.

(** ** Dictionaries: association lists in insertion order *)
Section Dict.
  Context {K V : Type} (keqb : K -> K -> bool).

  Fixpoint dget (k : K) (d : list (K * V)) : option V :=
    match d with
    | [] => None
    | (k', v) :: d' => if keqb k k' then Some v else dget k d'
    end.

  Definition dmem (k : K) (d : list (K * V)) : bool :=
    match dget k d with Some _ => true | None => false end.

  (** [d[k] = v]: in place when the key exists, else appended. *)
  Fixpoint dset (k : K) (v : V) (d : list (K * V)) : list (K * V) :=
    match d with
    | [] => [(k, v)]
    | (k', v') :: d' => if keqb k k' then (k', v) :: d' else (k', v') :: dset k v d'
    end.

  (** [del d[k]] (the caller handles the missing key). *)
  Fixpoint ddel (k : K) (d : list (K * V)) : list (K * V) :=
    match d with
    | [] => []
    | (k', v') :: d' => if keqb k k' then d' else (k', v') :: ddel k d'
    end.
End Dict.

Definition dkeys {K V} (d : list (K * V)) : list K := map fst d.

Notation nget := (dget Nat.eqb).
Notation nset := (dset Nat.eqb).
Notation ndel := (ddel Nat.eqb).
Notation nmemd := (dmem Nat.eqb).
Notation sget := (dget String.eqb).
Notation sset := (dset String.eqb).
Notation smemd := (dmem String.eqb).

(** Membership in a Python set or list of ids. *)
Definition nmem (k : nat) (l : list nat) : bool := existsb (Nat.eqb k) l.
(** [s.add(k)] on a set. *)
Definition nadd (k : nat) (l : list nat) : list nat := if nmem k l then l else l ++ [k].

Fixpoint sum_nat (l : list nat) : nat := match l with [] => 0 | a :: l' => a + sum_nat l' end.

(** Python slice [l[-n:]] for [n >= 0]: note that [l[-0:]] is the whole list. *)
Definition last_n {A} (n : nat) (l : list A) : list A :=
  match n with 0 => l | _ => skipn (length l - n) l end.
(** Python slice [l[:-n]]: note that [l[:-0]] is empty. *)
Definition drop_last_n {A} (n : nat) (l : list A) : list A :=
  match n with 0 => [] | _ => firstn (length l - n) l end.
