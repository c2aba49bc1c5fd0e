(** * What the checkers are documented to decide *)
From Verif Require Import Prelude Core_Model Core_Spec Checkers_Model.

(** Time spent, in this session or overall. *)
Definition session_time (v : mview) : Q := match v_start v with Some t => v_now v - t | None => 0 end.

(** [n] converged at some evaluation, and at least [k] kills since the first such evaluation. *)
Definition kills_due (k n : Z) (run : list mview) : Prop :=
  exists pre v0 post, run = pre ++ v0 :: post /\
    (forall v, In v pre -> (Z.of_nat (v_conv v) < n)%Z) /\ (n <= Z.of_nat (v_conv v0))%Z /\
    (k <= Z.of_nat (v_kills (last post v0)) - Z.of_nat (v_kills v0))%Z.

(** A later moment of the same session. *)
Record later (v w : mview) : Prop := mkLater {
  lt_f : v_f v <= v_f w;
  lt_o : v_o v <= v_o w;
  lt_conv : v_conv v <= v_conv w;
  lt_kills : v_kills v <= v_kills w;
  lt_fx : forall a, v_fx v = Some a -> exists b, v_fx w = Some b /\ nle b a = true;
  lt_start : v_start w = v_start v;
  lt_used : v_used w = v_used v;
  lt_now : (v_now v <= v_now w)%Q }.

(** The members of a tree were built by their constructors. *)
Definition well_made (kinds : nat -> checker) (c : core) : Prop :=
  forall i s o, In i (members c) -> kinds i = MaxSeconds s o -> make_max_seconds s o = Ok (MaxSeconds s o).

(** The answer each member would give now. *)
Definition answers (kinds : nat -> checker) (v : mview) (s : cstate cpriv) (i : nat) : bool :=
  match fst (check_call (kinds i) v (c_priv s i)) with Ok b => b | Err _ => false end.

(** The moments of a run at which the lazy evaluation of the tree asks member [i]. *)
Fixpoint moments (kinds : nat -> checker) (c : core) (i : nat) (run : list mview) (s : cstate cpriv) : list mview :=
  match run with
  | [] => []
  | v :: run' => (if in_dec Nat.eq_dec i (asked (answers kinds v s) c) then [v] else []) ++
                 moments kinds c i run' (snd (call mview cpriv (check_behav kinds) c v s))
  end.
