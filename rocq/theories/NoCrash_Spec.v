(** * Hunters, selectors and checkers of the package, put together with care *)
From Coq Require Import Reals.
From Verif Require Import Prelude Checkers_Model Hunters_Model HuntersR_Model Logger_Model Selectors_Model Manager_Model.
From Verif Require Core_Model.
Open Scope nat_scope.

(** A hunter of the package (glompo/hunters, see [Hunters_Model] and [HuntersR_Model]). *)
Inductive kind : Type :=
| KMin (n : nat) | KType (ty : string) | KInvalid (n : nat) | KBest (calls : nat) (tol : num) | KEvals (calls : nat) (tol : num)
| KStep (space : R) (calls : nat) (tol : R) | KDist (pd : pdist) | KTime (crit : Q) | KValue (chance : R).
(** What it answers; [u] and [y] are the random numbers TimeAnnealing and ValueAnnealing draw. *)
Definition hunt_of (k : kind) (u : Q) (y : R) : logger -> nat -> nat -> res bool :=
  match k with
  | KMin n => min_func_calls n
  | KType ty => type_hunter ty
  | KInvalid n => last_points_invalid n
  | KBest calls tol => best_unmoving calls tol
  | KEvals calls tol => evals_unmoving calls tol
  | KStep space calls tol => step_size space calls tol
  | KDist pd => parameter_distance pd
  | KTime crit => time_annealing crit u
  | KValue chance => value_annealing chance y
  end.
Definition members {L} (behav : nat -> logger * nat * nat -> L -> res bool * L) (kinds : nat -> kind) : Prop :=
  forall j l b v p, exists u y, fst (behav j (l, b, v) p) = hunt_of (kinds j) u y l b v.

(** BestUnmoving(0, tol) takes the minimum of [vals[:-0]], which is empty: it raises whenever there is an evaluation. *)
Definition sound (k : kind) : bool := match k with KBest 0 _ => false | _ => true end.
Fixpoint careful (kinds : nat -> kind) (tree : Core_Model.core) : bool :=
  match tree with
  | Core_Model.Leaf j => sound (kinds j)
  | Core_Model.Comb _ _ a b => careful kinds a && careful kinds b
  end.
(** The world with other hunters. *)
Definition with_hunters (kill : nat -> core -> nat -> nat -> res bool) (w : world) : world :=
  mkW (w_moves w) (w_intr w) (w_err w) (w_sel w) (w_check w) kill (w_heads w) (w_late w) (w_full w) (w_time_chk w) (w_saved w).

(** opt_selector is one of the three, as they can be made and as they are left by their calls; for a ChainSelector one class
    more than thresholds (with as many it runs out of classes, see the findings). *)
Definition picks (sp : spawner) (avail : list conf) (w : world) : Prop := avail <> [] /\ forall t c n,
  let v := mkSV (k_f c) (k_o c) in
  (exists s, w_sel w t c n = fst (cycle_select sp avail v n s)) \/ (exists d, w_sel w t c n = random_select sp avail v n d) \/
  (exists th tg, length avail = S (length th) /\ tg <= length th /\ w_sel w t c n = fst (chain_select sp avail th v n tg)).
(** A checker that could be made. *)
Definition made (k : checker) : Prop :=
  match k with MaxSeconds s o => make_max_seconds s o = Ok (MaxSeconds s o) | _ => True end.
