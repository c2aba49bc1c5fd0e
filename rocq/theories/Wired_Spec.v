(** * The manager with the hunters, selectors and checkers of the package: vocabulary of the properties
    The manager model leaves killing_conditions, opt_selector and convergence_checker to the world ([w_kill], [w_sel],
    [w_check]).  Here they are the objects of glompo/hunters, glompo/opt_selectors and glompo/convergence, as modelled in
    [Hunters_Model], [Selectors_Model], [Checkers_Model] and, for their combinations, [Core_Model]. *)
From Verif Require Import Prelude Checkers_Model Hunters_Model Logger_Spec Manager_Model Manager_Spec.
From Verif Require Core_Model.

(** killing_conditions is the combination [tree]; it is called with the log, the hunter and the victim (manager.py
    1538).  Members are arbitrary, [st] is what they remember. *)
Definition hunts_by {L} (behav : nat -> logger * nat * nat -> L -> res bool * L) (tree : Core_Model.core) (w : world) : Prop :=
  forall t c b v, exists st, w_kill w t c b v = fst (Core_Model.call _ L behav tree (k_log c, b, v) st).
(** Member [j] is the hunter [f]. *)
Definition member_is {L} (behav : nat -> logger * nat * nat -> L -> res bool * L) (j : nat) (f : logger -> nat -> nat -> res bool) : Prop :=
  forall l b v p, fst (behav j (l, b, v) p) = f l b v.

(** What checkers read of the manager (the clock is not part of the model: any value). *)
Definition seen (c : core) (now : Q) (start : option Q) (used : Q) : mview :=
  mkV (k_f c) (k_o c) (k_conv c) (length (k_victims c)) (r_fx (k_result c)) now start used.
(** convergence_checker is the combination [tree] of the checkers [kinds]. *)
Definition checks_by (kinds : nat -> checker) (tree : Core_Model.core) (w : world) : Prop :=
  forall t c, exists now start used st, w_check w t c = fst (Core_Model.call _ _ (check_behav kinds) tree (seen c now start used) st).

(** The combination is true only if member [j] is: [j] itself, one side of an [&], both sides of an [|]. *)
Fixpoint needs (tree : Core_Model.core) (j : nat) : Prop :=
  match tree with
  | Core_Model.Leaf i => i = j
  | Core_Model.Comb _ Core_Model.JAnd a b => needs a j \/ needs b j
  | Core_Model.Comb _ Core_Model.JOr a b => needs a j /\ needs b j
  end.
(** The combination is false only if member [j] is. *)
Fixpoint suffices (tree : Core_Model.core) (j : nat) : Prop :=
  match tree with
  | Core_Model.Leaf i => i = j
  | Core_Model.Comb _ Core_Model.JAnd a b => suffices a j /\ suffices b j
  | Core_Model.Comb _ Core_Model.JOr a b => suffices a j \/ suffices b j
  end.

(** The selector has spawn control [sp]: it hands out nothing [sp] does not allow (C28 for each selector). *)
Definition spawns_by (sp : spawner) (w : world) : Prop :=
  forall t c n cf, w_sel w t c n = Ok (SOpt cf) -> allow sp (mkSV (k_f c) (k_o c)) = true.
(** opt_selector is a CycleSelector over [avail], made when [k0] optimizers had been counted (0, or more if a new selector
    is given to a resumed manager).  The manager counts an optimizer whenever one is handed out (manager.py 1327) and at no
    other time, so that the state of the selector is the one after k_o - k0 optimizers (C88_cycle_state). *)
Definition after (n k : nat) (s : cycle) : Prop := cy_i s = match k with 0 => (-1)%Z | S j => Z.of_nat (Nat.modulo j n) end.
Definition cycles (sp : spawner) (avail : list conf) (k0 : nat) (w : world) : Prop :=
  forall t c n, exists s, after (length avail) (k_o c - k0) s /\ w_sel w t c n = fst (cycle_select sp avail (mkSV (k_f c) (k_o c)) n s).

(** The checkers which count or compare, and when they ought to stop a run of history [h] (an infinite target is reached
    by any evaluation). *)
Definition plain (k : checker) : bool :=
  match k with MaxFuncCalls _ | MaxOptsStarted _ | MaxKills _ | TargetCost _ _ => true | _ => false end.
Definition due (k : checker) (h : hist) : Prop :=
  match k with
  | MaxFuncCalls n => (n <= Z.of_nat (length (accepted h)))%Z
  | MaxOptsStarted n => (n <= Z.of_nat (length (setups h)))%Z
  | MaxKills n => (n <= Z.of_nat (length (kills h)))%Z
  | TargetCost t a => exists r, In r (accepted h) /\ (nle (ir_fx r) (nplus t a) = true \/ nplus t a = PInf)
  | _ => True
  end.
