(** * What an optimizer must be given, in terms of what the user configured and what happened *)
From Verif Require Export Kwargs_Model.

(** The entries selected so far, in order: the [i]-th optimizer comes from the [i]-th. *)
Fixpoint selections (es : list entry) (evs : list event) : list entry :=
  match evs with
  | [] => []
  | Select j :: evs => match nth_error es j with Some e => e :: selections es evs | None => selections es evs end
  | Tick _ _ _ :: evs => selections es evs
  end.

(** The dictionary configured for an entry, with [ds] the dictionaries as given. *)
Definition configured (ds : list kws) (e : entry) (w : bool) : kws := nth (if w then e_init e else e_call e) ds [].

(** A selector as a user can make it: dictionaries have each key once and refer to existing objects, those for constructors hold the number of
    workers, and no dictionary is used for both a constructor and minimize. *)
Definition dict_ok (cells : list nat) (d : kws) : Prop :=
  NoDup (map fst d) /\ forall k a, In (k, VRef a) d -> a < length cells.
Definition heap_ok (h : heap) : Prop := Forall (dict_ok (h_cells h)) (h_dicts h).
Definition sel_ok (ds : list kws) (es : list entry) : Prop :=
  (forall e, In e es -> e_init e < length ds /\ e_call e < length ds /\ exists v, In ("workers", v) (configured ds e true)) /\
  forall e e', In e es -> In e' es -> e_init e <> e_call e'.

(** A copy: the same keys in the same order, texts and numbers the same, objects replaced by objects. *)
Definition same_val (v v' : val) : Prop :=
  match v, v' with VRef _, VRef _ => True | VRef _, _ => False | _, VRef _ => False | _, _ => v = v' end.
Definition same_kws (d d' : kws) : Prop := Forall2 (fun p q => fst p = fst q /\ same_val (snd p) (snd q)) d d'.

Definition without (k : string) (d : kws) : kws := filter (fun p => negb (String.eqb k (fst p))) d.

(** What an optimizer is to receive: the backend is taken out and passed separately. *)
Definition given (ds : list kws) (e : entry) (w : bool) : kws :=
  if w then without "backend" (configured ds e true) else configured ds e false.

(** The changes that optimizer [i] itself has made to the object that the user configured as [a] and that it reaches as argument of the constructor
    ([w = true]) or of minimize; with [across] both count. *)
Definition touches (ds : list kws) (across : bool) (i : nat) (e : entry) (w : bool) (a : nat) (ev : event) : bool :=
  match ev with
  | Tick j w' k => Nat.eqb j i && (across || Bool.eqb w' w) &&
                   match sget k (given ds e w') with Some (VRef a') => Nat.eqb a' a | _ => false end
  | _ => false
  end.
(** Only events after its start count. *)
Fixpoint own (ds : list kws) (es : list entry) (across : bool) (i : nat) (e : entry) (w : bool) (a : nat) (started : nat) (evs : list event) : nat :=
  match evs with
  | [] => 0
  | ev :: evs =>
    let started' := match ev with Select j => match nth_error es j with Some _ => S started | None => started end | _ => started end in
    (if Nat.ltb i started && touches ds across i e w a ev then 1 else 0) + own ds es across i e w a started' evs
  end.

(** The user may not set what the manager sets. *)
Definition clashes (ds : list kws) (e : entry) : Prop :=
  exists k v, In (k, v) (configured ds e true) /\ In k ["_opt_id"; "_signal_pipe"; "_results_queue"; "_pause_flag"; "is_log_detailed"].

(** What the user passes: existing dictionaries, none of them both for a constructor and for minimize. *)
Definition inits (l : list item) : list nat := flat_map (fun it => match it with ITuple _ (Some a) _ => [a] | _ => [] end) l.
Definition calls (l : list item) : list nat := flat_map (fun it => match it with ITuple _ _ (Some b) => [b] | _ => [] end) l.
Definition user_ok (l : list item) (h : heap) : Prop :=
  heap_ok h /\ (forall a, In a (inits l ++ calls l) -> a < length (h_dicts h)) /\ forall a, In a (inits l) -> ~ In a (calls l).

(** The dictionary with one worker where the user gives none. *)
Definition with_workers (d d' : kws) : Prop :=
  ((exists v, In ("workers", v) d) /\ d' = d) \/ ((forall v, ~ In ("workers", v) d) /\ d' = d ++ [("workers", VNum 1)]).
Definition of_user (ds : list kws) (o : option nat) (d : kws) : Prop :=
  match o with Some a => nth_error ds a = Some d | None => d = [] end.
(** The entry for an item. *)
Definition entry_for (ds ds' : list kws) (it : item) (e : entry) : Prop :=
  match it with
  | IClass c => e_class e = c /\ with_workers [] (configured ds' e true) /\ configured ds' e false = []
  | ITuple c i k => e_class e = c /\ (exists d, of_user ds i d /\ with_workers d (configured ds' e true)) /\ of_user ds k (configured ds' e false)
  end.
