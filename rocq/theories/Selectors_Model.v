(** * Optimizer selectors and spawn control
    Source: glompo/opt_selectors/*.py. *)
From Verif Require Export Prelude.

(** One element of avail_opts: the optimizer class and the two keyword dictionaries, of which only 'workers' is
    looked at by selectors. *)
Record conf := mkConf { cf_class : string; cf_workers : nat; cf_init : list (string * string); cf_call : list (string * string) }.

(** What the user passes to a selector. *)
Inductive item :=
  | IClass (is_opt : bool) (cls : string)                  (* a class, subclass of BaseOptimizer or not *)
  | ITriple (opt : option (bool * string))                 (* (opt, init, call); [None]: opt is not a class *)
            (workers : option (option nat * list (string * string)))
                                                           (* [None]: init is None; else its 'workers' entry, if any *)
            (call : option (list (string * string)))
  | IOther.                                                (* anything which is not a class *)

(** BaseSelector.__init__, baseselector.py 70-97.  The dictionaries are dictionaries by type.  issubclass of something
    which is not a class raises TypeError, which line 95 does not catch. *)
Definition parse_item (it : item) : res conf :=
  match it with
  | IClass true c => Ok (mkConf c 1 [] [])
  | IClass false _ => Err ValueError
  | ITriple None _ _ => Err TypeError
  | ITriple (Some (false, _)) _ _ => Err ValueError
  | ITriple (Some (true, c)) init call =>
      let '(w, rest) := match init with None => (None, []) | Some x => x end in
      let call := match call with None => [] | Some d => d end in
      Ok (mkConf c (match w with Some n => n | None => 1 end) rest call)
  | IOther => Err TypeError
  end.
Fixpoint parse_items (l : list item) : res (list conf) :=
  match l with
  | [] => Ok []
  | it :: l' => match parse_item it with
                | Err e => Err e
                | Ok c => match parse_items l' with Ok cs => Ok (c :: cs) | Err e => Err e end
                end
  end.

(** spawncontrol.py; [AnySpawn] is a user function. *)
Record sview := mkSV { sv_f : nat; sv_o : nat }.
Inductive spawner := AlwaysSpawn | IterSpawnStop (max_calls : Z) | NOptimizersSpawnStop (max_opts : Z) | AnySpawn (f : sview -> bool).
Definition allow (sp : spawner) (v : sview) : bool :=
  match sp with
  | AlwaysSpawn => true
  | IterSpawnStop n => if Z.leb n (Z.of_nat (sv_f v)) then false else true
  | NOptimizersSpawnStop n => if Z.leb n (Z.of_nat (sv_o v)) then false else true
  | AnySpawn f => f v
  end.

Inductive selres := SFalse | SNone | SOpt (c : conf).

(** CycleSelector, cycle.py 27-52; the attributes i and old. *)
Record cycle := mkCy { cy_i : Z; cy_old : Z }.
Definition cycle_init : cycle := mkCy (-1) (-1).
Definition cycle_select (sp : spawner) (avail : list conf) (v : sview) (slots : nat) (s : cycle) : res selres * cycle :=
  if negb (allow sp v) then (Ok SFalse, s)
  else
    let s := mkCy (cy_i s) (cy_i s) in
    let n := Z.of_nat (length avail) in
    if Z.eqb n 0 then (Err ZeroDivisionError, s)
    else
      let s := mkCy ((cy_i s + 1) mod n) (cy_old s) in
      match nth_error avail (Z.to_nat (cy_i s)) with
      | None => (Err IndexError, s)
      | Some c => if Nat.ltb slots (cf_workers c) then (Ok SNone, mkCy (cy_old s) (cy_old s)) else (Ok (SOpt c), s)
      end.

(** RandomSelector, random.py 12-29; random.choice returns element number [draw] modulo the length. *)
Definition random_select (sp : spawner) (avail : list conf) (v : sview) (slots draw : nat) : res selres :=
  if negb (allow sp v) then Ok SFalse
  else
    let viable := filter (fun c => Nat.leb (cf_workers c) slots) avail in
    match viable with
    | [] => Ok SNone
    | _ => match nth_error viable (Nat.modulo draw (length viable)) with Some c => Ok (SOpt c) | None => Err IndexError end
    end.

(** ChainSelector, chain.py 42-66; the state is toggle. *)
Definition chain_make (avail : list conf) (thresholds : list Q) : res nat :=
  if Nat.leb (length avail) (length thresholds + 1) && Nat.leb (length thresholds) (length avail) then Ok 0 else Err AssertionError.
Definition chain_select (sp : spawner) (avail : list conf) (thresholds : list Q) (v : sview) (slots toggle : nat) : res selres * nat :=
  if negb (allow sp v) then (Ok SFalse, toggle)
  else
    let toggle := match nth_error thresholds toggle with
                  | Some t => if Qle_bool t (inject_Z (Z.of_nat (sv_f v))) then S toggle else toggle
                  | None => toggle
                  end in
    match nth_error avail toggle with
    | None => (Err IndexError, toggle)
    | Some c => if Nat.ltb slots (cf_workers c) then (Ok SNone, toggle) else (Ok (SOpt c), toggle)
    end.
