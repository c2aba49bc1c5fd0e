(** * Force field parameters: glompo/interfaces/params.py, BaseParamsError and ReaxFFError

    The parameter engine (ParAMS, a separate package) is a list of parameters with unique names; its [active] is the
    sublist of the active ones in the same order; [par_eng[i]] accepts an index or a name.  Numbers are floats without
    rounding.  The calculation itself is an argument. *)
From Verif Require Export Prelude.

Record param := mkP { p_name : string; p_value : num; p_lo : Q; p_hi : Q; p_act : bool }.
Definition engine := list param.
(** par_eng.active *)
Definition active (e : engine) : engine := filter p_act e.
Definition names (e : engine) : list string := map p_name e.
Definition values (e : engine) : list num := map p_value e.
Definition n_parms (e : engine) : nat := length (active e).                   (* 206-214 *)
Definition n_all_parms (e : engine) : nat := length e.                        (* 216-224 *)
(** active_abs_indices, 226-236: [_id] is the position. *)
Fixpoint ids_from (k : nat) (e : engine) : list nat :=
  match e with [] => [] | p :: e' => if p_act p then k :: ids_from (S k) e' else ids_from (S k) e' end.
Definition active_abs_indices (e : engine) : list nat := ids_from 0 e.

(** ** Scaling *)
(** numpy division of finite numbers *)
Definition ndiv (a b : num) : num :=
  match a, b with
  | Fin p, Fin q => match Qcompare q 0 with
                    | Eq => match Qcompare p 0 with Eq => NaN | Gt => PInf | Lt => NInf end
                    | _ => Fin (p / q)
                    end
  | NaN, _ | _, NaN => NaN
  | Fin _, _ => Fin 0
  | PInf, Fin q => if Qle_bool 0 q then PInf else NInf
  | NInf, Fin q => if Qle_bool 0 q then NInf else PInf
  | _, _ => NaN
  end.
(** _convert_parms_core, 629-640: an empty array has no two rows to unpack. *)
Definition ranges_for (e : engine) (x : list num) : res (list (Q * Q)) :=
  let of e := match e with [] => Err ValueError | _ => Ok (map (fun p => (p_lo p, p_hi p)) e) end in
  if Nat.eqb (length x) (n_parms e) then of (active e)
  else if Nat.eqb (length x) (n_all_parms e) then of e
  else Err ValueError.
Definition scale1 (x : num) (r : Q * Q) : num := ndiv (nminus x (Fin (fst r))) (nminus (Fin (snd r)) (Fin (fst r))).
Definition unscale1 (x : num) (r : Q * Q) : num := nplus (nmul (nminus (Fin (snd r)) (Fin (fst r))) x) (Fin (fst r)).
Definition over (f : num -> Q * Q -> num) (x : list num) (rs : list (Q * Q)) : list num := map (fun xr => f (fst xr) (snd xr)) (combine x rs).
(** convert_parms_real2scaled, 480-506 *)
Definition real2scaled (e : engine) (x : list num) : res (list num) :=
  match ranges_for e x with Err er => Err er | Ok rs => Ok (over scale1 x rs) end.
(** convert_parms_scaled2real, 508-513 *)
Definition scaled2real (e : engine) (x : list num) : res (list num) :=
  match ranges_for e x with Err er => Err er | Ok rs => Ok (over unscale1 x rs) end.
(** bounds, 248-258 *)
Definition bounds (e : engine) : list (num * num) := repeat (Fin 0, Fin 1) (n_parms e).

(** ** Indices *)
(** A dictionary made from a list of keys with the positions as values: the last one wins. *)
Fixpoint index_map (k : nat) (l : list string) (d : list (string * nat)) : list (string * nat) :=
  match l with [] => d | n :: l' => index_map (S k) l' (sset n k d) end.
Fixpoint mapM {A B} (f : A -> res B) (l : list A) : res (list B) :=
  match l with
  | [] => Ok []
  | a :: l' => match f a with Err e => Err e | Ok b => match mapM f l' with Err e => Err e | Ok bs => Ok (b :: bs) end end
  end.
Definition at_index {A} (l : list A) (i : nat) : res A := match nth_error l i with Some a => Ok a | None => Err IndexError end.
(** convert_indices_abs2rel, 411-449 *)
Definition abs2rel (e : engine) (indices : list nat) : res (list (option nat)) :=
  match mapM (fun i => match at_index e i with Ok p => Ok (p_name p) | Err er => Err er end) indices with
  | Err er => Err er
  | Ok asked => let m := index_map 0 (names (active e)) [] in Ok (map (fun n => sget n m) asked)
  end.
(** convert_indices_rel2abs, 451-478 *)
Definition rel2abs (e : engine) (indices : list nat) : res (list nat) :=
  match mapM (fun i => match nth_error (names (active e)) i with Some n => Ok n | None => Err KeyError end) indices with
  | Err er => Err er
  | Ok asked => let m := index_map 0 (names e) [] in mapM (fun n => match sget n m with Some i => Ok i | None => Err KeyError end) asked
  end.

(** ** set_parameters, 369-409
    The setters of the engine refuse a list of the wrong length. *)
Fixpoint put_all (e : engine) (x : list num) : res engine :=
  match e, x with
  | [], [] => Ok []
  | p :: e', v :: x' => match put_all e' x' with Ok r => Ok (mkP (p_name p) v (p_lo p) (p_hi p) (p_act p) :: r) | Err er => Err er end
  | _, _ => Err ValueError
  end.
Fixpoint put_active (e : engine) (x : list num) : res engine :=
  match e, x with
  | [], [] => Ok []
  | p :: e', _ =>
      if p_act p then
        match x with
        | [] => Err ValueError
        | v :: x' => match put_active e' x' with Ok r => Ok (mkP (p_name p) v (p_lo p) (p_hi p) (p_act p) :: r) | Err er => Err er end
        end
      else match put_active e' x with Ok r => Ok (p :: r) | Err er => Err er end
  | [], _ :: _ => Err ValueError
  end.
Definition strictly_inside (x : num) (p : param) : bool := nlt (Fin (p_lo p)) x && nlt x (Fin (p_hi p)).
(** Result: was there a warning, and the engine. *)
Definition set_parameters (e : engine) (x : list num) (space : string) (full : bool) : res (bool * engine) :=
  match (if String.eqb space "scaled" then scaled2real e x else if String.eqb space "real" then Ok x else Err ValueError) with
  | Err er => Err er
  | Ok x =>
      let warned := existsb (fun xp => negb (strictly_inside (fst xp) (snd xp))) (combine x (if full then active e else e)) in (* 402-404 *)
      match (if full then put_all e x else put_active e x) with
      | Err er => Err er
      | Ok e' => Ok (warned, e')
      end
  end.

(** ** toggle_parameter, 516-573 *)
Inductive key := KI (i : nat) | KS (s : string).
Definition key_eqb (a b : key) : bool := match a, b with KI i, KI j => Nat.eqb i j | KS s, KS t => String.eqb s t | _, _ => false end.
Notation kget := (dget key_eqb).
Notation kset := (dset key_eqb).
Inductive toggle := On | Off | TBool (b : bool) | TOther.
Definition is_name (k : key) : bool := match k with KS _ => true | KI _ => false end.
Fixpoint make_dict (l : list (key * bool)) (d : list (key * bool)) : list (key * bool) :=
  match l with [] => d | (k, b) :: l' => make_dict l' (kset k b d) end.
Definition activity (e : engine) : list bool := map p_act e.
(** Lines 560-563. *)
Definition mapping (e : engine) (by_name : bool) : list (key * bool) :=
  make_dict (combine (if by_name then map KS (names e) else map KI (seq 0 (length e))) (activity e)) [].
(** Lines 565-570; the second component counts the warnings. *)
Fixpoint toggle_loop (t : bool) (ps : list key) (m : list (key * bool)) : list (key * bool) * nat :=
  match ps with
  | [] => (m, 0)
  | p :: ps' =>
      if is_name p && negb (dmem key_eqb p m) then let (m', w) := toggle_loop t ps' m in (m', S w)
      else toggle_loop t ps' (kset p t m)
  end.
(** The setter of is_active refuses a list of the wrong length. *)
Fixpoint set_activity (e : engine) (l : list bool) : res engine :=
  match e, l with
  | [], [] => Ok []
  | p :: e', b :: l' => match set_activity e' l' with Ok r => Ok (mkP (p_name p) (p_value p) (p_lo p) (p_hi p) b :: r) | Err er => Err er end
  | _, _ => Err ValueError
  end.
Definition toggle_parameter (e : engine) (ps : list key) (t : toggle) : res (engine * nat) :=
  match (match t with On | TBool true => Some true | Off | TBool false => Some false | TOther => None end) with
  | None => Err ValueError
  | Some t =>
      match ps with
      | [] => Err IndexError                                                  (* 560: parameters[0] *)
      | p0 :: _ =>
          let (m, w) := toggle_loop t ps (mapping e (is_name p0)) in
          match set_activity e (map snd m) with Ok e' => Ok (e', w) | Err er => Err er end
      end
  end.

(** ** ReaxFFError.toggle_parameter, 671-709
    [allowed]: _get_active().  The result: the engine and whether there was a warning about parameters which should not be
    activated. *)
Definition position (e : engine) (k : key) : res nat :=
  match k with
  | KI i => match nth_error e i with Some _ => Ok i | None => Err IndexError end
  | KS s => match sget s (index_map 0 (names e) []) with Some i => Ok i | None => Err KeyError end
  end.
Definition reax_toggle (allowed : list bool) (e : engine) (ps : list key) (t : toggle) (force : bool) : res (engine * bool) :=
  match (match t with On | TBool true => true | _ => false end) with
  | false => match toggle_parameter e ps t with Ok (e', _) => Ok (e', false) | Err er => Err er end
  | true =>
      match mapM (position e) ps with
      | Err er => Err er
      | Ok is =>
          let activating := map (fun j => nmem j is) (seq 0 (length e)) in
          let pick b := map fst (filter (fun jab => Bool.eqb (fst (snd jab)) b && snd (snd jab)) (combine (seq 0 (length e)) (combine allowed activating))) in
          let warned := match pick false with [] => false | _ => true end in
          match toggle_parameter e (if force then ps else map KI (pick true)) t with
          | Ok (e', _) => Ok (e', warned)
          | Err er => Err er
          end
      end
  end.

(** ** Results of a calculation, 270-323 and 608-627 *)
(** What the jobs give: training and validation residuals, or an error (ResultsError, DataSetEvaluationError).  [loss]
    computes the function value. *)
Definition default : num * list num := (PInf, [PInf]).
Definition calculate (loss : list num -> num) (val_set : option nat) (run : option (list num * list num)) : (num * list num) * (num * list num) :=
  match run with
  | Some (ts, vs) => ((loss ts, ts), match val_set with Some _ => (loss vs, vs) | None => default end)
  | None => (default, default)
  end.
Inductive cell := CNum (x : num) | CVec (l : list num).
(** detailed_call without scaling; [val_set]: the number of its entries. *)
Definition detailed_call (loss : list num -> num) (val_set : option nat) (run : option (list num * list num)) : list cell :=
  let c := calculate loss val_set run in
  [CNum (fst (fst c)); CVec (snd (fst c))] ++
  match val_set with Some _ => [CNum (fst (snd c)); CVec (snd (snd c))] | None => [] end.
(** headers, 313-323: [if self.val_set] is false for an empty data set.  [None]: a scalar column. *)
Definition headers (n : nat) (val_set : option nat) : list (string * option nat) :=
  [("fx", None); ("resids_ts", Some n)] ++
  match val_set with Some (S k) => [("fx_vs", None); ("resids_vs", Some (S k))] | _ => [] end.

(** ** _setup_collections_from_params, 855-886: for one of the two objects, which loaders run, in this order. *)
Inductive loader := LPickle | LYaml.
Definition loads (pkl yml : bool) : res (list loader) :=
  match (if pkl then [LPickle] else []) ++ (if yml then [LYaml] else []) with [] => Err OSError | l => Ok l end.
