(** * Columns for extra results, classic ReaxFF files and scaled residuals
    Source: glompo/common/helpers.py 342-394 (infer_headers); glompo/core/manager.py 1493-1506; glompo/core/optimizerlogger.py 385-418, 471-483;
    glompo/interfaces/params.py 293-335, 575-627, 809-842. *)
From Coq Require Export QArith Qabs Qround.
From Verif Require Export Prelude.
Close Scope Q_scope.
Open Scope nat_scope.

Fixpoint map_res {A B} (f : A -> res B) (l : list A) : res (list B) :=
  match l with [] => Ok [] | a :: l => match f a with Err e => Err e | Ok b => match map_res f l with Err e => Err e | Ok r => Ok (b :: r) end end end.

(** ** infer_headers
    What a task may return next to the value.  numpy floats are floats and numpy strings are strings for isinstance, numpy integers
    and booleans are neither int nor bool.  Sequences are given as the numpy array made of them: element type, shape and elements in order
    (arrays of strings or objects are not modelled). *)
Inductive dtype := DBool | DInt | DFloat.
Inductive pyval := PFloat (x : num) | PBool (b : bool) | PInt (z : Z) | PStr (s : string) | PArr (d : dtype) (shape : list nat) (items : list num)
  | PNone | PComplex (re im : num) | PNpInt (z : Z) | PNpBool (b : bool) | PObject (type : string).
(** tables.Col *)
Inductive col := FloatCol | BoolCol | IntCol | StrCol (size : nat) | ArrCol (d : dtype) (shape : list nat) | ComplexCol.
Definition infer_one (v : pyval) : res col :=
  match v with
  | PFloat _ => Ok FloatCol
  | PBool _ => Ok BoolCol
  | PInt _ => Ok IntCol
  | PStr _ => Ok (StrCol 280)
  | PArr d sh _ => Ok (ArrCol d sh)
  | PNone => Ok FloatCol
  | PComplex _ _ => Ok ComplexCol
  | PNpInt _ | PNpBool _ | PObject _ => Err TypeError
  end.
(** Lines 366-394: the names result_0, result_1, ... are given by the position. *)
Fixpoint infer_from (pos : nat) (l : list pyval) : res (list (nat * col)) :=
  match l with
  | [] => Ok []
  | v :: l => match infer_one v with
              | Err e => Err e
              | Ok c => match infer_from (S pos) l with Err e => Err e | Ok r => Ok ((pos, c) :: r) end
              end
  end.
Definition infer_headers (l : list pyval) : res (list (nat * col)) := infer_from 0 l.

(** What numpy makes of a value when rows are appended to the table (optimizerlogger.py 481): integers of a Float64 column are taken to be
    exact, numbers are not written into string columns, and the class of the exception does not matter (see [flush]). *)
Definition is_ascii (s : string) : bool := forallb (fun a => Nat.ltb (Ascii.nat_of_ascii a) 128) (list_ascii_of_string s).
Definition int64 (z : Z) : bool := Z.leb (- 2 ^ 63) z && Z.ltb z (2 ^ 63).
Definition truncq (q : Q) : Z := if Qle_bool 0 q then Qfloor q else Qceiling q.
Definition to_int (x : num) : res Z :=
  match x with Fin q => if int64 (truncq q) then Ok (truncq q) else Err OverflowError | NaN => Err ValueError | _ => Err OverflowError end.
Definition of_bool (b : bool) : num := Fin (if b then 1%Q else 0%Q).
(** The number of a scalar *)
Definition number (v : pyval) : option num :=
  match v with PFloat x => Some x | PBool b | PNpBool b => Some (of_bool b) | PInt z | PNpInt z => Some (Fin (inject_Z z)) | PNone => Some NaN | _ => None end.
Definition cast (d : dtype) (x : num) : res num :=
  match d with
  | DFloat => Ok x
  | DInt => match to_int x with Ok z => Ok (Fin (inject_Z z)) | Err e => Err e end
  | DBool => Ok (of_bool (negb (match x with Fin q => Qeq_bool q 0 | _ => false end)))
  end.
Definition cast_all (d : dtype) (l : list num) : res (list num) := map_res (cast d) l.
(** numpy's assignment of an array to an array of another shape: ones in front of the source are dropped or added, then every length must agree
    or be one, in which case the data are repeated. *)
Fixpoint pad (k : nat) (l : list nat) : list nat := match k with 0 => l | S k => 1 :: pad k l end.
Fixpoint strip (k : nat) (l : list nat) : option (list nat) :=
  match k, l with 0, _ => Some l | S k, 1 :: l => strip k l | _, _ => None end.
Definition align (sh src : list nat) : option (list nat) :=
  if Nat.leb (length src) (length sh) then Some (pad (length sh - length src) src) else strip (length src - length sh) src.
Fixpoint conform (sh src : list nat) : bool :=
  match sh, src with [], [] => true | n :: sh, m :: src => (Nat.eqb m n || Nat.eqb m 1) && conform sh src | _, _ => false end.
Fixpoint size (sh : list nat) : nat := match sh with [] => 1 | n :: sh => n * size sh end.
Fixpoint chunks {A} (k n : nat) (l : list A) : list (list A) := match k with 0 => [] | S k => firstn n l :: chunks k n (skipn n l) end.
Fixpoint spread {A} (sh src : list nat) (items : list A) : list A :=
  match sh, src with
  | n :: sh, m :: src => if Nat.eqb m n then concat (map (spread sh src) (chunks m (size src) items))
                         else concat (repeat (spread sh src items) n)
  | _, _ => items
  end.
Definition fill_array (d : dtype) (sh src : list nat) (items : list num) : res pyval :=
  match align sh src with
  | Some src => if conform sh src then match cast_all d (spread sh src items) with Ok r => Ok (PArr d sh r) | Err e => Err e end else Err ValueError
  | None => Err ValueError
  end.
Definition store (c : col) (v : pyval) : res pyval :=
  match c with
  | FloatCol => match number v with Some x => Ok (PFloat x) | None => Err TypeError end
  | BoolCol => match v with
               | PStr s => Ok (PBool (negb (String.eqb s "")))
               | PNone => Ok (PBool false)
               | _ => match number v with Some x => Ok (PBool (negb (match x with Fin q => Qeq_bool q 0 | _ => false end))) | None => Err TypeError end
               end
  | IntCol => match v with
              | PNone => Err TypeError
              | _ => match number v with
                     | Some x => match to_int x with Ok z => Ok (PInt z) | Err e => Err e end
                     | None => Err TypeError end
              end
  | StrCol n => match v with PStr s => if is_ascii s then Ok (PStr (substring 0 n s)) else Err ValueError | _ => Err TypeError end
  | ArrCol d sh => match v with
                   | PArr _ src items => fill_array d sh src items
                   | _ => match number v with Some x => fill_array d sh [] [x] | None => Err ValueError end
                   end
  | ComplexCol => match v with
                  | PComplex a b => Ok (PComplex a b)
                  | _ => match number v with Some x => Ok (PComplex x (Fin 0)) | None => Err TypeError end
                  end
  end.
(** A row of extras, by position; the number of fields must agree. *)
Fixpoint store_row (h : list (nat * col)) (l : list pyval) : res (list pyval) :=
  match h, l with
  | [], [] => Ok []
  | (_, c) :: h, v :: l => match store c v with Err e => Err e | Ok s => match store_row h l with Err e => Err e | Ok r => Ok (s :: r) end end
  | _, _ => Err ValueError
  end.
(** FileLogger.flush, 471-483: the whole chunk is converted before anything is written (tables turns every error of that into ValueError), and
    the chunk is emptied afterwards.  State: the rows written and the chunk. *)
Definition flush (h : list (nat * col)) (written chunk : list (list pyval)) : res unit * (list (list pyval) * list (list pyval)) :=
  match map_res (store_row h) chunk with
  | Ok rows => (Ok tt, (written ++ rows, []))
  | Err _ => (Err ValueError, (written, chunk))
  end.
(** The results of one optimizer whose task has no headers(): the columns come from the first (manager 1493-1506), the chunk is written at the end. *)
Definition log_extras (l : list (list pyval)) : res unit * list (list pyval) :=
  match l with
  | [] => (Ok tt, [])
  | first :: _ => match infer_headers first with
                  | Err e => (Err e, [])
                  | Ok h => let '(r, (w, _)) := flush h [] l in (r, w)
                  end
  end.

(** ** ParAMS: detailed_call and headers, params.py 293-324: how many fields there are beside the value; [val] the size of the validation set, if
    there is one.  An empty set is not None but false. *)
Definition detailed_fields (val : option nat) : nat := match val with None => 2 | Some _ => 4 end.
Definition header_fields (val : option nat) : nat := match val with None | Some 0 => 2 | Some _ => 4 end.

(** ** setup_reax_from_classic, params.py 809-842: the parameters
    A parameter of the engine; the optional files: what read_paramsfile makes of the engine, or the values in ffield_bool, ffield_min and ffield_max
    ([None]: the file does not exist).  Names are keys; [p.x = ...] is taken to set the value. *)
Record param := mkP { p_name : string; p_val : Q; p_lo : Q; p_hi : Q; p_act : bool }.
Record files := mkF { f_params : option (list param -> list param); f_bool : option (list Q); f_min : option (list (string * Q)); f_max : option (list (string * Q)) }.
Fixpoint set_active (ps : list param) (bs : list bool) : list param :=
  match ps, bs with
  | p :: ps, b :: bs => mkP (p_name p) (p_val p) (p_lo p) (p_hi p) b :: set_active ps bs
  | _, _ => ps
  end.
(** 827-834 *)
Definition restrict (mn mx : list (string * Q)) (p : param) : res param :=
  if p_act p then
    match sget (p_name p) mn, sget (p_name p) mx with
    | Some a, Some b => Ok (if negb (Qle_bool b a) then mkP (p_name p) (p_val p) a b true
                            else mkP (p_name p) a (p_lo p) (p_hi p) false)
    | _, _ => Err KeyError
    end
  else Ok p.
(** 839-842 *)
Definition centre (p : param) : param :=
  if p_act p && negb (negb (Qle_bool (p_val p) (p_lo p)) && negb (Qle_bool (p_hi p) (p_val p)))
  then mkP (p_name p) ((p_lo p + p_hi p) / 2)%Q (p_lo p) (p_hi p) true else p.
Definition setup_classic (new : bool) (f : files) (ps : list param) : res (list param) :=
  let r := match f_params f, new with
           | Some g, true => Ok (g ps)
           | _, _ => match f_bool f, f_min f, f_max f with
                     | Some bs, Some mn, Some mx => map_res (restrict mn mx) (set_active ps (map (fun q => negb (Qeq_bool q 0)) bs))
                     | _, _, _ => Ok ps
                     end
           end in
  match r with Ok ps => Ok (map centre ps) | Err e => Err e end.

(** ** Residuals, params.py 326-335, 575-627
    An entry of the data set: key, weight, sigma; the residuals are the differences between prediction and reference as DataSet.evaluate returns
    them, one per entry. *)
Record entry := mkE { e_key : string; e_weight : Q; e_sigma : Q }.
Definition scale_residuals (rs : list Q) (es : list entry) : list Q :=
  map (fun p => let '(r, e) := p in (e_weight e * ((r / e_sigma e) * (r / e_sigma e)))%Q) (combine rs es).
Definition resids (scale : bool) (rs : list Q) (es : list entry) : list Q := if scale then scale_residuals rs es else rs.
(** _calculate after a failed evaluation, 606 and 614: one infinite residual, which numpy repeats when it is scaled (zero times infinity is NaN). *)
Definition failed_resids (scale : bool) (es : list entry) : list num :=
  if scale then map (fun e => if Qeq_bool (e_weight e) 0 then NaN else if Qle_bool 0 (e_weight e) then PInf else NInf) es else [PInf].
(** reweigh_residuals: keys or indices with their new weights *)
Inductive rkey := Key (k : string) | Index (i : nat).
Definition names (r : rkey) (i : nat) (e : entry) : bool := match r with Key k => String.eqb k (e_key e) | Index j => Nat.eqb j i end.
Fixpoint reweigh_one (i : nat) (r : rkey) (w : Q) (es : list entry) : option (list entry) :=
  match es with
  | [] => None
  | e :: es => if names r i e then Some (mkE (e_key e) w (e_sigma e) :: es)
               else match reweigh_one (S i) r w es with Some es => Some (e :: es) | None => None end
  end.
(** The exception and the data set as it is left *)
Fixpoint reweigh (l : list (rkey * Q)) (es : list entry) : res unit * list entry :=
  match l with
  | [] => (Ok tt, es)
  | (r, w) :: l => match reweigh_one 0 r w es with
                   | Some es => reweigh l es
                   | None => (Err (match r with Key _ => KeyError | Index _ => IndexError end), es)
                   end
  end.
Definition reweigh_sequence (l : list rkey) (w : option Q) (es : list entry) : res unit * list entry :=
  match w with None => (Err ValueError, es) | Some w => reweigh (map (fun r => (r, w)) l) es end.
