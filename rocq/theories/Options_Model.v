(** * Settings on their way to the libraries
    Source: glompo/optimizers/cmawrapper.py 61-105, 137-161; gfls.py 62-85, 100-105; nevergrad.py 30-61; scipy.py 14-17, 46-53, 60-85. *)
From Verif Require Export Prelude.
Open Scope string_scope.
Open Scope list_scope.

(** Values of settings, as far as the wrappers look at them; anything else is an object. *)
Inductive oval := OInt (z : Z) | OReal (x : num) | OObj (n : nat) | ODict (l : list (string * oval)) | OBounds (l : list (num * num)).
Definition opts := list (string * oval).
(** Python's truth of a value; objects are true. *)
Definition truthy (v : oval) : bool :=
  match v with
  | OInt z => negb (Z.eqb z 0) | OReal x => negb (neq x (Fin 0)) | OObj _ => true
  | ODict l => match l with [] => false | _ => true end | OBounds l => match l with [] => false | _ => true end
  end.

(** ** CMA
    [native]: the keys of cma.CMAOptions().  [extend]: GaussVDSampler.extend_cma_options and that of GaussVkDSampler, which belong to cma. *)
Section CMA.
Variable native : string -> bool.
Variable extend : bool -> opts -> opts.
(** 89-93: [items] is the list made of the items before the loop. *)
Fixpoint sort_out (items : opts) (settings custom : opts) : opts * opts :=
  match items with
  | [] => (settings, custom)
  | (k, v) :: items => if native k then sort_out items settings custom else sort_out items (ddel String.eqb k settings) (sset k v custom)
  end.
(** The attributes cmasettings and popsize. *)
Record cma := mkCMA { c_settings : opts; c_popsize : option oval }.
Definition cma_init (sampler : string) (user : opts) : cma :=
  let pop := sget "popsize" user in                                                        (* 82 *)
  let '(s, custom) := sort_out user user [] in                                             (* 89-93 *)
  let s := sset "verbose" (OInt (-3)) (sset "vv" (ODict custom) s) in                       (* 95-96 *)
  let s := if smemd "maxiter" s then s else sset "maxiter" (OReal PInf) s in               (* 99-100 *)
  mkCMA (if String.eqb sampler "vd" then extend true s                                     (* 102-105 *)
         else if String.eqb sampler "vkd" then extend false s else s) pop.
(** What the constructor of CMAEvolutionStrategy gets, 137-161, without a restart; [auto]: 4 + int(3 * log(len(x0))). *)
Definition cma_minimize (workers auto : nat) (sigma : num) (bounds : list (num * num)) (c : cma) : res opts * cma :=
  if nle sigma (Fin 0) then (Err ValueError, c) else                                       (* 139-141 *)
  let missing := match c_popsize c with Some v => negb (truthy v) | None => true end in    (* 143 *)
  let size := OInt (Z.of_nat (if Nat.ltb 1 workers then workers else auto)) in             (* 144-147 *)
  let task := if missing then sset "popsize" size (c_settings c) else c_settings c in
  let c' := if missing then mkCMA (c_settings c) (Some size) else c in                     (* 148 *)
  (Ok (sset "bounds" (OBounds bounds) task), c').                                          (* 160-161 *)
End CMA.

(** ** GFLS: the keyword arguments of the algorithm, 73-75 and 103-104 *)
Definition gfls_init (user : opts) : opts := if smemd "tr_max" user then user else sset "tr_max" (OReal (Fin (1 # 2))) user.
Definition gfls_minimize (bounds : list (num * num)) (kw : opts) : opts := sset "bounds" (OBounds bounds) kw.

(** ** scipy
    [accepts f k]: whether the function [f] of scipy.optimize has a parameter [k]; a call with another keyword raises TypeError. *)
Inductive spfun := Basinhopping | Dual_annealing | Shgo | Differential_evolution | Minimize.
(** 14-17, 53: AVAILABLE_OPTS.get(method, minimize) *)
Definition sp_function (method : string) : spfun :=
  if String.eqb method "basinhopping" then Basinhopping else if String.eqb method "dual_annealing" then Dual_annealing
  else if String.eqb method "shgo" then Shgo else if String.eqb method "differential_evolution" then Differential_evolution else Minimize.
Definition is_minimize (f : spfun) : bool := match f with Minimize => true | _ => false end.
Definition is_basinhopping (f : spfun) : bool := match f with Basinhopping => true | _ => false end.
(** The text of a method is an object of its own: [name]. *)
Section Scipy.
Variable name : string -> nat.
Variable accepts : spfun -> string -> bool.
(** 73-82: the keywords of the call, besides the function which is given by position *)
Definition sp_keywords (method : string) (x0 : nat) (callback : nat) (bounds : list (num * num)) (kw : opts) : res opts :=
  let f := sp_function method in
  let kw := if is_basinhopping f then kw else sset "bounds" (OBounds bounds) kw in
  let kw := if is_minimize f then sset "method" (OObj (name method)) kw else kw in
  if smemd "x0" kw || smemd "callback" kw then Err TypeError                               (* given twice *)
  else
    let all := kw ++ [("x0", OObj x0); ("callback", OObj callback)] in
    if forallb (fun p => accepts f (fst p)) all then Ok all else Err TypeError.
End Scipy.

(** ** Nevergrad
    [serial]: whether the algorithm of the registry cannot run in parallel (None: there is no such algorithm); [takes k]: whether the
    algorithm has a keyword [k] besides parametrization, budget and num_workers. *)
Definition ng_init (registry : string -> option bool) (optimizer : string) (workers : nat) : res nat :=
  match registry optimizer with
  | None => Err KeyError                                                                   (* 42 *)
  | Some true => Ok 1%nat                                                                  (* 44-47 *)
  | Some false => Ok workers
  end.
Definition ng_minimize (takes : string -> bool) (workers : nat) (kw : opts) : res opts :=    (* 61-62 *)
  if smemd "parametrization" kw || smemd "budget" kw || smemd "num_workers" kw || negb (forallb (fun p => takes (fst p)) kw) then Err TypeError
  else Ok (kw ++ [("num_workers", OInt (Z.of_nat workers))]).
