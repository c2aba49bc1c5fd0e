(** * What a reader of the summary file may expect *)
From Verif Require Import Prelude Summary_Model.
Open Scope string_scope.

(** Values that can be reached from the one that is written: elements, keys and values, the public attributes of objects that are
    not callable (of a generator without logger and bounds), the parts of a selector. *)
Inductive within (w : val) : val -> Prop :=
  | W_here : within w w
  | W_list l u : In u l -> within w u -> within w (VList l)
  | W_tuple l u : In u l -> within w u -> within w (VTuple l)
  | W_set l u : In u l -> within w u -> within w (VSet l)
  | W_key l k u : In (k, u) l -> within w k -> within w (VDict l)
  | W_value l k u : In (k, u) l -> within w u -> within w (VDict l)
  | W_flow l u : In u l -> within w u -> within w (VFlow l)
  | W_array l u : In u l -> within w u -> within w (VArray l)
  | W_spawn c s o : within w s -> within w (VSel c s o)
  | W_class c s o a i k : In (a, i, k) o -> within w a -> within w (VSel c s o)
  | W_init c s o a i k : In (a, i, k) o -> within w i -> within w (VSel c s o)
  | W_call c s o a i k : In (a, i, k) o -> within w k -> within w (VSel c s o)
  | W_gen c l n u : In (Attr n false (Ok u)) l -> public n = true -> n <> "logger" -> n <> "bounds" -> within w u -> within w (VGen c l)
  | W_obj c ct l n u : In (Attr n false (Ok u)) l -> public n = true -> within w u -> within w (VObj c ct l).

(** Values for which YAML has no type of its own. *)
Definition foreign (v : val) : Prop :=
  match v with
  | VTuple _ | VFunc _ | VClass false _ | VComplex _ | VNumpy (NpComplex _) => True
  | _ => False
  end.
(** Readable without Python: yaml.safe_load. *)
Fixpoint native (n : node) : bool :=
  let ok t := match t with TPyTuple | TPyName _ | TPyComplex => false | _ => true end in
  match n with
  | Scalar t _ => ok t
  | Seq t _ l => ok t && forallb native l
  | Map t l => ok t && forallb (fun p => let '(a, b) := p in native a && native b) l
  end.

(** A public attribute that cannot be read. *)
Definition broken (v : val) : Prop :=
  match v with VGen _ l | VObj _ _ l => exists n c e, In (Attr n c (Err e)) l /\ public n = true | _ => False end.

(** What stands under a key of a mapping, and at the end of a path of keys. *)
Fixpoint entry (k : string) (l : list (node * node)) : option node :=
  match l with
  | [] => None
  | (Scalar TStr (SText s), v) :: l => if String.eqb s k then Some v else entry k l
  | _ :: l => entry k l
  end.
Fixpoint look (n : node) (path : list string) : option node :=
  match path with
  | [] => Some n
  | k :: path => match n with Map TMap l => match entry k l with Some m => look m path | None => None end | _ => None end
  end.
Definition names {A} (l : list (attr A)) : list string := map (fun a => match a with Attr n _ _ => n end) l.

(** What the summary takes over as it is. *)
Definition given (m : mng) : list val :=
  [m_gen m; m_sel m; m_bounds m; m_fx m; m_origin m] ++ match m_info m with Some v => [v] | None => [] end
  ++ match m_x m with Some l => l | None => [] end.

(** The numbers and texts of the summary and where they stand. *)
Definition numeral (n : nat) : node := Scalar TInt (SInt (Z.of_nat n)).
Definition expected (m : mng) : list (list string * node) :=
  [(["Assignment"; "GloMPO Version"], text (m_version m)); (["Assignment"; "Working Dir"], text (m_cwd m));
   (["Assignment"; "Username"], text (m_user m)); (["Assignment"; "Hostname"], text (m_host m)); (["Assignment"; "Time"; "Total"], text (m_total m));
   (["Settings"; "Max Jobs"], numeral (m_jobs m)); (["Counters"; "Function Evaluations"], numeral (m_f m)); (["Counters"; "Hunts Started"], numeral (m_hunts m));
   (["Counters"; "Optimizers"; "Started"], numeral (m_o m)); (["Counters"; "Optimizers"; "Killed"], numeral (m_victims m));
   (["Counters"; "Optimizers"; "Converged"], numeral (m_conv m))].
(** The objects of the summary and where they stand. *)
Definition objects (m : mng) : list (list string * val) :=
  [(["Settings"; "x0 Generator"], m_gen m); (["Settings"; "Optimizer Selector"], m_sel m); (["Settings"; "Bounds"], m_bounds m);
   (["Solution"; "fx"], m_fx m); (["Solution"; "origin"], m_origin m)]
  ++ match m_x m with Some l => [(["Solution"; "x"], VFlow l)] | None => [(["Solution"; "x"], VNone)] end.

(** What a reader with yaml.safe_load gets for a node, and the value of the same content that consists of nothing but None, truth
    values, numbers, texts, lists, sets and dictionaries, if there is one. *)
Section All.
  Context {A B : Type} (f : A -> option B).
  Fixpoint every (l : list A) : option (list B) :=
    match l with [] => Some [] | a :: l => match f a, every l with Some b, Some bs => Some (b :: bs) | _, _ => None end end.
End All.
Fixpoint reload (n : node) : option val :=
  match n with
  | Scalar TNull SNull => Some VNone | Scalar TBool (SBool b) => Some (VBool b) | Scalar TInt (SInt z) => Some (VInt z)
  | Scalar TFloat (SFloat x) => Some (VFloat x) | Scalar TStr (SText s) => Some (VStr s)
  | Seq TSeq _ l => option_map VList (every reload l)
  | Map TMap l => option_map VDict (every (fun p => let '(a, b) := p in match reload a, reload b with Some a, Some b => Some (a, b) | _, _ => None end) l)
  | Map TSet l => option_map VSet (every (fun p => let '(a, b) := p in match reload b with Some VNone => reload a | _ => None end) l)
  | _ => None
  end.
Fixpoint basic (v : val) : option val :=
  match v with
  | VNone | VBool _ | VInt _ | VFloat _ | VStr _ => Some v
  | VNumpy (NpBool b) => Some (VBool b) | VNumpy (NpInt z) => Some (VInt z) | VNumpy (NpFloat x) => Some (VFloat x)
  | VNumpy (NpStr s) => Some (VStr s) | VNumpy (NpOther s) => Some (VStr s)
  | VList l | VFlow l | VArray l => option_map VList (every basic l)
  | VSet l => option_map VSet (every basic l)
  | VDict l => option_map VDict (every (fun p => let '(a, b) := p in match basic a, basic b with Some a, Some b => Some (a, b) | _, _ => None end) l)
  | VClass true n => Some (VStr n)
  | _ => None
  end.
(** The reason that was told: that of the exception, if there was one with a text. *)
Definition told (reason : string) (caught : option string) : string :=
  match caught with None | Some EmptyString => reason | Some s => "Process Crash: " ++ s end.
(** A space at the end of a line. *)
Definition pad : string := String " " (String (ascii_of_nat 10) EmptyString).
