(** * The summary file
    Source: glompo/core/manager.py 247-254 (the representers), 1202-1220 (write_summary_file), 1678-1795 (_save_log without the run
    information, see Usage_Model, and the scale of the plot, see Plot_Model); glompo/common/helpers.py 418-514. *)
From Verif Require Export Prelude Helpers_Model.
From Coq Require Export Ascii.
Open Scope string_scope.

(** ** Python values, as far as PyYAML tells them apart
    Values are finite trees: an object that contains itself, which PyYAML writes with an alias, is not modelled, and an object
    reached twice is written twice. *)
Inductive npval := NpBool (b : bool) | NpInt (z : Z) | NpFloat (x : num) | NpStr (s : string) | NpComplex (s : string) | NpOther (s : string).
(** An entry of dir(obj): the name, whether the value is callable, the value or what getattr raises. *)
Inductive attr (A : Type) := Attr (name : string) (callable : bool) (v : res A).
Arguments Attr {A}.
Inductive val :=
  | VNone | VBool (b : bool) | VInt (z : Z) | VFloat (x : num) | VStr (s : string) | VComplex (s : string)
  | VList (l : list val) | VTuple (l : list val) | VSet (l : list val) | VDict (l : list (val * val))
  | VFunc (name : string)                       (* a function, a lambda, a builtin *)
  | VClass (abstract : bool) (name : string)    (* a class; abstract: its type is not [type] itself but, say, ABCMeta *)
  | VLiteral (s : string) | VFlow (l : list val) | VArray (l : list val) | VNumpy (v : npval)
  | VBounds (l : list (string * list nat))      (* BoundGroup, by what bound_group_presenter makes of it (Helpers_Model) *)
  | VSel (cls : string) (spawn : val) (opts : list (val * val * val))
  | VGen (cls : string) (attrs : list (attr val))
  | VObj (cls : string) (content : list val) (attrs : list (attr val)).
      (* any other object, of a class of its own; [content]: its elements, if the class is derived from a container *)

(** ** Nodes *)
Inductive tag := TNull | TBool | TInt | TFloat | TStr | TSeq | TMap | TSet | TPyTuple | TPyName (s : string) | TPyComplex.
Inductive scal := SNull | SBool (b : bool) | SInt (z : Z) | SFloat (x : num) | SText (s : string).
Inductive node := Scalar (t : tag) (v : scal) | Seq (t : tag) (flow : bool) (l : list node) | Map (t : tag) (l : list (node * node)).

Section MapM.
  Context {A B : Type} (f : A -> res B).
  Fixpoint mapM (l : list A) : res (list B) :=
    match l with
    | [] => Ok []
    | a :: l => match f a with
                | Err e => Err e
                | Ok b => match mapM l with Err e => Err e | Ok bs => Ok (b :: bs) end
                end
    end.
End MapM.
Definition rmap {A B} (f : A -> B) (r : res A) : res B := match r with Ok a => Ok (f a) | Err e => Err e end.

(** not k.startswith('_') *)
Definition public (s : string) : bool := match s with String "_" _ => false | _ => true end.
(** data.replace(' \n', '\n'), helpers.py 432 *)
Fixpoint unpad (s : string) : string :=
  match s with
  | EmptyString => EmptyString
  | String a s' =>
      match s' with
      | String b s'' => if Ascii.eqb a " " && Ascii.eqb b (ascii_of_nat 10) then String b (unpad s'') else String a (unpad s')
      | EmptyString => String a EmptyString
      end
  end.
(** What getattr raises first, for the names that are looked up. *)
Fixpoint first_error {A} (l : list (attr A)) : option exn :=
  match l with
  | [] => None
  | Attr n _ (Err e) :: l => if public n then Some e else first_error l
  | _ :: l => first_error l
  end.
Definition text (s : string) : node := Scalar TStr (SText s).
Definition null : node := Scalar TNull SNull.
Fixpoint somes {A} (l : list (option A)) : list A := match l with [] => [] | Some a :: l => a :: somes l | None :: l => somes l end.
Definition number {A} (l : list A) : list (nat * A) := combine (seq 0 (length l)) l.
(** generator_presenter, 456-458 *)
Definition shown_gen (n : string) : bool := public n && negb (String.eqb n "logger") && negb (String.eqb n "bounds").

(** represent_data of PyYAML's Dumper with the representers of manager.py 247-254: a representer for the exact type first, then
    the multi representers along the mro, of which [object] is the last.  isinstance(x, object) (helpers.py 441) is always true,
    so that allow_spawn is passed on as it is. *)
Fixpoint represent (v : val) : res node :=
  match v with
  | VNone => Ok null
  | VBool b => Ok (Scalar TBool (SBool b))
  | VInt z => Ok (Scalar TInt (SInt z))
  | VFloat x => Ok (Scalar TFloat (SFloat x))
  | VStr s => Ok (text s)
  | VComplex s => Ok (Scalar TPyComplex (SText s))
  | VList l => rmap (Seq TSeq false) (mapM represent l)
  | VTuple l => rmap (Seq TPyTuple false) (mapM represent l)
  | VSet l => rmap (fun l => Map TSet (map (fun n => (n, null)) l)) (mapM represent l)
  | VDict l => rmap (Map TMap) (mapM (fun kv => let '(k, u) := kv in
                 match represent k with Err e => Err e | Ok k => rmap (pair k) (represent u) end) l)
  | VFunc n => Ok (Scalar (TPyName n) (SText ""))
  | VClass false n => Ok (Scalar (TPyName n) (SText ""))
  | VClass true n => Ok (text n)                                       (* unknown_object_presenter, 504-505 *)
  | VLiteral s => Ok (text (unpad s))                                  (* literal_presenter, 430-432 *)
  | VFlow l => rmap (Seq TSeq true) (mapM represent l)                 (* flow_presenter, 466-468 *)
  | VArray l => rmap (Seq TSeq true) (mapM represent l)                (* numpy_array_presenter, 480-486 *)
  | VNumpy u => Ok match u with                                        (* numpy_dtype_presenter, 471-477 *)
                   | NpBool b => Scalar TBool (SBool b) | NpInt z => Scalar TInt (SInt z) | NpFloat x => Scalar TFloat (SFloat x)
                   | NpStr s => text s | NpComplex s => Scalar TPyComplex (SText s) | NpOther s => text s
                   end
  | VBounds l => Ok (Map TMap (map (fun p => (text (fst p), Seq TSeq true (map (fun n => Scalar TInt (SInt (Z.of_nat n))) (snd p)))) l))
  | VSel cls spawn opts =>                                             (* optimizer_selector_presenter, 435-450 *)
      match represent spawn with
      | Err e => Err e
      | Ok sp =>
          rmap (fun l => Map TMap [(text "Selector", text cls); (text "Allow Spawn", sp);
                                   (text "Available Optimizers",
                                    Map TMap (map (fun p => (Scalar TInt (SInt (Z.of_nat (fst p))), snd p)) (number l)))])
               (mapM (fun o => let '(c, i, k) := o in
                  match represent c with
                  | Err e => Err e
                  | Ok c => match represent i with
                            | Err e => Err e
                            | Ok i => rmap (fun k => Map TMap [(text "type", c); (text "init_kwargs", i); (text "call_kwargs", k)])
                                           (represent k)
                            end
                  end) opts)
      end
  | VGen cls attrs =>                                                  (* generator_presenter, 453-463 *)
      match first_error attrs with
      | Some e => Err e
      | None => rmap (fun l => Map TMap ((text "Generator", text cls) :: somes l))
                  (mapM (fun a => match a with
                     | Attr n c (Ok u) => if shown_gen n && negb c then rmap (fun x => Some (text n, x)) (represent u) else Ok None
                     | Attr _ _ (Err _) => Ok None end) attrs)
      end
  | VObj cls _ attrs =>                                                (* unknown_object_presenter, 507-514 *)
      match first_error attrs with
      | Some e => Err e
      | None => rmap (fun l => Map TMap [(text cls, match somes l with [] => null | vars => Map TMap vars end)])
                  (mapM (fun a => match a with
                     | Attr n c (Ok u) => if public n && negb c then rmap (fun x => Some (text n, x)) (represent u) else Ok None
                     | Attr _ _ (Err _) => Ok None end) attrs)
      end
  end.

(** ** _save_log, 1692-1795
    [m_times]: the texts of the sessions that have both ends; [m_start], [m_end]: whether t_start is set (and not 0), t_end is set.
    str(timedelta(...)) and the rest of the times are texts; run information and the directory of the checkpoints are inputs. *)
Record mng := mkMng { m_version : string; m_task : val; m_cwd : string; m_user : string; m_host : string;
  m_times : list (string * string); m_total : string; m_start : bool; m_end : bool; m_session : string;
  m_gen : val; m_checker : string; m_hunters : option string; m_sel : val; m_jobs : nat; m_bounds : val;
  m_f : nat; m_hunts : nat; m_o : nat; m_victims : nat; m_conv : nat; m_info : option val; m_chk : option (string * list string);
  m_fx : val; m_origin : val; m_x : option (list val) }.
(** type(x).__name__ *)
Definition type_name (v : val) : string :=
  match v with
  | VNone => "NoneType" | VBool _ => "bool" | VInt _ => "int" | VFloat _ => "float" | VStr _ => "str" | VComplex _ => "complex"
  | VList _ => "list" | VTuple _ => "tuple" | VSet _ => "set" | VDict _ => "dict" | VFunc _ => "function"
  | VClass true _ => "ABCMeta" | VClass false _ => "type" | VLiteral _ => "LiteralWrapper" | VFlow _ => "FlowList" | VArray _ => "ndarray"
  | VNumpy _ => "float64" | VBounds _ => "BoundGroup" | VSel c _ _ => c | VGen c _ => c | VObj c _ _ => c
  end.
Definition nat_v (n : nat) : val := VInt (Z.of_nat n).
Definition key (s : string) (v : val) : val * val := (VStr s, v).
(** 1722-1761; [reason] as after 1694-1695 *)
Definition summary (m : mng) (reason : string) : res val :=
  if m_start m && negb (m_end m) then Err TypeError else                                    (* 1724: None - float *)
  match nested_string_formatting (m_checker m), match m_hunters m with None => Ok VNone | Some h => rmap VLiteral (nested_string_formatting h) end,
        nested_string_formatting reason with
  | Ok chk, Ok hun, Ok rsn =>
      Ok (VDict ([key "Assignment" (VDict [key "GloMPO Version" (VStr (m_version m)); key "Task" (VStr (type_name (m_task m)));
                    key "Working Dir" (VStr (m_cwd m)); key "Username" (VStr (m_user m)); key "Hostname" (VStr (m_host m));
                    key "Time" (VDict [key "Optimization Periods" (VList (map (fun p => VDict [key "Start" (VStr (fst p)); key "End" (VStr (snd p))]) (m_times m)));
                                       key "Total" (VStr (m_total m)); key "Session" (if m_start m then VStr (m_session m) else VNone)])]);
                  key "Settings" (VDict [key "x0 Generator" (m_gen m); key "Convergence Checker" (VLiteral chk); key "Hunt Conditions" hun;
                    key "Optimizer Selector" (m_sel m); key "Max Jobs" (nat_v (m_jobs m)); key "Bounds" (m_bounds m)]);
                  key "Counters" (VDict [key "Function Evaluations" (nat_v (m_f m)); key "Hunts Started" (nat_v (m_hunts m));
                    key "Optimizers" (VDict [key "Started" (nat_v (m_o m)); key "Killed" (nat_v (m_victims m)); key "Converged" (nat_v (m_conv m))])])]
                 ++ match m_info m with Some v => [key "Run Information" v] | None => [] end
                 ++ match m_chk m with Some (d, l) => [key "Checkpointing" (VDict [key "Directory" (VStr d); key "Checkpoints" (VList (map VStr l))])] | None => [] end
                 ++ [key "Solution" (VDict [key "fx" (m_fx m); key "origin" (m_origin m); key "exit cond." (VLiteral rsn);
                       key "x" (match m_x m with Some l => VFlow l | None => VNone end)])]))
  | Err e, _, _ => Err e
  | _, Err e, _ => Err e
  | _, _, Err e => Err e
  end.

(** The files of a directory that matter: the summary (empty, or holding a document), the trajectory plot, the log file and the
    attributes written to it. *)
Record dirc := mkDir { d_yml : option (option node); d_png : bool; d_h5 : option (list (string * string)) }.
(** 1779-1793 in short: what the log file says about the manager *)
Definition metadata (m : mng) (reason : string) : list (string * string) :=
  [("task", type_name (m_task m)); ("username", m_user m); ("total_time", m_total m); ("exit_reason", reason)].
(** [plot]: what the plot raises. *)
Definition save_log (m : mng) (reason : string) (caught : option string) (level : nat) (plot : option exn) (d : dirc) : res unit * dirc :=
  let reason := match caught with Some c => if Nat.ltb 0 level then if String.eqb c "" then reason else "Process Crash: " ++ c else reason | None => reason end in
  match (if Nat.ltb 0 level then
           match summary m reason with
           | Err e => (Err e, d)
           | Ok v => match represent v with                                               (* 1763-1765: opened before it is dumped *)
                     | Err e => (Err e, mkDir (Some None) (d_png d) (d_h5 d))
                     | Ok n => (Ok tt, mkDir (Some (Some n)) (d_png d) (d_h5 d))
                     end
           end
         else (Ok tt, d)) with
  | (Err e, d) => (Err e, d)
  | (Ok _, d) =>
      if Nat.ltb 1 level then
        match plot with
        | Some e => (Err e, d)
        | None =>
            let d := mkDir (d_yml d) true (d_h5 d) in
            if Nat.ltb 2 level then (Ok tt, mkDir (d_yml d) (d_png d) (Some (metadata m reason))) else (Ok tt, d)
        end
      else (Ok tt, d)
  end.
(** write_summary_file, 1202-1220 *)
Definition write_summary_file (m : mng) (d : dirc) : res unit * dirc := save_log m "Manual Save State" None 1 None d.
