(** * When the manager may be initialised, and with which settings *)
From Verif Require Import Prelude Helpers_Model Helpers_Spec Setup_Model.

Definition a_number (v : pv) : Prop := (exists b, v = VBool b) \/ (exists z, v = VInt z) \/ (exists x, v = VFloat x).
(** The values Python counts as false. *)
Inductive python_false : pv -> Prop :=
  | F_none : python_false VNone
  | F_bool : python_false (VBool false)
  | F_int : python_false (VInt 0)
  | F_float q : (q == 0)%Q -> python_false (VFloat (Fin q))
  | F_str : python_false (VStr EmptyString)
  | F_list : python_false (VBounds [])
  | F_obj i cs c : python_false (VObj i cs false c).
(** None or another false value: the default is used. *)
Definition default_or (P : Prop) (v : pv) : Prop := truthy v = false \/ P.

(** C57: usable arguments. *)
Record usable_args (e : env) (a : args) : Prop := mkUsable {
  u_task : callable (a_task a) = true;
  u_selector : isinstance (a_selector a) "BaseSelector" = true;
  u_bounds : Forall usable_bound (a_bounds a);
  u_jobs : default_or (a_jobs a = VBool true \/ exists z, a_jobs a = VInt z /\ (0 < z)%Z) (a_jobs a);
  u_checker : default_or (isinstance (a_checker a) "BaseChecker" = true) (a_checker a);
  u_gen : default_or (isinstance (a_gen a) "BaseGenerator" = true) (a_gen a);
  u_hunter : default_or (isinstance (a_hunter a) "BaseHunter" = true) (a_hunter a);
  u_force : a_number (a_force a);
  u_status : (exists b, a_status a = VBool b) \/ (exists z, a_status a = VInt z) \/ (exists q, a_status a = VFloat (Fin q));
  u_scope : default_or (e_scope e = Ok tt \/ e_scope e = Err ImportError) (a_vis a);
  u_summary : a_number (a_summary a);
  u_init : isinstance (a_control a) "CheckpointingControl" = true -> e_dill e = true -> truthy (a_control a) = true ->
           e_at_init e = true -> e_chk e = Ok tt }.

(** How many slots a value of max_jobs means. *)
Definition slots_meant (v : pv) : option Z :=
  match v with VInt z => Some z | VBool b => Some (if b then 1 else 0)%Z | _ => None end.

(** C58: the arguments of setup by name (manager.py 319-341). *)
Definition named (a : args) : list (string * pv) :=
  [("opt_selector", a_selector a); ("working_dir", a_dir a); ("overwrite_existing", a_overwrite a); ("max_jobs", a_jobs a);
   ("backend", a_backend a); ("convergence_checker", a_checker a); ("x0_generator", a_gen a);
   ("killing_conditions", a_hunter a); ("share_best_solutions", a_share a); ("hunt_frequency", a_hfreq a);
   ("status_frequency", a_status a); ("checkpoint_control", a_control a); ("summary_files", a_summary a);
   ("is_log_detailed", a_detailed a); ("visualisation", a_vis a); ("visualisation_args", a_visargs a);
   ("force_terminations_after", a_force a); ("aggressive_kill", a_aggressive a); ("end_timeout", a_timeout a);
   ("split_printstreams", a_split a)]%string.

(** The attributes that hold the setting (manager.py 230-317 with the class documentation). *)
Definition stored_as (k : string) : list string :=
  if String.eqb k "backend" then ["proc_backend"; "opts_daemonic"]%string
  else if String.eqb k "force_terminations_after" then ["allow_forced_terminations"; "_too_long"]%string
  else if String.eqb k "share_best_solutions" then ["incumbent_sharing"]%string
  else [k].

(** A value that setup neither replaces by a default nor converts. *)
Definition regular (e : env) (k : string) (v : pv) : Prop :=
  (In k ["max_jobs"; "convergence_checker"; "x0_generator"; "killing_conditions"; "end_timeout"; "visualisation"]%string -> truthy v = true) /\
  (k = "status_frequency"%string -> exists z, v = VInt z) /\
  (In k ["split_printstreams"; "overwrite_existing"]%string -> exists b, v = VBool b) /\
  (k = "checkpoint_control"%string -> isinstance v "CheckpointingControl" = true /\ e_dill e = true) /\
  (k = "backend"%string -> In v [VStr "processes"; VStr "threads"; VStr "processes_forced"]) /\
  (k = "working_dir"%string -> isinstance v "Path" = true \/ isinstance v "str" = true).

(** What the argument says about such an attribute: the value itself, except that the two of the backend and the permission
    to terminate are flags. *)
Definition meaning (v : pv) (s : string) : pv :=
  if String.eqb s "proc_backend" then VBool (negb (is_backend v "threads"))
  else if String.eqb s "opts_daemonic" then VBool (negb (is_backend v "processes_forced"))
  else if String.eqb s "allow_forced_terminations" then VBool (match exceeds v 0 with Ok b => b | Err _ => false end)
  else v.

(** The arguments that load_checkpoint writes by itself and an override cannot be expected to keep. *)
Definition set_by_load : list string := ["task"; "opt_log"; "t_start"; "t_end"; "opt_crashed"; "converged"; "_is_restart"]%string.

(** C59: the candidates for the task, in the order of the documentation (manager.py 650-659): the one in the checkpoint,
    the one of the task_loader, the one given. *)
Definition opt_list (o : option pv) : list pv := match o with Some v => [v] | None => [] end.
Definition candidates (pickled loaded : option pv) (given : pv) : list pv := opt_list pickled ++ opt_list loaded ++ [given].
(** What loading finds of the task that was saved. *)
Definition found (f : task_files) (task : pv) : option pv := match f with TPickled => Some task | _ => None end.
