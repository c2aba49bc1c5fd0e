(** * Saving, loading and reopening the log object
    Source: glompo/core/optimizerlogger.py 46-67, 287-316, 335-349, 498-533; glompo/core/manager.py 594-596, 793-795, 922-958.

    The log object is its class and the dictionary of its attributes, whose values are of any type [V].  The contents of
    the log are the subject of Logger_Model, FileLogger_Model and Restart_Model. *)
From Verif Require Export Prelude.

Inductive cls := Base | File.
Record obj (V : Type) := mkObj { o_cls : cls; o_attrs : list (string * V) }.
Arguments mkObj {V}. Arguments o_cls {V}. Arguments o_attrs {V}.

(** __init__, 60-67 and 335-349 *)
Definition base_names : list string :=
  ["_f_counter"; "_best_iters"; "_best_iter"; "_max_eval"; "_storage"; "build_traj_plot"; "_figure_data"]%string.
Definition file_names : list string :=
  ["pytab_file"; "expected_rows"; "n_task_dims"; "_o_counter"; "_writing_chunk"; "_est_iter_size"; "_groups"; "_tables"]%string.
Definition names (c : cls) : list string := match c with Base => base_names | File => base_names ++ file_names end.
Definition construct {V} (c : cls) (v : string -> V) : obj V := mkObj c (map (fun k => (k, v k)) (names c)).

(** checkpoint_save, 297-316 and 532-533: the attributes but those which are blocked. *)
Definition blocked (c : cls) : list string :=
  match c with Base => [] | File => ["pytab_file"; "_tables"; "_groups"]%string end.
Definition save {V} (o : obj V) : list (string * V) :=
  filter (fun kv => negb (existsb (String.eqb (fst kv)) (blocked (o_cls o)))) (o_attrs o).
(** checkpoint_load, 46-58: __new__ without __init__, then every saved attribute. *)
Definition load {V} (c : cls) (l : list (string * V)) : obj V := mkObj c (fold_left (fun m kv => sset (fst kv) (snd kv) m) l []).

(** open, 290-291 and 498-517.  [append] is mode 'a', used for a restart with an existing file (manager.py 922-957). *)
Definition open {V} (append : bool) (handle groups tables : V) (o : obj V) : obj V :=
  match o_cls o with
  | Base => o
  | File =>
      let m := sset "pytab_file" handle (o_attrs o) in
      mkObj File (if append then sset "_tables" tables (sset "_groups" groups m) else m)
  end.

(** The methods the manager uses during a run and the attributes they read.  (Some read an attribute only if there is
    something to do; the model lets every method read all of them.) *)
Inductive method :=
  | AddOptimizer | AddHistory | HasHistory | PutIteration | PutMetadata | PutMessage | GetHistory | GetBest | Flush | ClearCache | Close
  | NOptimizers | LargestEval | Contains.
Definition reads (c : cls) (f : method) : list string :=
  match c, f with
  | Base, AddOptimizer => ["_best_iters"; "_storage"]
  | Base, (AddHistory | HasHistory | PutMetadata | PutMessage | GetHistory | NOptimizers | Contains) => ["_storage"]
  | Base, PutIteration => ["_best_iter"; "_best_iters"; "_f_counter"; "_max_eval"; "_storage"]
  | _, GetBest => ["_best_iter"; "_best_iters"]
  | Base, Flush => []
  | Base, (ClearCache | Close) => ["build_traj_plot"; "_storage"]
  | _, LargestEval => ["_max_eval"]
  | File, AddOptimizer => ["_best_iters"; "_storage"; "_groups"; "_o_counter"; "_writing_chunk"; "pytab_file"]
  | File, AddHistory => ["_storage"; "_tables"; "expected_rows"; "n_task_dims"; "pytab_file"]
  | File, HasHistory => ["_tables"]
  | File, PutIteration =>
      ["_best_iter"; "_best_iters"; "_f_counter"; "_max_eval"; "_storage"; "_est_iter_size"; "_writing_chunk"; "_groups"; "_tables"; "pytab_file"]
  | File, (PutMetadata | PutMessage) => ["_storage"; "_groups"; "pytab_file"]
  | File, GetHistory => ["_storage"; "_tables"; "_groups"; "pytab_file"; "_best_iters"; "_writing_chunk"]
  | File, Flush => ["_best_iters"; "_writing_chunk"; "_storage"; "_groups"; "_tables"; "pytab_file"]
  | File, ClearCache => ["_o_counter"; "_best_iters"; "_writing_chunk"; "_storage"; "_groups"; "_tables"; "pytab_file"; "build_traj_plot"]
  | File, Close => ["_o_counter"; "_f_counter"; "_best_iter"; "_best_iters"; "_max_eval"; "pytab_file"; "_writing_chunk"; "_storage"; "_groups"; "_tables"]
  | File, NOptimizers => ["_o_counter"]
  | File, Contains => ["pytab_file"]
  end%string.
(** Reading an attribute that does not exist raises AttributeError. *)
Definition has {V} (o : obj V) (k : string) : bool := match sget k (o_attrs o) with Some _ => true | None => false end.
Definition call {V} (o : obj V) (f : method) : res unit :=
  if forallb (has o) (reads (o_cls o) f) then Ok tt else Err AttributeError.

(** manager.py 594, 794: the class is chosen from the present value of summary_files, not from the file. *)
Definition class_for (summary_files : Z) : cls := if Z.ltb 2 summary_files then File else Base.
