(** * C05-C06: the HDF5 backed log *)
From Verif Require Import Prelude Logger_Model Logger_Spec Logger_Proofs FileLogger_Model FileLogger_Spec FileLogger_Proofs.

(** A run used by the examples: evaluations before and after flushes, a size threshold
    which is exceeded, and one optimizer whose cache is cleared. *)
Definition ex_fops : list fop :=
  [ FOp (AddOpt 1 "CMA" "t0"); FOp (AddOpt 2 "GFLS" "t1"); FOp (AddHist 1 ["r1"]);
    FOp (PutIter (mkIR 1 [Fin 1; Fin 2] (Fin 5) [Fin 7])); FFlush (Some 1);
    FOp (AddHist 2 []); FOp (PutIter (mkIR 2 [Fin 3] NaN [])); FOp (PutIter (mkIR 1 [Fin 4] (Fin 3) [Fin 8]));
    FFlush None; FOp (PutIter (mkIR 2 [Fin 5] (Fin 2) [])); FOp (ClearCache (Some 1));
    FOp (PutMeta 1 "end_cond" "x"); FOp (PutIter (mkIR 2 [Fin 6] PInf [])) ].

Definition ex_size (_ : iterres) : N := 40000000%N.

(** C05: at every moment the rows on disk followed by the pending rows are exactly the evaluations
    of each optimizer, in order, each once, with their overall positions. *)
Theorem C05_rows : forall sz traj ops d i,
  lives [] ops = Some d -> nmemd i d = true ->
  let s := fexec sz ops (flog_init traj) in
  rows_of i (evals (erase ops))
    ((match f_table i s with Some t => t_rows t | None => [] end) ++
     (match nget i (f_chunk s) with Some pend => pend | None => [] end)).
Proof. exact filelog_rows. Qed.
Print Assumptions C05_rows.

Example C05_rows_ex :
  lives [] ex_fops = Some [(1, Closed); (2, Open 0)] /\
  let s := fexec ex_size ex_fops (flog_init false) in
  option_map (fun t => map rw_call (t_rows t)) (f_table 2 s) = Some [2] /\
  option_map (map rw_call) (nget 2 (f_chunk s)) = Some [4; 5] /\
  option_map (fun t => map rw_call (t_rows t)) (f_table 1 s) = Some [1; 3].
Proof. vm_compute. auto. Qed.

(** C05: close succeeds and leaves exactly the evaluations on disk. *)
Theorem C05_close : forall sz traj ops d,
  lives [] ops = Some d ->
  exists s', f_close (fexec sz ops (flog_init traj)) = (Ok tt, s') /\
  forall i, nmemd i d = true ->
    rows_of i (evals (erase ops)) (match f_table i s' with Some t => t_rows t | None => [] end).
Proof. exact filelog_close. Qed.
Print Assumptions C05_close.

Example C05_close_ex :
  match f_close (fexec ex_size ex_fops (flog_init true)) with
  | (Ok _, s') => option_map (fun t => map rw_call (t_rows t)) (f_table 2 s') = Some [2; 4; 5]
  | _ => False
  end.
Proof. vm_compute. reflexivity. Qed.

(** C05: none of the calls fails. *)
Theorem C05_no_error : forall sz traj ops d, lives [] ops = Some d -> all_ok sz ops (flog_init traj).
Proof. exact filelog_ok. Qed.
Print Assumptions C05_no_error.

(** C06: the answers of the two logs.  [traj = true] is how the manager configures the file log; without it
    the histories agree until the cache of the optimizer is cleared. *)
Theorem C06_same_answers : forall sz traj ops d,
  lives [] ops = Some d ->
  let s := fexec sz ops (flog_init traj) in
  let m := lexec (erase ops) (log_init traj) in
  f_log_len s = log_len m /\ f_largest_eval s = largest_eval m /\
  (forall i, f_get_best_iter i s = get_best_iter i m) /\
  (traj = true -> f_n_optimizers s = n_optimizers m) /\
  (forall i tr, In tr ["call_id"; "x"; "fx"] -> traj = true \/ nget i d <> Some Closed ->
     f_get_history i tr s = (get_history i tr m, s) /\ f_len_opt i s = len_opt i m /\
     f_has_iter_history i s = has_iter_history i m).
Proof. exact filelog_same. Qed.
Print Assumptions C06_same_answers.

Example C06_same_answers_ex :
  lives [] ex_fops = Some [(1, Closed); (2, Open 0)] /\
  get_history 1 "fx" (lexec (erase ex_fops) (log_init true)) = Ok [CF (Fin 5); CF (Fin 3)] /\
  fst (f_get_history 1 "fx" (fexec ex_size ex_fops (flog_init true))) = Ok [CF (Fin 5); CF (Fin 3)].
Proof. vm_compute. auto. Qed.

(** Finding: extra columns are not kept in memory and cannot be read back from the file once the
    cache of the optimizer was cleared, although they are there. *)
Theorem C06_extra_columns_refuted : exists ops d,
  lives [] ops = Some d /\
  let s := fexec ex_size ops (flog_init true) in
  let m := lexec (erase ops) (log_init true) in
  get_history 1 "r1" m = Ok [CF (Fin 7)] /\ fst (f_get_history 1 "r1" s) = Err KeyError /\
  option_map (fun t => table_col t "r1") (f_table 1 s) = Some (Ok [CF (Fin 7)]).
Proof.
  exists [ FOp (AddOpt 1 "CMA" "t0"); FOp (AddHist 1 ["r1"]); FOp (PutIter (mkIR 1 [Fin 1] (Fin 5) [Fin 7])); FOp (ClearCache (Some 1)) ],
         [(1, Closed)].
  vm_compute. auto.
Qed.
Print Assumptions C06_extra_columns_refuted.

(** Finding: with the cache really cleared (no trajectory plot) the history of a finished optimizer cannot be
    read from the file at all, whereas the memory log answers with an empty history. *)
Theorem C06_cleared_history_refuted : exists ops d,
  lives [] ops = Some d /\
  let s := fexec ex_size ops (flog_init false) in
  let m := lexec (erase ops) (log_init false) in
  get_history 1 "fx" m = Ok [] /\ fst (f_get_history 1 "fx" s) = Err KeyError /\
  option_map (fun t => table_col t "fx") (f_table 1 s) = Some (Ok [CF (Fin 5)]).
Proof.
  exists [ FOp (AddOpt 1 "CMA" "t0"); FOp (AddHist 1 []); FOp (PutIter (mkIR 1 [Fin 1] (Fin 5) [])); FOp (ClearCache (Some 1)) ],
         [(1, Closed)].
  vm_compute. auto.
Qed.
Print Assumptions C06_cleared_history_refuted.
