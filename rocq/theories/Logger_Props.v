(** * C01-C04: what the in-memory log reports *)
From Verif Require Import Prelude Logger_Model Logger_Spec Logger_Proofs.

(** A run used by the examples: two optimizers, a NaN, an infinity, a tie and an improvement
    of the very record which is already the overall best. *)
Definition ex_ops : list lop :=
  [ AddOpt 1 "CMA" "t0"; AddOpt 2 "GFLS" "t1"; AddHist 1 ["r1"; "r2"]; AddHist 2 [];
    PutIter (mkIR 1 [Fin 1; Fin 2] (Fin 5) [Fin 7; Fin 8]);
    PutIter (mkIR 2 [Fin 3] NaN []);
    PutIter (mkIR 2 [Fin 4] (Fin 5) []);
    PutMeta 1 "end_cond" "x";
    PutIter (mkIR 1 [Fin 0; Fin 0] (Fin 3) [Fin 1; Fin 1]);
    PutIter (mkIR 1 [Fin 9; Fin 9] PInf [Fin 2; Fin 2]);
    PutMsg 2 "hello" ].

(** C01, restricted to one optimizer. *)
Theorem C01_best_of_optimizer : forall traj ops i ty,
  disciplined ops = true -> In (i, ty) (registered ops) ->
  exists b, get_best_iter (Some i) (lexec ops (log_init traj)) = Ok b /\ b_opt b = i /\ b_type b = ty /\
            first_best (evals ops) (fun r => Nat.eqb (ir_opt r) i) i (b_x b) (b_fx b) (b_call b).
Proof. exact log_best_of_optimizer. Qed.
Print Assumptions C01_best_of_optimizer.

Example C01_best_of_optimizer_ex :
  disciplined ex_ops = true /\ In (1, "CMA") (registered ex_ops) /\
  get_best_iter (Some 1) (lexec ex_ops (log_init false)) = Ok (mkB 1 [Fin 0; Fin 0] (Fin 3) "CMA" 4).
Proof. vm_compute. repeat split; auto. Qed.

(** C01, overall: the record is that of the first evaluation reaching the least value; without any value below
    +inf it is the empty record. *)
Theorem C01_best_overall : forall traj ops,
  disciplined ops = true ->
  exists b, get_best_iter None (lexec ops (log_init traj)) = Ok b /\
            first_best (evals ops) (fun _ => true) (b_opt b) (b_x b) (b_fx b) (b_call b) /\
            (b_call b = 0 -> b = mkB 0 [] PInf "" 0) /\
            (b_call b <> 0 -> In (b_opt b, b_type b) (registered ops)).
Proof. exact log_best_overall. Qed.
Print Assumptions C01_best_overall.

Example C01_best_overall_ex :
  disciplined ex_ops = true /\
  get_best_iter None (lexec ex_ops (log_init false)) = Ok (mkB 1 [Fin 0; Fin 0] (Fin 3) "CMA" 4).
Proof. vm_compute. repeat split; auto. Qed.

(** C02: the log counts every recorded evaluation, with no condition on the calls at all. *)
Theorem C02_length : forall traj ops, log_len (lexec ops (log_init traj)) = length (evals ops).
Proof. intros. exact (lexec_count ops (log_init traj)). Qed.
Print Assumptions C02_length.

Example C02_length_ex : log_len (lexec ex_ops (log_init false)) = 5.
Proof. reflexivity. Qed.

(** C02: the call_id column of [i] lists, in increasing order, exactly the positions (from 1) of
    [i]'s evaluations in the overall sequence.  As a position belongs to one evaluation, and so to one
    optimizer, columns are disjoint and jointly cover 1..len(log).  The calls around the registration of [i]
    are arbitrary, except that [i]'s evaluations come while its history is open. *)
Theorem C02_call_ids : forall traj pre mid post i ty t hd,
  no_eval_of i pre = true -> no_eval_of i mid = true -> keeps i mid = true -> keeps i post = true ->
  let ops := pre ++ [AddOpt i ty t] ++ mid ++ [AddHist i hd] ++ post in
  exists ids, get_history i "call_id" (lexec ops (log_init traj)) = Ok (map CId ids) /\
              positions_of i (evals ops) ids.
Proof. intros. apply log_history; assumption. Qed.
Print Assumptions C02_call_ids.

Example C02_call_ids_ex :
  ex_ops = [] ++ [AddOpt 1 "CMA" "t0"] ++ [AddOpt 2 "GFLS" "t1"] ++ [AddHist 1 ["r1"; "r2"]] ++ skipn 3 ex_ops /\
  no_eval_of 1 [AddOpt 2 "GFLS" "t1"] = true /\ keeps 1 [AddOpt 2 "GFLS" "t1"] = true /\ keeps 1 (skipn 3 ex_ops) = true /\
  get_history 1 "call_id" (lexec ex_ops (log_init false)) = Ok [CId 1; CId 4; CId 5].
Proof. repeat split. Qed.

(** C03: histories are exactly the optimizer's own evaluations in order, the extra columns included. *)
Theorem C03_history : forall traj pre mid post i ty t hd,
  no_eval_of i pre = true -> no_eval_of i mid = true -> keeps i mid = true -> keeps i post = true ->
  let ops := pre ++ [AddOpt i ty t] ++ mid ++ [AddHist i hd] ++ post in
  let s := lexec ops (log_init traj) in
  get_history i "x" s = Ok (map CX (map ir_x (own i (evals ops)))) /\
  get_history i "fx" s = Ok (map CF (map ir_fx (own i (evals ops)))) /\
  len_opt i s = length (own i (evals ops)) /\
  (NoDup hd -> (forall k, In k hd -> ~ In k ["call_id"; "x"; "fx"]) ->
   forall j k, nth_error hd j = Some k ->
   get_history i k s = Ok (map CF (extra_col j (own i (evals ops))))).
Proof. intros. apply log_history; assumption. Qed.
Print Assumptions C03_history.

Example C03_history_ex :
  get_history 1 "x" (lexec ex_ops (log_init true)) = Ok [CX [Fin 1; Fin 2]; CX [Fin 0; Fin 0]; CX [Fin 9; Fin 9]] /\
  get_history 1 "r2" (lexec ex_ops (log_init true)) = Ok [CF (Fin 8); CF (Fin 1); CF (Fin 2)] /\
  get_history 2 "fx" (lexec ex_ops (log_init true)) = Ok [CF NaN; CF (Fin 5)].
Proof. repeat split. Qed.

(** C03: a call about another optimizer changes nothing of this one's data, in any state whatsoever. *)
Theorem C03_isolation : forall o s i, target o <> Some i -> target o <> None ->
  (forall tr, get_history i tr (snd (lstep o s)) = get_history i tr s) /\
  has_iter_history i (snd (lstep o s)) = has_iter_history i s /\
  (forall k, get_metadata i k (snd (lstep o s)) = get_metadata i k s) /\
  len_opt i (snd (lstep o s)) = len_opt i s.
Proof. exact log_isolation. Qed.
Print Assumptions C03_isolation.

Example C03_isolation_ex :
  target (ClearCache (Some 1)) <> Some 2 /\ target (ClearCache (Some 1)) <> None /\
  get_history 2 "fx" (snd (lstep (ClearCache (Some 1)) (lexec ex_ops (log_init false)))) = Ok [CF NaN; CF (Fin 5)].
Proof. repeat split; discriminate. Qed.

(** C03: clearing empties the history of that optimizer only and leaves all best records alone. *)
Theorem C03_clear : forall ops i, i <> 0 ->
  let s := lexec ops (log_init false) in
  let s' := snd (clear_cache (Some i) s) in
  (forall tr, get_history i tr s' = Ok []) /\ log_contains i s' = false /\
  (forall k, get_best_iter k s' = get_best_iter k s) /\ log_len s' = log_len s /\ largest_eval s' = largest_eval s /\
  (forall j tr, j <> i -> get_history j tr s' = get_history j tr s).
Proof. exact log_clear. Qed.
Print Assumptions C03_clear.

Example C03_clear_ex :
  let s := lexec ex_ops (log_init false) in
  get_history 1 "fx" s = Ok [CF (Fin 5); CF (Fin 3); CF PInf] /\
  get_history 1 "fx" (snd (clear_cache (Some 1) s)) = Ok [] /\
  get_best_iter (Some 1) (snd (clear_cache (Some 1) s)) = Ok (mkB 1 [Fin 0; Fin 0] (Fin 3) "CMA" 4).
Proof. repeat split. Qed.

(** C04 *)
Theorem C04_largest : forall traj ops, disciplined ops = true ->
  max_finite (map ir_fx (evals ops)) (largest_eval (lexec ops (log_init traj))).
Proof. exact log_largest. Qed.
Print Assumptions C04_largest.

Example C04_largest_ex : disciplined ex_ops = true /\ largest_eval (lexec ex_ops (log_init false)) = Fin 5.
Proof. repeat split. Qed.
