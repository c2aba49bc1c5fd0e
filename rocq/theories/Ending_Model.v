(** * The end of a run: _stop_all_children, glompo/core/manager.py 1639-1676
    The optimizers are the threads of Sync_Model.  The manager sends the stop signal to everyone alive, empties the results
    queue and joins the optimizers one after the other.  The entries made in the log meanwhile are in Manager_Model. *)
From Verif Require Export Sync_Model.

(** Where the manager is. *)
Inductive fplace :=
  | FSend (todo : list nat)       (* 1643-1645: send 1, or (1, "GloMPO Crash"), to everyone alive *)
  | FPurge                        (* 1651-1652: while not empty: get_nowait() *)
  | FJoin (todo : list nat)       (* 1657-1676 *)
  | FDone.
(** [b_proc]: proc_backend.  [b_timeout]: the join has a timeout: after a crash always, else unless end_timeout is None, as it
    is by default with threads (611-617). *)
Record backend := mkBackend { b_proc : bool; b_timeout : bool }.
Record fin := mkFin { f_sys : sys; f_at : fplace; f_lost : list item (* thrown away by the purge *) }.
Definition ending (s : sys) : fin := mkFin s (FSend (all_ids s)) [].

(** A step: of the manager, [late]: the timeout of its join has passed; or of an optimizer. *)
Definition fchoice := (choice * bool)%type.
Definition flabel := (option nat * fchoice)%type.
Definition fstep (c : config) (b : backend) (l : flabel) (f : fin) : fin :=
  match l with
  | (Some i, (h, _)) => mkFin (ostep c h i (f_sys f)) (f_at f) (f_lost f)
  | (None, (_, late)) =>
      let s := f_sys f in
      match f_at f with
      | FSend [] => mkFin s FPurge (f_lost f)
      | FSend (i :: todo) => mkFin (if is_alive i s then change i (send Stop) s else s) (FSend todo) (f_lost f)
      | FPurge => match s_queue s with
                  | [] => mkFin s (FJoin (all_ids s)) (f_lost f)
                  | ch :: q => mkFin (mkSys (s_opts s) q (s_fast s) (s_cache s) (s_seen s) (s_no s) (s_m s)) FPurge (f_lost f ++ ch)
                  end
      | FJoin [] => mkFin s FDone (f_lost f)
      | FJoin (i :: todo) =>
          if is_alive i s then
            if late && b_timeout b then mkFin (if b_proc b then change i (at_ Dead) s else s) (FJoin todo) (f_lost f)   (* 1670-1676 *)
            else f
          else mkFin s (FJoin todo) (f_lost f)
      | FDone => f
      end
  end.
Fixpoint fsteps (c : config) (b : backend) (ls : list flabel) (f : fin) : fin :=
  match ls with [] => f | l :: ls' => fsteps c b ls' (fstep c b l f) end.
