(** * The results queue
    Source: glompo/core/_backends.py lines 101-190 (class ChunkingQueue) and the consumer at
    glompo/core/manager.py 1475.

    Producers (optimizers, or the worker threads of one) call the four methods in any order and as often as they like.
    A call is executed in small steps which interleave arbitrarily with those of other producers and of the consumer;
    one step contains at most one access to the shared attributes.  queue.Queue.put and get are atomic (they hold the
    mutex of the queue).  In a multiprocessing run the methods execute in threads of the server process of
    core/manager.py 245, so a producer process which dies only stops making calls. *)
From Verif Require Export Prelude.

(** The block and timeout arguments: block=True without a timeout, block=False, block=True with a timeout. *)
Inductive mode := Block | NoBlock | Timed.

Inductive op {I : Type} :=
  | OPut (m : mode) (it : I)
  | OPutNowait (it : I)
  | OPutInCache (it : I)
  | OFlush (m : mode).
Arguments op : clear implicits.

(** Where a call is. *)
Inductive pc :=
  | PStart                (* called, no attribute read yet *)
  | PDirect               (* line 152 or 162: put([item]) on the bare queue *)
  | PFullLock             (* line 164: the queue was full; wants the lock *)
  | PFullSet              (* line 166, has the lock *)
  | PFullAppend           (* line 167, has the lock *)
  | PLock                 (* lines 147, 170, 182, 188: wants the lock *)
  | PAppend               (* lines 148, 171, 183: has the lock, appends *)
  | PCheck                (* line 172: has the lock *)
  | PSend                 (* lines 149, 173, 189: has the lock, puts the cache *)
  | PReset.               (* lines 150, 174, 190: has the lock; resets the cache, releases and returns *)

Section Queue.
Variable I : Type.
Variables maxsize chunk_size : nat.     (* Queue(maxsize), 0: unbounded; max_chunk_size *)

(** A put item with the number of its call (the number is not in the source, it tells equal items apart). *)
Definition entry := (nat * I)%type.

Record thread := mkT { t_id : nat; t_op : op I; t_pc : pc }.

Record queue := mkQ {
  q_fast : bool;                       (* fast_func *)
  q_heap : list (list entry);          (* the list objects; cache and chunks are addresses *)
  q_cache : nat;                       (* cache *)
  q_lock : option nat;                 (* cache_lock: the producer holding it *)
  q_chunks : list nat;                 (* the underlying queue *)
  q_thr : nat -> option thread;        (* the call in progress of each producer *)
  q_got : option nat;                  (* consumer: a chunk taken but not yet read *)
  q_out : list entry;                  (* consumer: items read so far *)
  (* history, not in the source *)
  q_next : nat;                        (* number of calls made *)
  q_calls : list (nat * (nat * op I)); (* call -> producer and operation *)
  q_done : list nat;                   (* calls returned normally *)
  q_raised : list nat;                 (* calls which raised Full *)
  q_prec : list (nat * list nat);      (* call -> calls returned before it was made *)
  q_moved : bool                       (* the list object of the cache has been put on the queue, reset still to come *)
}.

(** __init__, lines 129-135. *)
Definition q_init : queue := mkQ false [[]] 0 None [] (fun _ => None) None [] 0 [] [] [] [] false.

Definition content (a : nat) (s : queue) : list entry := nth a (q_heap s) [].
Definition op_item (o : op I) : option I :=
  match o with OPut _ i | OPutNowait i | OPutInCache i => Some i | OFlush _ => None end.
Definition op_mode (o : op I) : mode := match o with OPut m _ | OFlush m => m | OPutNowait _ | OPutInCache _ => Block end.
Definition room (s : queue) : bool := Nat.eqb maxsize 0 || Nat.ltb (length (q_chunks s)) maxsize.

Definition q_upd (p : nat) (t : option thread) (f : nat -> option thread) : nat -> option thread :=
  fun j => if Nat.eqb j p then t else f j.

Definition set_thr p t s := mkQ (q_fast s) (q_heap s) (q_cache s) (q_lock s) (q_chunks s) (q_upd p t (q_thr s)) (q_got s) (q_out s) (q_next s) (q_calls s) (q_done s) (q_raised s) (q_prec s) (q_moved s).
Definition set_fast b s := mkQ b (q_heap s) (q_cache s) (q_lock s) (q_chunks s) (q_thr s) (q_got s) (q_out s) (q_next s) (q_calls s) (q_done s) (q_raised s) (q_prec s) (q_moved s).
Definition set_lock l s := mkQ (q_fast s) (q_heap s) (q_cache s) l (q_chunks s) (q_thr s) (q_got s) (q_out s) (q_next s) (q_calls s) (q_done s) (q_raised s) (q_prec s) (q_moved s).
Definition qset_heap h s := mkQ (q_fast s) h (q_cache s) (q_lock s) (q_chunks s) (q_thr s) (q_got s) (q_out s) (q_next s) (q_calls s) (q_done s) (q_raised s) (q_prec s) (q_moved s).
Definition set_cache a s := mkQ (q_fast s) (q_heap s) a (q_lock s) (q_chunks s) (q_thr s) (q_got s) (q_out s) (q_next s) (q_calls s) (q_done s) (q_raised s) (q_prec s) (q_moved s).
Definition set_chunks c s := mkQ (q_fast s) (q_heap s) (q_cache s) (q_lock s) c (q_thr s) (q_got s) (q_out s) (q_next s) (q_calls s) (q_done s) (q_raised s) (q_prec s) (q_moved s).
Definition set_got g s := mkQ (q_fast s) (q_heap s) (q_cache s) (q_lock s) (q_chunks s) (q_thr s) g (q_out s) (q_next s) (q_calls s) (q_done s) (q_raised s) (q_prec s) (q_moved s).
Definition set_out o s := mkQ (q_fast s) (q_heap s) (q_cache s) (q_lock s) (q_chunks s) (q_thr s) (q_got s) o (q_next s) (q_calls s) (q_done s) (q_raised s) (q_prec s) (q_moved s).
Definition set_done d s := mkQ (q_fast s) (q_heap s) (q_cache s) (q_lock s) (q_chunks s) (q_thr s) (q_got s) (q_out s) (q_next s) (q_calls s) d (q_raised s) (q_prec s) (q_moved s).
Definition set_raised r s := mkQ (q_fast s) (q_heap s) (q_cache s) (q_lock s) (q_chunks s) (q_thr s) (q_got s) (q_out s) (q_next s) (q_calls s) (q_done s) r (q_prec s) (q_moved s).
Definition set_moved b s := mkQ (q_fast s) (q_heap s) (q_cache s) (q_lock s) (q_chunks s) (q_thr s) (q_got s) (q_out s) (q_next s) (q_calls s) (q_done s) (q_raised s) (q_prec s) b.

(** cache.append(item): the list object is changed in place. *)
Fixpoint heap_append (a : nat) (e : entry) (h : list (list entry)) : list (list entry) :=
  match h, a with
  | [], _ => []
  | c :: h', 0 => (c ++ [e]) :: h'
  | c :: h', S a' => c :: heap_append a' e h'
  end.

(** The call of producer [p] returns, or raises Full. *)
Definition ret_ok (p : nat) (t : thread) (s : queue) : queue := set_done (t_id t :: q_done s) (set_thr p None s).
Definition ret_full (p : nat) (t : thread) (s : queue) : queue := set_raised (t_id t :: q_raised s) (set_thr p None s).
Definition go (p : nat) (t : thread) (c : pc) (s : queue) : queue := set_thr p (Some (mkT (t_id t) (t_op t) c)) s.

(** Next step of the call [t] of producer [p]; [None]: it has to wait.  [tmo]: a timeout has expired. *)
Definition thread_step (p : nat) (t : thread) (tmo : bool) (s : queue) : option queue :=
  match t_pc t with
  | PStart =>
      match t_op t with
      | OPut _ _ | OPutNowait _ => Some (go p t (if q_fast s then PLock else PDirect) s)    (* 146, 160 *)
      | OPutInCache _ => Some (go p t PLock (set_fast true s))                              (* 181 *)
      | OFlush _ => if q_fast s then Some (go p t PLock s) else Some (ret_ok p t s)         (* 187 *)
      end
  | PDirect =>
      match t_op t with
      | OPut m it =>
          if room s then
            let a := length (q_heap s) in
            Some (ret_ok p t (set_chunks (q_chunks s ++ [a]) (qset_heap (q_heap s ++ [[(t_id t, it)]]) s)))
          else match m with
               | Block => None
               | NoBlock => Some (ret_full p t s)
               | Timed => if tmo then Some (ret_full p t s) else None
               end
      | OPutNowait it =>
          if room s then
            let a := length (q_heap s) in
            Some (ret_ok p t (set_chunks (q_chunks s ++ [a]) (qset_heap (q_heap s ++ [[(t_id t, it)]]) s)))
          else Some (go p t PFullLock s)
      | _ => None
      end
  | PFullLock => match q_lock s with None => Some (go p t PFullSet (set_lock (Some p) s)) | Some _ => None end
  | PFullSet => Some (go p t PFullAppend (set_fast true s))
  | PFullAppend =>
      match op_item (t_op t) with
      | Some it => Some (ret_ok p t (set_lock None (qset_heap (heap_append (q_cache s) (t_id t, it) (q_heap s)) s)))
      | None => None
      end
  | PLock =>
      match q_lock s with
      | Some _ => None
      | None => Some (go p t (match t_op t with OFlush _ => PSend | _ => PAppend end) (set_lock (Some p) s))
      end
  | PAppend =>
      match op_item (t_op t) with
      | Some it =>
          let s := qset_heap (heap_append (q_cache s) (t_id t, it) (q_heap s)) s in
          match t_op t with
          | OPut _ _ => Some (go p t PSend s)
          | OPutNowait _ => Some (go p t PCheck s)
          | _ => Some (ret_ok p t (set_lock None s))
          end
      | None => None
      end
  | PCheck =>
      if Nat.leb chunk_size (length (content (q_cache s) s)) then Some (go p t PSend s)
      else Some (ret_ok p t (set_lock None s))
  | PSend =>
      if room s then Some (go p t PReset (set_moved true (set_chunks (q_chunks s ++ [q_cache s]) s)))
      else match op_mode (t_op t) with
           | Block => None
           | NoBlock => Some (ret_full p t (set_lock None s))
           | Timed => if tmo then Some (ret_full p t (set_lock None s)) else None
           end
  | PReset =>
      let a := length (q_heap s) in
      Some (ret_ok p t (set_lock None (set_moved false (set_cache a (qset_heap (q_heap s ++ [[]]) s)))))
  end.

Inductive action :=
  | Call (p : nat) (o : op I)       (* producer [p] calls a method *)
  | Step (p : nat) (tmo : bool)     (* the call of [p] goes one step further *)
  | Get                             (* manager.py 1475 *)
  | Read.                           (* the manager goes through the chunk, 1480 *)

Definition qstep (a : action) (s : queue) : option queue :=
  match a with
  | Call p o =>
      match q_thr s p with
      | Some _ => None
      | None =>
          let n := q_next s in
          Some (mkQ (q_fast s) (q_heap s) (q_cache s) (q_lock s) (q_chunks s) (q_upd p (Some (mkT n o PStart)) (q_thr s)) (q_got s) (q_out s)
                  (S n) ((n, (p, o)) :: q_calls s) (q_done s) (q_raised s) ((n, q_done s) :: q_prec s) (q_moved s))
      end
  | Step p tmo => match q_thr s p with Some t => thread_step p t tmo s | None => None end
  | Get => match q_got s, q_chunks s with
           | None, c :: cs => Some (set_got (Some c) (set_chunks cs s))
           | _, _ => None
           end
  | Read => match q_got s with
            | Some a => Some (set_got None (set_out (q_out s ++ content a s) s))
            | None => None
            end
  end.

(** A run; actions which are not possible are skipped. *)
Definition qrun1 (s : queue) (a : action) : queue := match qstep a s with Some s => s | None => s end.
Definition qrun (l : list action) : queue := fold_left qrun1 l q_init.
End Queue.

Arguments mkQ {I}.
Arguments mkT {I}.
Arguments OPut {I}.
Arguments OPutNowait {I}.
Arguments OPutInCache {I}.
Arguments OFlush {I}.
Arguments Call {I}.
Arguments Step {I}.
Arguments Get {I}.
Arguments Read {I}.
Arguments q_fast {I}. Arguments q_heap {I}. Arguments q_cache {I}. Arguments q_lock {I}. Arguments q_chunks {I}.
Arguments q_thr {I}. Arguments q_got {I}. Arguments q_out {I}. Arguments q_next {I}. Arguments q_calls {I}.
Arguments q_done {I}. Arguments q_raised {I}. Arguments q_prec {I}. Arguments q_moved {I}.
Arguments t_id {I}. Arguments t_op {I}. Arguments t_pc {I}.
Arguments content {I}.
Arguments op_item {I}.
