(** * C67-C69: what is expected of streams, logs and files *)
From Verif Require Import Streams_Model.

(** C67: who is running, and where its text belongs: to its file if it is redirected, otherwise to the console. *)
Record expected := mkX { x_live : list (nat * option path); x_files : list (path * list text); x_console : list text }.
Definition home (x : expected) (i : nat) : option path := match nget i (x_live x) with Some (Some p) => Some p | _ => None end.
Definition says (i : nat) (m : text) (x : expected) : expected :=
  match home x i with
  | Some p => mkX (x_live x) (fput p (fget p (x_files x) ++ [m]) (x_files x)) (x_console x)
  | None => mkX (x_live x) (x_files x) (x_console x ++ [m])
  end.
Definition expect (x : expected) (e : sevent) : expected :=
  match e with
  | Wrap => x
  | Start i p => mkX ((i, p) :: x_live x) (match p with Some q => fput q [] (x_files x) | None => x_files x end) (x_console x)
  | Print i m => says i m x
  | End i _ c => let x := match c with Some (m, _) => says i m x | None => x end in
                 mkX (filter (fun e => negb (Nat.eqb i (fst e))) (x_live x)) (x_files x)
                     (x_console x ++ match c with Some (_, m) => [m] | None => [] end)
  end.
(** Idents of running threads are distinct; redirected threads are started after a manager has, and no manager starts while
    any is running. *)
Definition redirected_running (x : expected) : bool := existsb (fun e => match snd e with Some _ => true | None => false end) (x_live x).
Fixpoint legal (managers : nat) (x : expected) (l : list sevent) : Prop :=
  match l with
  | [] => True
  | e :: l =>
    match e with
    | Wrap => redirected_running x = false
    | Start i p => nget i (x_live x) = None /\ (p = None \/ managers <> 0)
    | Print _ _ => True
    | End i r _ => exists p, nget i (x_live x) = Some p /\ r = match p with Some _ => true | None => false end
    end /\ legal (match e with Wrap => S managers | _ => managers end) (expect x e) l
  end.
Definition xinit : expected := mkX [] [] [].
(** What the thread [i] has to say in a part of a trace. *)
Definition said (i : nat) (l : list sevent) : list text :=
  flat_map (fun e => match e with Print j m => if Nat.eqb i j then [m] else [] | _ => [] end) l.
(** Other threads only, and none that gets the file [p]. *)
Definition others (i : nat) (p : path) (e : sevent) : Prop :=
  match e with Wrap => True | Start j q => i <> j /\ q <> Some p | Print _ _ => True | End j _ _ => i <> j end.

(** C68: the records of an optimizer from the first one that reaches the handler. *)
Fixpoint from_first (lv : nat) (l : list (nat * text)) : list (nat * text) :=
  match l with [] => [] | (v, m) :: r => if Nat.leb lv v then l else from_first lv r end.
Definition records_of (i : nat) (ll : nat) (l : list (option nat * nat * text)) : list (nat * text) :=
  flat_map (fun r => match r with (Some j, v, m) => if Nat.eqb i j && Nat.leb ll v then [(v, m)] else [] | _ => [] end) l.

(** C69: names of results of a former run. *)
Definition result_name (n : string) : Prop :=
  n = "glompo_manager_log.yml"%string \/ (exists m, n = ("trajectories" ++ m ++ ".png")%string) \/ (exists m, n = ("opt" ++ m ++ "_parms.png")%string) \/ n = "glompo_log.h5"%string.
Definition old_result (restart : bool) (n : string) : Prop := result_name n /\ (restart = true -> n <> "glompo_log.h5"%string).
Definition plain (d : dir) : Prop := NoDup (map fst (d_files d)) /\ forall n b r, In (n, (b, r)) (d_files d) -> result_name n -> b = false.
