(** * The times of the sessions
    Source: glompo/core/manager.py 266-270, 798-802, 982-985, 1022-1023, 1069-1075, 1133-1138, 1721-1725;
    glompo/convergence/tmax.py 35-44.

    Times are whole microseconds since the epoch.  A datetime made by fromtimestamp or now() is naive: it is the time plus
    the offset of the local clock at that moment, [off]. *)
From Verif Require Export Prelude.

Record times := mkT { starts : list Z; ends : list Z; t_start : option Z; t_end : option Z; t_used : Z }.
(** __init__, 266-270 *)
Definition new_times : times := mkT [] [] None None 0.

Definition local (off : Z -> Z) (t : Z) : Z := (t + off t)%Z.
(** l[-1] = d *)
Fixpoint set_last (d : Z) (l : list Z) : res (list Z) :=
  match l with
  | [] => Err IndexError
  | [_] => Ok [d]
  | x :: r => match set_last d r with Ok r' => Ok (x :: r') | Err e => Err e end
  end.
(** The pattern of lines 1072-1075 and 1135-1138. *)
Definition mark_end (d : Z) (t : times) : res times :=
  match (if Nat.eqb (length (starts t)) (length (ends t)) then set_last d (ends t) else Ok (ends t ++ [d])) with
  | Ok l => Ok (mkT (starts t) l (t_start t) (t_end t) (t_used t))
  | Err e => Err e
  end.

(** start_manager, 982-985 *)
Definition start (off : Z -> Z) (now : Z) (t : times) : times :=
  mkT (starts t ++ [local off now]) (ends t) (Some now) (t_end t) (t_used t).
(** The checker is satisfied, 1022-1023 *)
Definition condition (now : Z) (t : times) : times := mkT (starts t) (ends t) (t_start t) (Some now) (t_used t).
(** The end of start_manager, 1069-1075.  (A t_end of exactly 0, the epoch, would count as None.) *)
Definition finish (off : Z -> Z) (now : Z) (t : times) : res times :=
  let e := match t_end t with Some e => e | None => now end in
  mark_end (local off e) (mkT (starts t) (ends t) (t_start t) (Some e) (t_used t)).
(** checkpoint, 1133-1138 *)
Definition stamp (off : Z -> Z) (now : Z) (t : times) : res times :=
  match starts t with [] => Ok t | _ => mark_end (local off now) t end.
(** Line 800 and 1722-1723 *)
Fixpoint lengths (s e : list Z) : Z :=
  match s, e with a :: s, b :: e => (b - a) + lengths s e | _, _ => 0 end%Z.
(** load_checkpoint, 798-802; all five fields are in the file. *)
Definition restore (t : times) : res times :=
  if Nat.eqb (length (starts t)) (length (ends t)) then Ok (mkT (starts t) (ends t) None None (lengths (starts t) (ends t)))
  else Err AssertionError.

(** tmax.py 35-44: the time that MaxSeconds compares with its limit. *)
Definition clock (overall : bool) (now : Z) (t : times) : Z :=
  ((match t_start t with Some s => now - s | None => 0 end) + (if overall then t_used t else 0))%Z.
Definition max_seconds (overall : bool) (limit now : Z) (t : times) : bool := Z.leb limit (clock overall now t).
(** 1722-1724: "Total" and "Session" of the summary file. *)
Definition summary_total (t : times) : Z := lengths (starts t) (ends t).
Definition summary_session (t : times) : option Z :=
  match t_start t, t_end t with Some s, Some e => Some (e - s)%Z | _, _ => None end.

(** A manager and the last checkpoint made. *)
Record world := mkW { cur : times; file : option times }.
Inductive event := EStart (now : Z) | ECondition (now : Z) | EEnd (now : Z) | ECheckpoint (now : Z) | ELoad.
Definition step (off : Z -> Z) (e : event) (w : world) : res world :=
  match e with
  | EStart now => Ok (mkW (start off now (cur w)) (file w))
  | ECondition now => Ok (mkW (condition now (cur w)) (file w))
  | EEnd now => match finish off now (cur w) with Ok t => Ok (mkW t (file w)) | Err x => Err x end
  | ECheckpoint now => match stamp off now (cur w) with Ok t => Ok (mkW t (Some t)) | Err x => Err x end
  | ELoad => match file w with
             | None => Err OSError
             | Some f => match restore f with Ok t => Ok (mkW t (file w)) | Err x => Err x end
             end
  end.
Fixpoint steps (off : Z -> Z) (l : list event) (w : world) : res world :=
  match l with [] => Ok w | e :: l => match step off e w with Ok w' => steps off l w' | Err x => Err x end end.
Definition init : world := mkW new_times None.
