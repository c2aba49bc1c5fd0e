(** * The live plot: glompo/core/scope.py
    Points of the lines, the window and the movie frames.  Not modelled: colours, legends and axes, the writer of the
    movie (beyond the number of frames grabbed), checkpoint_save and load_state. *)
From Verif Require Export Prelude.

(** A line of the plot: get_xdata and get_ydata together.  x: the number of function calls. *)
Definition line := list (nat * num).
Inductive track := OptKill | OptNorm | OptCrash | Pause | Chkpt.
Definition track_eqb (a b : track) : bool :=
  match a, b with OptKill, OptKill | OptNorm, OptNorm | OptCrash, OptCrash | Pause, Pause | Chkpt, Chkpt => true | _, _ => false end.

(** What does not change.  [c_log]: log_scale, with np.log10 and 10 ** y. *)
Record config := mkCfg { c_trunc : option nat; c_log : option ((num -> num) * (num -> num)); c_elite : bool; c_flush : nat; c_movie : bool }.
Record scope := mkScope {
  s_dead : list nat;              (* _dead_streams *)
  s_n : nat;                      (* n_streams *)
  s_xmax : nat;
  s_events : nat;                 (* _event_counter *)
  s_setup : bool;                 (* _is_setup *)
  s_frames : nat;                 (* frames grabbed *)
  s_opt : list (nat * line);      (* opt_streams *)
  s_gen : list (track * line) }.  (* gen_streams *)
Definition set_dead v s := mkScope v (s_n s) (s_xmax s) (s_events s) (s_setup s) (s_frames s) (s_opt s) (s_gen s).
Definition set_n v s := mkScope (s_dead s) v (s_xmax s) (s_events s) (s_setup s) (s_frames s) (s_opt s) (s_gen s).
Definition set_xmax v s := mkScope (s_dead s) (s_n s) v (s_events s) (s_setup s) (s_frames s) (s_opt s) (s_gen s).
Definition set_events v s := mkScope (s_dead s) (s_n s) (s_xmax s) v (s_setup s) (s_frames s) (s_opt s) (s_gen s).
Definition set_setup v s := mkScope (s_dead s) (s_n s) (s_xmax s) (s_events s) v (s_frames s) (s_opt s) (s_gen s).
Definition set_frames v s := mkScope (s_dead s) (s_n s) (s_xmax s) (s_events s) (s_setup s) v (s_opt s) (s_gen s).
Definition set_opt v s := mkScope (s_dead s) (s_n s) (s_xmax s) (s_events s) (s_setup s) (s_frames s) v (s_gen s).
Definition set_gen v s := mkScope (s_dead s) (s_n s) (s_xmax s) (s_events s) (s_setup s) (s_frames s) (s_opt s) v.
Notation tget := (dget track_eqb).
Notation tset := (dset track_eqb).

(** ** __init__, 108-212 *)
Inductive xrange := XNone | XTuple (a b : num) | XInt (n : Z) | XOther.
Inductive yrange := YNone | YTuple (a b : num) | YOther.
(** Lines 169-187: the value of [truncated]. *)
Definition parse_x (r : xrange) : res (option nat) :=
  match r with
  | XNone => Ok None
  | XTuple a b => if nle b a then Err ValueError else Ok None
  | XInt n => if Z.ltb n 2 then Err ValueError else Ok (Some (Z.to_nat n))
  | XOther => Err TypeError
  end.
(** Lines 189-200. *)
Definition parse_y (r : yrange) : res unit :=
  match r with
  | YNone => Ok tt
  | YTuple a b => if nle b a then Err ValueError else Ok tt
  | YOther => Err TypeError
  end.
Definition empty_scope : scope :=
  mkScope [] 0 0 0 false 0 [] [(OptKill, []); (OptNorm, []); (OptCrash, []); (Pause, []); (Chkpt, [])].
Definition init (x : xrange) (y : yrange) (lg : option ((num -> num) * (num -> num))) (movie : bool) (flush : nat) (elite : bool) : res (config * scope) :=
  match parse_x x with
  | Err e => Err e
  | Ok t => match parse_y y with
            | Err e => Err e
            | Ok _ => Ok (mkCfg t lg elite flush movie, empty_scope)
            end
  end.

(** ** _redraw_graph, 223-265 *)
(** The loop of lines 232-250; [lo] is min_val. *)
Fixpoint purge (lo : nat) (dead : list nat) (l : list (nat * line)) : list (nat * line) * list nat :=
  match l with
  | [] => ([], dead)
  | (i, pts) :: l' =>
      if nmem i dead then let (l2, d) := purge lo dead l' in ((i, pts) :: l2, d)
      else
        let pts' := filter (fun p => Nat.leb lo (fst p)) pts in
        let dead' := match pts' with [] => nadd i dead | _ => dead end in
        let (l2, d) := purge lo dead' l' in ((i, pts') :: l2, d)
  end.
Definition redraw (c : config) (force : bool) : M scope unit :=
  fun s =>
    if Nat.leb (c_flush c) (s_events s) || force then
      let s := set_events 1 s in
      let s := match c_trunc c with
               | None => s
               | Some t => let (l, d) := purge (s_xmax s - t) (s_dead s) (s_opt s) in set_opt l (set_dead d s)
               end in
      if c_movie c then
        if s_setup s then (Ok tt, set_frames (S (s_frames s)) s) else (Err RuntimeError, s)
      else (Ok tt, s)
    else (Ok tt, set_events (S (s_events s)) s).

(** get_farthest_pt, 406-414: only IndexError is caught. *)
Definition farthest (i : nat) (s : scope) : res (option (nat * num)) :=
  match nget i (s_opt s) with
  | None => Err KeyError
  | Some l => Ok (match rev l with [] => None | p :: _ => Some p end)
  end.

(** _update_point, 267-295.  [None] for the track 'all_opt'. *)
Definition update_point (c : config) (i : nat) (tr : option track) (pt : option (nat * num)) : M scope unit :=
  fun s =>
    match (match pt with Some p => Ok (Some p) | None => farthest i s end) with
    | Err e => (Err e, s)
    | Ok p =>
        let s := if nmem i (s_dead s) then set_dead (filter (fun j => negb (Nat.eqb i j)) (s_dead s)) s else s in
        match p with
        | None => (Ok tt, s)
        | Some (x, y) =>
            let y := match pt, c_log c with Some _, Some (log10, _) => log10 y | _, _ => y end in
            let s := set_xmax (if Nat.ltb (s_xmax s) x then x else s_xmax s) s in
            match tr with
            | None => match nget i (s_opt s) with
                      | None => (Err KeyError, s)
                      | Some l => (Ok tt, set_opt (nset i (l ++ [(x, y)]) (s_opt s)) s)
                      end
            | Some t => match tget t (s_gen s) with
                        | None => (Err KeyError, s)
                        | Some l => (Ok tt, set_gen (tset t (l ++ [(x, y)]) (s_gen s)) s)
                        end
            end
        end
    end.

(** add_stream, 297-322. *)
Definition add_stream (i : nat) : M scope unit :=
  fun s => (Ok tt, set_opt (nset i [] (s_opt s)) (set_n (S (s_n s)) s)).

(** update_optimizer, 324-335. *)
Definition update_optimizer (c : config) (i x : nat) (y : num) : M scope unit :=
  fun s =>
    match (if c_elite c then
             match nget i (s_opt s) with
             | None => Err KeyError
             | Some l => Ok (match rev l with
                             | [] => y
                             | (_, v) :: _ => let last := match c_log c with Some (_, exp10) => exp10 v | None => v end in
                                              if nlt last y then last else y
                             end)
             end
           else Ok y) with
    | Err e => (Err e, s)
    | Ok y => (update_point c i None (Some (x, y)) ;;; redraw c false) s
    end.
(** update_kill ... update_checkpoint, 337-360. *)
Definition update_mark (c : config) (i : nat) (t : track) : M scope unit :=
  update_point c i (Some t) None ;;; redraw c false.
(** setup_moviemaker, 362-390. *)
Definition setup_moviemaker (c : config) : M scope unit := modify (fun s => if c_movie c then set_setup true s else s).
(** generate_movie, 392-404: exceptions are caught. *)
Definition generate_movie (c : config) : M scope unit :=
  fun s => if c_movie c then (Ok tt, snd (redraw c true s)) else (Ok tt, s).

(** ** Everything a manager does with a scope *)
Inductive event :=
  | Add (i : nat)                          (* manager.py 880, 1294 *)
  | Setup                                  (* 961 *)
  | Point (i x : nat) (y : num)            (* 1510 *)
  | Mark (i : nat) (t : track)             (* 1374, 1380, 1616, 1840, 1866 *)
  | Redraw.                                (* _redraw_graph(True): checkpoint_save 430, generate_movie *)
Definition exec (c : config) (e : event) : M scope unit :=
  match e with
  | Add i => add_stream i
  | Setup => setup_moviemaker c
  | Point i x y => update_optimizer c i x y
  | Mark i t => update_mark c i t
  | Redraw => redraw c true
  end.
Fixpoint run (c : config) (es : list event) (s : scope) : res scope :=
  match es with
  | [] => Ok s
  | e :: es' => match exec c e s with (Ok _, s') => run c es' s' | (Err x, _) => Err x end
  end.
