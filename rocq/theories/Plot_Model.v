(** * The plots of the log
    Source: glompo/core/optimizerlogger.py 177-285 (plot_optimizer_trials, plot_trajectory) for the in-memory log (BaseLogger);
    glompo/core/manager.py 1767-1776 (the scale of the plot made by _save_log), 1370, 1409, 1417, 1430, 1444, 1610, 1665 (the end conditions).
    A plot is what is given to ax.plot: for each optimizer its points, its label and the marker at its last point.  Colours, sizes, the
    legend and the image file are not modelled.  np.log10 is a parameter. *)
From Verif Require Export Prelude Helpers_Model Logger_Model.

(** The markers 'x', '*', 's' and '' of 260-267. *)
Inductive mark := Killed | Converged | Crashed | NoMark.
(** needle in s *)
Fixpoint contains (needle s : string) : bool :=
  String.prefix needle s || match s with EmptyString => false | String _ r => contains needle r end.
(** 260-267 *)
Definition mark_of (cond : string) : mark :=
  if contains "GloMPO Termination" cond then Killed
  else if contains "Optimizer convergence" cond || contains "Normal termination" cond then Converged
  else if contains "Error termination" cond || contains "Traceback" cond then Crashed
  else NoMark.

(** One optimizer in the plot: 252-254 and 268.  [None]: nothing is drawn at the end. *)
Record curve := mkCv { cv_opt : nat; cv_type : string; cv_pts : list (nat * num); cv_end : option ((nat * num) * mark) }.

Fixpoint ids_of (l : list cell) : option (list nat) :=
  match l with
  | [] => Some []
  | CId n :: l => match ids_of l with Some ns => Some (n :: ns) | None => None end
  | _ :: _ => None
  end.
Definition value_of (c : cell) : option num := match c with CF v => Some v | _ => None end.

Section Plot.
(** np.log10 of a positive finite number *)
Variable lg : Q -> Q.
(** 248: np.sign(v) * np.log10(np.abs(v)); at 0 this is 0 * -inf. *)
Definition sign_log (v : num) : num :=
  match v with
  | Fin q => match Qcompare q 0 with Eq => NaN | Gt => Fin (lg q) | Lt => Fin (- lg (- q)) end
  | v => v
  end.

(** 241-249 *)
Definition values (log best : bool) (l : list cell) : res (list num) :=
  let l := map value_of l in
  match (if best then rolling_min l else match numbers l with Some v => Ok v | None => Err TypeError end) with
  | Ok v => Ok (if log then map sign_log v else v)
  | Err e => Err e
  end.

(** The body of the loop, 241-270.  ax.plot raises when the lengths differ; KeyError and IndexError are caught in 258-270. *)
Definition draw (log best : bool) (s : logger) (i : nat) : res curve :=
  match get_history i "call_id" s, get_history i "fx" s with
  | Ok ids, Ok fx =>
      match values log best fx, ids_of ids with
      | Ok v, Some ns =>
          if Nat.eqb (length ns) (length v) then
            match get_metadata i "opt_type" s with
            | Ok ty =>
                let pts := combine ns v in
                let fin := match get_metadata i "end_cond" s with
                           | Ok c => match rev pts with p :: _ => Some (p, mark_of c) | [] => None end
                           | Err _ => None
                           end in
                Ok (mkCv i ty pts fin)
            | Err e => Err e
            end
          else Err ValueError
      | Err e, _ => Err e
      | _, None => Err TypeError
      end
  | Err e, _ => Err e
  | _, Err e => Err e
  end.
Fixpoint draw_all (log best : bool) (s : logger) (ids : list nat) : res (list curve) :=
  match ids with
  | [] => Ok []
  | i :: ids => match draw log best s i with
                | Ok c => match draw_all log best s ids with Ok cs => Ok (c :: cs) | Err e => Err e end
                | Err e => Err e
                end
  end.
(** plot_trajectory, 214-285 *)
Definition plot_trajectory (log best : bool) (s : logger) : res (list curve) :=
  draw_all log best s (seq 1 (n_optimizers s)).
End Plot.

(** plot_optimizer_trials, 177-212: which optimizers get a picture, and the vectors drawn in it.  The argument is falsy when None or 0. *)
Definition trial_ids (i : option nat) (s : logger) : list nat :=
  match i with Some (S k) => [S k] | _ => seq 1 (n_optimizers s) end.
Fixpoint trials (ids : list nat) (s : logger) : res (list (nat * list cell)) :=
  match ids with
  | [] => Ok []
  | i :: ids => match get_history i "x" s with
                | Ok x => match trials ids s with Ok l => Ok ((i, x) :: l) | Err e => Err e end
                | Err e => Err e
                end
  end.
Definition plot_trials (i : option nat) (s : logger) : res (list (nat * list cell)) := trials (trial_ids i s) s.

(** manager.py 1769-1771 *)
Definition pick_scale (s : logger) : res bool :=
  match get_best_iter None s with
  | Ok b => Ok (nlt (Fin 0) (nmul (largest_eval s) (b_fx b)) && nlt (Fin 100000) (nminus (largest_eval s) (b_fx b)))
  | Err e => Err e
  end.

(** ** The end conditions written to the log *)
Inductive ending :=
| EKilled (hunter reason : string)     (* 1610-1613 *)
| EForced                              (* 1430, 1444 *)
| EError (code : string)               (* 1417; the digits of the exit code *)
| ESilent                              (* 1409 *)
| EMessage (text : string)             (* 1370, 1834: signal 0 *)
| EStopped                             (* 1665: stopped at the end of the run *)
| EInterrupted | ECrash.               (* 1665 with the crash_reason of 1055 and 1062 *)
Definition nl : string := String (Ascii.ascii_of_nat 10) "".
Definition text (e : ending) : string :=
  match e with
  | EKilled h r => "GloMPO Termination" ++ nl ++ "Hunter: " ++ h ++ nl ++ "Reason: " ++ nl ++ r
  | EForced => "Forced GloMPO Termination"
  | EError d => "Error termination (exitcode " ++ d ++ ")."
  | ESilent => "Normal termination (Reason unknown)"
  | EMessage t => t
  | EStopped => "GloMPO Convergence"
  | EInterrupted => "User Interrupt"
  | ECrash => "GloMPO Crash"
  end.
(** What the bundled optimizers send with signal 0: scipy.py 93 and random.py 81 (no detail), cmawrapper.py 226 and gfls.py 148 (with detail),
    nevergrad.py 135-147. *)
Definition plain_message : string := "Optimizer convergence".
Definition detailed_message (stop : string) : string := "Optimizer convergence " ++ stop.
Definition nevergrad_message (above below zero : string) : string :=
  "Nevergrad termination conditions:" ++ nl ++ "(fx >= 1e30) = " ++ above ++ nl ++ "(fx <= " ++ zero ++ ") = " ++ below.
Definition nevergrad_callback : string := "Direct user callbacks".
