(** What [plot_trace] reads of an FTrace (trappy/plotter/Utils.py:60-73, 97).  The
    times of the table become the rationals they stand for. *)
From Coq Require Import List Ascii String ZArith QArith Bool.
From Flocq Require Import BinarySingleNaN.
From Verif Require Import Lib.PyStr Lib.F64 Model.Base Model.Cache Model.Residency Model.EventPlot Model.PlotTrace.
Import ListNotations.
Local Open Scope list_scope.

(** The value of a finite double. *)
Definition fQ (x : F64.float) : Q :=
  match x with
  | B754_finite s m e _ =>
      let z := if s then Zneg m else Zpos m in
      if (0 <=? e)%Z then inject_Z (z * 2 ^ e) else (z # Z.to_pos (2 ^ (- e)))
  | _ => 0
  end.

(** 66-73, 97: one row.  A column that is not there is a KeyError.  Pids and cpus
    that are not numbers, and columns that only some of the rows have, are not modelled. *)
Definition switch_of (r : F64.float * dict) : res (switch Q) :=
  match dlookup $"prev_pid" (snd r), dlookup $"next_pid" (snd r), dlookup $"next_comm" (snd r), dlookup $"__cpu" (snd r) with
  | Some (CInt p), Some (CInt n), Some c, Some (CInt u) => Ok (Switch (fQ (fst r)) p n c u)
  | Some _, Some _, Some _, Some _ => Err EType
  | _, _, _, _ => Err EKey
  end.
(** 60: the table under the attribute [sched_switch], if the trace has one; the
    attribute [_cpus] is never set when nothing was parsed or loaded (ftrace.py:318-322).
    Simplified: a trace loaded from a cache that has no "cpus" is taken to have the
    attribute with the value None, as one that was parsed. *)
Definition ptrace_of (tr : trace (header := list (str * str))) : res ptrace :=
  do rows <- match dget eqs $"sched_switch" (t_frames tr) with
             | Some fr => do rows <- mapM switch_of fr ;; Ok (Some rows)
             | None => Ok None
             end ;;
  Ok (PTrace rows (match t_head tr with Some h => ftrace_cpus h | None => CNoAttr end)).
(** plotter/__init__.py:76-80: a path is opened as a SysTrace or as an FTrace. *)
Definition open_report (ftrace : str -> res (trace (header := list (str * str)))) (systrace : str -> res ptrace) (kd : kind) (p : str) : res ptrace :=
  match kd with KFTrace => do tr <- ftrace p ;; ptrace_of tr | KSysTrace => systrace p end.
