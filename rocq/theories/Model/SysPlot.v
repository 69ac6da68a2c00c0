(** What [plot_trace] reads of a SysTrace (plotter/__init__.py:73-86, plotter/Utils.py:60-73). *)
From Coq Require Import List Ascii String ZArith QArith Bool.
From Verif Require Import Lib.PyStr Lib.F64 Model.Base Model.Cache Model.Residency Model.EventPlot Model.PlotTrace Model.PlotReport Model.SysReport.
Import ListNotations.
Local Open Scope list_scope.

(** systrace.py:69-72: [_cpus]; [int] of the nan of [NoRows] raises the error that
    [int] of the text does. *)
Definition count_attr (n : option count) : cpus :=
  match n with Some (Cpus n) => CNum n | Some NoRows => CText $"nan" | None => CNoAttr end.
(** Utils.py:60: the table, as in [ptrace_of]. *)
Definition sys_ptrace {header} (x : trace (header := header) * option count) : res ptrace :=
  do rows <- match dget eqs $"sched_switch" (t_frames (fst x)) with
             | Some fr => do rows <- mapM switch_of fr ;; Ok (Some rows)
             | None => Ok None
             end ;;
  Ok (PTrace rows (count_attr (snd x))).
(** plotter/__init__.py:76-80 *)
Definition open_page {header} (ftrace : str -> res ptrace) (systrace : str -> res (trace (header := header) * option count)) (kd : kind) (p : str) : res ptrace :=
  match kd with KFTrace => ftrace p | KSysTrace => do x <- systrace p ;; sys_ptrace x end.
