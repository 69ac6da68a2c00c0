(** Model of trappy/plotter/__init__.py:55-86 [plot_trace], and of what it takes
    from a trace.  Times are rationals. *)
From Coq Require Import List Ascii String ZArith QArith Bool.
From Verif Require Import Lib.PyStr Model.Base Model.Residency Model.EventPlot.
Import ListNotations.
Local Open Scope list_scope.

(** What is asked of a trace: the table [sched_switch] and the attribute
    [_cpus].  [None]: there is no such attribute. *)
Inductive cpus := CNoAttr | CIsNone | CText (s : str) | CNum (z : Z).
Record ptrace := PTrace { pt_switches : option (list (switch Q)); pt_cpus : cpus }.
(** [int(trace._cpus)] *)
Definition cpus_int (c : cpus) : res Z :=
  match c with
  | CNoAttr => Err EAttribute
  | CIsNone => Err EType
  | CText s => match py_int10 s with Some z => Ok z | None => Err EValue end
  | CNum z => Ok z
  end.
(** trappy/ftrace.py:928-934, 951-955: [_cpus] of a trace that was parsed, from its metadata *)
Definition ftrace_cpus (metadata : list (str * str)) : cpus :=
  match dget eqs $"cpus" metadata with Some s => CText s | None => CIsNone end.
(** trappy/systrace.py:70-73, from what [systrace_cpus] finds *)
Definition systrace_attr (n : option Z) : cpus := match n with Some z => CNum z | None => CNoAttr end.

(** The argument [trace] *)
Inductive source := SPath (p : str) | STrace (t : ptrace).
Inductive kind := KSysTrace | KFTrace.
(** 76-80 *)
Definition kind_of (p : str) : kind := if is_suffix $"html" p then KSysTrace else KFTrace.
(** The arguments [execnames] and [pids]; Utils.py:51-55 with trappy/utils.py:21-29 [listify] *)
Inductive sel (A : Type) := SelNone | SelOne (a : A) | SelMany (l : list A).
Arguments SelNone {A}. Arguments SelOne {A}. Arguments SelMany {A}.
Definition listify {A} (truthy : A -> bool) (s : sel A) : list A :=
  match s with SelNone => [] | SelOne a => if truthy a then [a] else [] | SelMany l => l end.
Definition execnames_of (s : sel str) : list str := listify (fun e => match e with [] => false | _ => true end) s.
Definition pids_of (s : sel Z) : list Z := listify (fun p => negb (p =? 0)%Z) s.

Definition events_of (d : list (str * list (Q * Q * Z))) : data :=
  map (fun nl => (fst nl, map (fun v => Event (fst (fst v)) (snd (fst v)) (LZ (snd v))) (snd nl))) d.
(** 73-86: the plot that is shown and its domain.  [open] is the construction of a trace from a path. *)
Definition plot_trace (ipython : bool) (open : kind -> str -> res ptrace) (src : source) (execnames : sel str) (pids : sel Z) : res (graph * (Q * Q)) :=
  if negb ipython then Err ERuntime
  else
    do t <- match src with SPath p => open (kind_of p) p | STrace t => Ok t end ;;
    do rows <- match pt_switches t with Some rows => Ok rows | None => Err EAttribute end ;;
    do r <- event_data (execnames_of execnames) (pids_of pids) rows ;;
    do n <- cpus_int (pt_cpus t) ;;
    do g <- event_plot (events_of (fst (fst r))) [] $"CPU :" n ;;
    Ok (g, snd r).
