(** Model of trappy/systrace.py and trappy/fallback.py. *)
From Coq Require Import List Ascii String ZArith NArith Bool.
From Verif Require Import Lib.PyStr Lib.Regex Lib.F64 Model.Base Model.Line.
Import ListNotations.

(** systrace.py:39-42 and 44-46: the two kinds of marker lines. *)
Definition begin_marker (line : str) : bool :=
  is_prefix $"<!-- BEGIN TRACE -->" line || is_prefix $"<title>Android System Trace</title>" line.
Definition data_marker (line : str) : bool :=
  is_prefix ($"  <script class=" ++ ["034"%char] ++ $"trace-data" ++ ["034"%char]) line ||
  is_prefix $"  var linuxPerfData" line.

(** systrace.py:26-53 [drop_before_trace], driven by [itertools.dropwhile]
    (ftrace.py:391).  The two flags are the object's state. *)
Fixpoint drop_before (before_begin before_actual : bool) (ls : list str) : list str :=
  match ls with
  | [] => []
  | l :: rest =>
      let '(bb, ba) :=
        if before_begin then (negb (begin_marker l), before_actual)
        else if before_actual then (false, negb (data_marker l))
        else (before_begin, before_actual) in
      if ba then drop_before bb ba rest            (* return True: dropped *)
      else if is_trace_line l then ls else drop_before bb ba rest
  end.
(** systrace.py:78-87 under [itertools.takewhile] (ftrace.py:392). *)
Definition end_line : str := $"</script>" ++ ["010"%char].
Definition systrace_body (file : list str) : list str :=
  take_while (fun l => negb (is_suffix end_line l)) (drop_before true true file).

(** systrace.py:23-24 [SYSTRACE_EVENT]; groups: 1 event, 3 pid, 4 func, 6 data. *)
Definition pat_mark : re :=
  RSeqs [RBos; RGrp 1 (RCls is_upper);
         ROpt (RGrp 2 (RSeqs [RLit $"|"; RGrp 3 (RPlus (RCls is_digit)); RLit $"|";
                              RGrp 4 (RStar (RCls (not_ch "|")));
                              ROpt (RGrp 5 (RSeq (RLit $"|") (RGrp 6 (RStar (RCls not_nl)))))]))].
(** systrace.py:89-102: [None] when the text is not a marker. *)
Definition opt_str (o : option str) : cell := match o with Some s => CStr s | None => CNone end.
Definition systrace_data_dict (data : str) : res (option dict) :=
  match re_match pat_mark data with
  | None => Ok None
  | Some m =>
      do pid <- match group 3 m with
                | None | Some [] => Ok CNone
                | Some p => match py_int10 p with Some z => Ok (CInt z) | None => Err EValue end
                end ;;
      Ok (Some [($"event", opt_str (group 1 m)); ($"pid", pid);
                ($"func", opt_str (group 4 m)); ($"data", opt_str (group 6 m))])
  end.
(** fallback.py:34-40 with the trace's [generate_data_dict] ([None] for every
    trace but SysTrace, bare_trace.py:148-149). *)
Definition fallback_data_dict (tracer : str -> res (option dict)) (data : str) : res dict :=
  do o <- tracer data ;;
  match o with
  | Some (e :: d) => Ok (e :: d)
  | _ => Ok [($"string", CStr data)]
  end.
Definition no_data_dict (data : str) : res (option dict) := Ok None.

(** systrace.py:68-73: the number of cpus, from the cpus of the sched_switch
    rows.  [None]: the trace has no sched_switch (the error is caught); the
    frame of a class without events has no column [__cpu] (SysReport.v has the case
    of a frame that a window left without rows). *)
Fixpoint maxz (z : Z) (l : list Z) : Z := match l with [] => z | x :: r => maxz (Z.max z x) r end.
Definition systrace_cpus (sched_switch : option (list Z)) : res (option Z) :=
  match sched_switch with
  | None => Ok None
  | Some [] => Err EKey
  | Some (c :: r) => Ok (Some (1 + maxz c r)%Z)
  end.
