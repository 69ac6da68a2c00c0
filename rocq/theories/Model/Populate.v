(** Model of the parse loop of trappy/ftrace.py. *)
From Coq Require Import List Ascii String ZArith NArith Bool.
From Verif Require Import Lib.PyStr Lib.Regex Lib.F64 Model.Base Model.Line Model.Registry.
Import ListNotations.

(** [cls_for_unique_word]: unique word, attribute name and class, in dict order. *)
Definition words := list (str * (str * klass)).

(** ftrace.py:379-386 [__get_trace_class]; returns the attribute name of the
    chosen event.  [found] is the last fallback class seen. *)
Fixpoint get_class_loop (found : option str) (line : str) (ws : words) : option str :=
  match ws with
  | [] => found
  | (w, (attr, k)) :: rest =>
      if contains w line then
        if k_fallback k then get_class_loop (Some attr) line rest else Some attr
      else get_class_loop found line rest
  end.
Definition get_trace_class (line : str) (ws : words) : option str := get_class_loop None line ws.

(** ftrace.py:436-438: empty arrays followed by a blank are removed. *)
Definition pat_empty : re := RSeqs [RPlus (RCls is_ident); RLit $"={} "].
Definition drop_empty (data : str) : str :=
  if contains $"={}" data then re_sub pat_empty (fun _ => []) data else data.

(** Loop state: [timestamp], [self.basetime], [self.lines] and the arrays of each
    event (base.py:166-192), by attribute name. *)
Record pstate := PSt {
  p_time : float; p_base : float; p_lines : Z; p_events : list (str * list event) }.

Definition append_event (attr : str) (e : event) (evs : list (str * list event)) :=
  dset eqs attr (match dget eqs attr evs with Some l => l ++ [e] | None => [e] end) evs.

(** ftrace.py:417-430: the time given to a line. *)
Definition next_time (prev printed : float) : float :=
  if flt prev printed then printed else fnext prev.

(** ftrace.py:396-444: one line.  The computation of [max_window] (432) is
    modelled in Window.v. *)
Definition pop_line (ws : words) (st : pstate) (raw : str) : res pstate :=
  let cls := get_trace_class raw ws in
  do fo <- parse_fields raw ;;
  match fo with
  | None => Ok (PSt (p_time st) (p_base st) (p_lines st + 1) (p_events st))
  | Some f =>
      let t := next_time (p_time st) (f_time f) in
      let base := if ftruthy (p_base st) then p_base st else t in
      let evs := match cls with
                 | None => p_events st
                 | Some attr =>
                     append_event attr (Ev t (f_comm f) (f_pid f) (f_cpu f) (p_lines st)
                                           (drop_empty (f_data f))) (p_events st)
                 end in
      Ok (PSt t base (p_lines st + 1) evs)
  end.
Fixpoint pop_lines (ws : words) (st : pstate) (body : list str) : res pstate :=
  match body with
  | [] => Ok st
  | l :: rest => do st' <- pop_line ws st l ;; pop_lines ws st' rest
  end.

(** ftrace.py:391-394, 448-477: the part of the file that is parsed.  For FTrace
    the trace starts at the first line matching the pattern and never ends. *)
Fixpoint drop_until (p : str -> bool) (ls : list str) : list str :=
  match ls with
  | [] => []
  | l :: rest => if p l then ls else drop_until p rest
  end.
Definition ftrace_body (file : list str) : list str := drop_until is_trace_line file.

(** ftrace.py:388-446 [__populate_data] from a trace object whose basetime is
    [base] (0, or loaded from the cache) and whose events are empty. *)
Definition populate (ws : words) (base : float) (body : list str) : res pstate :=
  pop_lines ws (PSt fzero base 0 (map (fun e => (fst (snd e), [])) ws)) body.
(** ftrace.py:446 [self.endtime = timestamp] *)
Definition p_end (st : pstate) : float := p_time st.
