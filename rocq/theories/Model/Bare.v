(** Model of a trace as an object with attributes (trappy/bare_trace.py, ftrace.py, dynamic.py). *)
From Coq Require Import List Ascii String Bool Arith.
From Verif Require Import Lib.PyStr Lib.Regex.
Import ListNotations.
Local Open Scope list_scope.

(** What an attribute of a trace holds: the event at a position of [trace_classes], or anything else. *)
Inductive attr := AEvent (i : nat) | AOther.

Section Bare.
  (** Times, their subtraction, and which of them Python takes for false. *)
  Context {T : Type} (tsub : T -> T -> T) (tfalse : T -> bool).

  (** A data frame: name of the index, index, columns.  Simplified: cells are times. *)
  Record frame := Frame { fr_name : option str; fr_index : list T; fr_cols : list (str * list T) }.
  (** Frames are objects: an event holds the address of one. *)
  Definition heap := nat -> frame.
  Definition hset (h : heap) (a : nat) (f : frame) : heap := fun b => if b =? a then f else h b.

  (** An event object; its class has the [unique_word] and the [name]. *)
  Record event := Ev { ev_name : str; ev_word : str; ev_frame : nat; ev_pivot : option str }.

  (** The instance: its attributes ([__dict__]), [class_definitions] (name and unique word), [trace_classes], [basetime], [normalized_time]. *)
  Record trace := Tr { tr_dict : list (str * attr); tr_defs : list (str * str); tr_events : list event; tr_base : T; tr_normalized : bool }.

  (** bare_trace.py:34-40 [__init__] *)
  Definition own_attrs : list str := [$"name"; $"normalized_time"; $"class_definitions"; $"trace_classes"; $"basetime"; $"endtime"].
  Definition bare_new (zero : T) : trace := Tr (map (fun a => (a, AOther)) own_attrs) [] [] zero false.

  (** Attribute access: the instance, then the class ([methods]: all names its class knows), then [__getattr__]. *)
  Inductive found := Found (a : attr) | Hint (name : str) | Missing.
  Variable methods : list str.
  Definition mem (a : str) (l : list str) : bool := existsb (eqs a) l.
  Definition rstrip_colon (w : str) : str := rev (drop_while (is_ch ":") (rev w)).
  (** ftrace.py:507-535 [GenericFTrace.__getattr__]; [None]: go on to [__getattribute__]. *)
  Fixpoint deprecated (a : str) (defs : list (str * str)) : option str :=
    match defs with
    | [] => None
    | (n, w) :: r =>
        if eqs a (rstrip_colon w) then if eqs n (rstrip_colon w) then None else Some n
        else deprecated a r
    end.
  Definition dunder (a : str) : bool := is_prefix $"__" a && is_suffix $"__" a.
  Definition getattr_hook (tr : trace) (a : str) : found :=
    if dunder a then Missing
    else match deprecated a (tr_defs tr) with Some n => Hint n | None => Missing end.
  Definition getattr (tr : trace) (a : str) : found :=
    match dget eqs a (tr_dict tr) with
    | Some x => Found x
    | None => if mem a methods then Found AOther else getattr_hook tr a
    end.
  (** [hasattr]: no exception. *)
  Definition hasattr (tr : trace) (a : str) : bool := match getattr tr a with Found _ => true | _ => false end.

  (** bare_trace.py:90-137 [add_parsed_event]; dynamic.py:28-42. An empty pivot is not set
      at all; [None] stands for that too. *)
  Definition add_parsed_event (tr : trace) (name : str) (f : nat) (pivot : option str) : res trace :=
    if hasattr tr name then Err EValue
    else
      let pivot' := match pivot with Some (c :: p) => Some (c :: p) | _ => None end in
      let ev := Ev name (name ++ $":") f pivot' in
      Ok (Tr (dset eqs name (AEvent (List.length (tr_events tr))) (tr_dict tr))
             (dset eqs name (name ++ $":") (tr_defs tr)) (tr_events tr ++ [ev]) (tr_base tr) (tr_normalized tr)).

  (** bare_trace.py:60-72 [get_filters] *)
  Definition get_filters (key : re) (tr : trace) : list str :=
    filter (fun n => match re_search key n with Some _ => true | None => false end) (map fst (tr_defs tr)).

  (** base.py:336-346 [normalize_time]: [reset_index], subtraction, [set_index], all in place. *)
  Definition reset_name (f : frame) : str :=
    match fr_name f with
    | Some n => n
    | None => if mem $"index" (map fst (fr_cols f)) then $"level_0" else $"index"
    end.
  Definition df_empty (f : frame) : bool :=
    match fr_index f, fr_cols f with [], _ => true | _, [] => true | _, _ => false end.
  Definition normalize_frame (base : T) (f : frame) : res frame :=
    if negb (tfalse base) && negb (df_empty f) then
      if mem (reset_name f) (map fst (fr_cols f)) then Err EValue
      else
        let cols := (reset_name f, fr_index f) :: fr_cols f in
        match dget eqs $"Time" cols with
        | None => Err EKey
        | Some ts => Ok (Frame (Some $"Time") (map (fun t => tsub t base) ts) (ddel eqs $"Time" cols))
        end
    else Ok f.
  Fixpoint normalize_events (base : T) (es : list event) (h : heap) : res heap :=
    match es with
    | [] => Ok h
    | e :: r => do f <- normalize_frame base (h (ev_frame e)) ;; normalize_events base r (hset h (ev_frame e) f)
    end.
  (** bare_trace.py:74-88 [_normalize_time] *)
  Definition normalize_time (tr : trace) (h : heap) (b : option T) : res (trace * heap) :=
    let base := match b with Some b => b | None => tr_base tr end in
    do h' <- normalize_events base (tr_events tr) h ;;
    Ok (Tr (tr_dict tr) (tr_defs tr) (tr_events tr) base true, h').

  (** What a program does with a [BareTrace]; a rejected event is caught by the program. *)
  Inductive op := Add (name : str) (f : nat) (pivot : option str) | Normalize (b : option T).
  Definition step (s : trace * heap) (o : op) : res (trace * heap) :=
    let '(tr, h) := s in
    match o with
    | Add n f p => match add_parsed_event tr n f p with Ok tr' => Ok (tr', h) | Err EValue => Ok (tr, h) | Err e => Err e end
    | Normalize b => normalize_time tr h b
    end.
  Fixpoint run (s : trace * heap) (os : list op) : res (trace * heap) :=
    match os with [] => Ok s | o :: r => do s' <- step s o ;; run s' r end.
End Bare.
Arguments frame T : clear implicits.
Arguments heap T : clear implicits.
Arguments trace T : clear implicits.
Arguments op T : clear implicits.

(** The names [BareTrace] itself defines (bare_trace.py:22-149), without those of [object]. *)
Definition bare_methods : list str :=
  [$"__init__"; $"get_duration"; $"get_filters"; $"_normalize_time"; $"add_parsed_event"; $"finalize_objects"; $"generate_data_dict"; $"__class__"; $"__dict__"; $"__doc__"].

(** ftrace.py:82-117 [GenericFTrace.__init__]: attributes set before, one attribute per class, attributes set after.
    [self.trace_classes.append] fails once an event took that name. *)
Section Construct.
  Variables (before after : list str).
  Definition plain (a : str) : str * attr := (a, AOther).
  Definition set_plain (l : list str) (d : list (str * attr)) : list (str * attr) := fold_left (fun d a => dset eqs a AOther d) l d.
  Fixpoint set_events (names : list str) (i : nat) (d : list (str * attr)) : res (list (str * attr)) :=
    match names with
    | [] => Ok d
    | n :: r =>
        let d' := dset eqs n (AEvent i) d in
        match dget eqs $"trace_classes" d' with
        | Some AOther => set_events r (S i) d'
        | _ => Err EAttribute
        end
    end.
  (** Attributes of the instance when [_do_parse] is called. *)
  Definition construct (names : list str) : res (list (str * attr)) :=
    do d <- set_events names 0 (set_plain before []) ;; Ok (set_plain after d).
  (** ftrace.py:483-497: each class is read back through its attribute; [cached] is asked of it. *)
  Definition parsers (names : list str) (d : list (str * attr)) : res (list nat) :=
    mapM (fun n => match dget eqs n d with Some (AEvent i) => Ok i | _ => Err EAttribute end) names.
End Construct.
(** ftrace.py:803-807, 850-858, bare_trace.py:34-40 and ftrace.py:112-115: the attributes of an [FTrace]. *)
Definition ftrace_before : list str := [$"raw_events"; $"read_from_dat"; $"trace_path"] ++ own_attrs.
Definition ftrace_after : list str := [$"normalize_time"; $"window"; $"abs_window"; $"max_window"].
