(** The construction of a SysTrace (systrace.py:54-102): the parser of FTrace with
    the page around the trace removed, user space markers split, and the number of
    cpus counted at the end. *)
From Coq Require Import List Ascii String ZArith NArith Bool.
From Verif Require Import Lib.PyStr Lib.F64 Model.Base Model.Registry Model.Populate Model.Window Model.Cache Model.Classes Model.Systrace.
Import ListNotations.
Local Open Scope list_scope.

(** bare_trace.py:138-145 for one class, with fallback.py:35-41 asking the trace
    (systrace.py:89-102) for the meaning of a marker. *)
Definition sys_frame (fuel : nat) (k : klass) (evs : list event) : res frame :=
  if eqs (k_pyname k) $"TracingMarkWrite" then create_dataframe fuel (fallback_data_dict systrace_data_dict) evs
  else class_frame fuel k evs.

(** systrace.py:70 [1 + data_frame["__cpu"].max()]: a number, or the NaN that pandas
    gives as the maximum of a column without rows. *)
Inductive count := Cpus (n : Z) | NoRows.
Definition cpu_column (fr : frame) : res (list Z) :=
  mapM (fun r => match dlookup $"__cpu" (snd r) with Some (CInt z) => Ok z | Some _ => Err EType | None => Err EKey end) fr.
(** systrace.py:69-72.  [recorded]: the class was given events at all; the frame that
    a window has left without rows keeps its columns, the frame of a class without
    events has none.  AttributeError is caught: no sched_switch, no count. *)
Definition count_cpus (recorded : bool) (fr : option frame) : res (option count) :=
  match fr with
  | None => Ok None
  | Some fr =>
      if recorded then
        do l <- cpu_column fr ;;
        Ok (Some match l with [] => NoRows | c :: r => Cpus (1 + maxz c r) end)
      else Err EKey
  end.

Section Construct.
  Context {content digest header csv : Type}.
  Variables (deq : digest -> digest -> bool) (md5 : content -> digest)
            (file : content -> list str) (head : content -> header)
            (enc : frame -> csv) (dec : csv -> option frame) (fuel : nat).
  (** ftrace.py:315-335, 385-394 with systrace.py:75-87 *)
  Definition sys_parse := do_parse deq md5 (fun x => systrace_body (file x)) head enc dec (sys_frame fuel).
  (** Some line is given to sched_switch (without a cache, where all lines are read). *)
  Definition sys_recorded (c : config) (s : fsys (content:=content) (digest:=digest) (header:=header) (csv:=csv)) : bool :=
    match populate (map (fun d => (k_word (snd d), d)) (c_defs c)) fzero (systrace_body (file (f_trace s))) with
    | Ok st => match dget eqs $"sched_switch" (p_events st) with Some (_ :: _) => true | _ => false end
    | Err _ => false
    end.
  (** systrace.py:61-72 *)
  Definition sys_construct (c : config) s : res (trace (header:=header) * option count) :=
    do tr <- fst (sys_parse c s) ;;
    do n <- count_cpus (sys_recorded c s) (dget eqs $"sched_switch" (t_frames tr)) ;;
    Ok (tr, n).
End Construct.
