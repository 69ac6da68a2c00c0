(** What the attributes of a trace should be after events were added and times normalised. *)
From Coq Require Import List Ascii String Bool Arith.
From Verif Require Import Lib.PyStr Lib.Regex Lib.RegexFacts Model.Bare.
Import ListNotations.
Local Open Scope list_scope.

(** The text [p] occurs in [s]. *)
Definition Within (p s : str) : Prop := exists a b, s = a ++ p ++ b.

(** Some part of [n] matches the pattern [key]. *)
Definition Listed (key : re) (n : str) : Prop := exists a b s', n = a ++ b /\ mat key (St (last_or None a) b []) s'.

(** [w] is [a] followed by colons only, and [a] does not end in one. *)
Definition Colons (a w : str) : Prop := (exists n, w = a ++ repeat ":"%char n) /\ ~ (exists b, a = b ++ $":").

Section Bare.
  Context {T : Type} (tsub : T -> T -> T) (tfalse : T -> bool).

  (** The name is taken from the beginning: a name of the class or of a new instance. *)
  Definition Builtin (methods : list str) (n : str) : Prop := In n methods \/ In n own_attrs.
  (** The history adds [n] first with the frame [f] and the pivot [p]; [before] and [after] are the rest. *)
  Definition FirstAdd (os : list (op T)) (n : str) (f : nat) (p : option str) (after : list (op T)) : Prop :=
    exists before, os = before ++ Add n f p :: after /\ (forall g q, ~ In (Add n g q) before).
  Definition Adds (os : list (op T)) (n : str) : Prop := exists f p, In (Add n f p) os.
  (** The offsets subtracted by a history: a given one, or the last one given. *)
  Fixpoint offsets (base : T) (os : list (op T)) : list T :=
    match os with
    | [] => []
    | Add _ _ _ :: r => offsets base r
    | Normalize None :: r => base :: offsets base r
    | Normalize (Some b) :: r => b :: offsets b r
    end.
  (** The offset in force after a history. *)
  Fixpoint in_force (base : T) (os : list (op T)) : T :=
    match os with [] => base | Normalize (Some b) :: r => in_force b r | _ :: r => in_force base r end.
  Definition shift (t : T) (bs : list T) : T := fold_left tsub (filter (fun b => negb (tfalse b)) bs) t.
  (** A frame as [add_parsed_event] asks for: the index is the time. *)
  Definition Timed (f : frame T) : Prop := fr_name f = Some $"Time" /\ ~ In $"Time" (map fst (fr_cols f)).
  (** Every event has a frame of its own. *)
  Definition OwnFrames (os : list (op T)) : Prop :=
    forall i j n m f p q, nth_error os i = Some (Add n f p) -> nth_error os j = Some (Add m f q) -> i = j.
End Bare.

(** The names a program may not give to an event of a [BareTrace]. *)
Definition bare_names : list str :=
  [$"name"; $"normalized_time"; $"class_definitions"; $"trace_classes"; $"basetime"; $"endtime";
   $"get_duration"; $"get_filters"; $"_normalize_time"; $"add_parsed_event"; $"finalize_objects"; $"generate_data_dict";
   $"__init__"; $"__class__"; $"__dict__"; $"__doc__"].
(** The attributes an FTrace has of its own, and those of them that are set after the events. *)
Definition ftrace_late : list str := [$"normalize_time"; $"window"; $"abs_window"; $"max_window"].
Definition ftrace_names : list str :=
  [$"raw_events"; $"read_from_dat"; $"trace_path"; $"name"; $"normalized_time"; $"class_definitions"; $"trace_classes"; $"basetime"; $"endtime"] ++ ftrace_late.

(** The column the index of a frame becomes when it is reset. *)
Definition IndexColumn {T} (f : frame T) (c : str) : Prop :=
  match fr_name f with
  | Some n => c = n
  | None => In $"index" (map fst (fr_cols f)) /\ c = $"level_0" \/ ~ In $"index" (map fst (fr_cols f)) /\ c = $"index"
  end.
