(** Model of expressions over a trace to which events were added (trappy/stats/grammar.py with trappy/bare_trace.py). *)
From Coq Require Import List Ascii String Bool Arith.
From Verif Require Import Lib.PyStr Model.Bare Model.Accessor.
Import ListNotations.
Local Open Scope list_scope.

Section Added.
  Context {T : Type} (methods : list str).
  (** The frame of an event as grammar.py:531-558 reads it: the rows with their cells (a column that is too short has none there). *)
  Definition rows_of (f : frame T) : list (T * list (str * option T)) :=
    map (fun it => (snd it, map (fun c => (fst c, nth_error (snd c) (fst it))) (fr_cols f)))
        (combine (seq 0 (List.length (fr_index f))) (fr_index f)).
  Definition frame_read (f : frame T) : gframe T T := GFrame (map fst (fr_cols f)) (rows_of f).
  (** [getattr(self.data, cls.name).data_frame] (grammar.py:535). *)
  Definition read_attr (tr : trace T) (h : heap T) (n : str) : option (gframe T T) :=
    match getattr methods tr n with
    | Found (AEvent i) => option_map (fun a => frame_read (h a)) (nth_error (map ev_frame (tr_events tr)) i)
    | _ => None
    end.
  (** bare_trace.py:118-135: the class that [class_definitions] holds has a [name] and no [pivot]
      (neither Base nor DynamicTypeFactory sets one); the pivot is set on the event. *)
  Definition read_class (tr : trace T) (e : str) : option kls := if dmem eqs e (tr_defs tr) then Some (Kls e None) else None.
  (** A parser made with such a trace (grammar.py:326-353). *)
  Definition world_of_trace (tr : trace T) (h : heap T) (pvars : str -> option kls) (attr : str -> res kls)
      (from to : option T) (filters : list (str * list T)) (fill : bool) : world T T :=
    World pvars (read_class tr) attr (read_attr tr h) from to filters fill.
End Added.
