(** Model of [apply_callbacks] (trappy/ftrace.py:571-618) over the frames of a trace. *)
From Coq Require Import List Ascii String ZArith Bool.
From Verif Require Import Lib.PyStr Lib.F64 Model.Base Model.Populate Model.Callbacks.
Import ListNotations.
Local Open Scope list_scope.

Section Replay.
  Context (frames : list (str * frame)).
  (** 602-604 [getLine] of the rows of a frame.  Simplified: a cell that is no integer counts as an error (python
      raises a KeyError if there is no such column, and would try to compare other things). *)
  Definition line_rows (f : frame) : res (list (Z * (float * dict))) :=
    mapM (fun r => match dget eqs $"__line" (snd r) with Some (CInt z) => Ok (z, r) | _ => Err EType end) f.
  (** 588 [getattr(self, event).data_frame] for the keys of the map *)
  Definition asked_frames (names : list str) : res (list (str * list (Z * (float * dict)))) :=
    mapM (fun a => match dget eqs a frames with None => Err EAttribute | Some f => do l <- line_rows f ;; Ok (a, l) end) names.
  (** 596-600, 610-612: the columns of the frame are those of all its rows; a row without one has nan there.  A name
      that is listed more than once has the same cell each time. *)
  Definition row_given (a : str) (r : float * dict) : list (str * cbval) :=
    let cols := match dget eqs a frames with Some f => flat_map (fun r => map fst (snd r)) f | None => [] end in
    event_dict cols (fst r) (map (fun k => match dget eqs k (snd r) with Some v => v | None => CNone end) cols).
  (** The calls made: the name of the event and the dictionary. *)
  Definition replay (names : list str) : res (list (str * list (str * cbval))) :=
    do fs <- asked_frames names ;;
    do calls <- callback_calls fst fs ;;
    Ok (map (fun x => (fst x, row_given (fst x) (snd (snd x)))) calls).
End Replay.
