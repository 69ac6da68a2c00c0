(** A whole trace report as it is written, and the frames it stands for.
    Nothing here refers to the parser. *)
From Coq Require Import List Ascii String ZArith NArith Bool.
From Verif Require Import Lib.PyStr Lib.F64 Lib.F64Ord Model.Base Model.Registry Model.Populate Model.Window
  Spec.Lines Spec.Payload Spec.Arrays Spec.Parts Spec.Trace Spec.Interval.
Import ListNotations.

(** One line of a report: text that is not an event, an event nobody selected, or
    an event of attribute [a] printed with the fields [ps]. *)
Inductive item := Junk (l : str) | Foreign (L : tline) | Wrote (L : tline) (a : str) (ps : list part).
Definition item_str (i : item) : str :=
  match i with Junk l => l | Foreign L | Wrote L _ _ => line_str L ++ [nl] end.

(** Every event line has a colon followed by a blank, and a bracket. *)
Definition junk_ok (l : str) : Prop := ~ occurs $": " l \/ ~ In "["%char l.
Definition item_ok (ws : words) (i : item) : Prop :=
  match i with
  | Junk l => junk_ok l
  | Foreign L => line_ok L /\ forall w a k, In (w, (a, k)) ws -> ~ occurs w (item_str i)
  | Wrote L a ps => line_ok L /\ l_data L = payload ps /\ Forall part_ok ps /\ Dispatch ws (item_str i) a
  end.
Definition starts_event (l : list item) : Prop :=
  match l with Junk _ :: _ => False | _ => True end.

(** The printed lines that carry a time. *)
Definition event_lines (l : list item) : list tline :=
  flat_map (fun i => match i with Junk _ => [] | Foreign L | Wrote L _ _ => [L] end) l.

(** The selected events with their line number and the times assigned to the
    successive event lines. *)
Record stamp := Stamp { s_pos : Z; s_time : float; s_line : tline; s_attr : str; s_parts : list part }.
Fixpoint stamped (i : Z) (l : list item) (us : list float) : list stamp :=
  match l, us with
  | [], _ => []
  | Junk _ :: r, _ => stamped (i + 1) r us
  | Foreign _ :: r, _ :: us => stamped (i + 1) r us
  | Wrote L a ps :: r, u :: us => Stamp i u L a ps :: stamped (i + 1) r us
  | _ :: _, [] => []
  end.
(** The payloads written for an attribute. *)
Definition parts_of (a : str) (l : list item) : list (list part) :=
  flat_map (fun i => match i with Wrote _ b ps => if eqs a b then [ps] else [] | _ => [] end) l.

(** What is asked of the payloads of one attribute: no two columns of a row have
    the same name, and arrays appear from the first event on or not at all. *)
Definition columns_ok (pss : list (list part)) : Prop :=
  (forall q, In q pss -> NoDup (map fst (flat_map (part_cells (trace_len pss)) q))) /\
  match pss with
  | [] => True
  | p :: _ => has_array p = true \/ forall q, In q pss -> has_array q = false
  end.
Definition arrays (q : list part) : nat := List.length (filter is_arr (flat_map part_segs q)).

(** The row standing for an event: its time (moved by [shift]), a cell for every
    field and array element printed, and where it was printed. *)
Definition stamp_event (s : stamp) : event :=
  Ev (s_time s) (l_comm (s_line s)) (Z.of_N (dec_val (l_pid (s_line s))))
     (Z.of_N (dec_val (l_cpu (s_line s)))) (s_pos s) [].
Definition row_of (len : str -> nat) (shift : float -> float) (s : stamp) (r : float * dict) : Prop :=
  fst r = shift (s_time s) /\
  (forall k v more, In (k, (v, more)) (flat_map (part_cells len) (s_parts s)) ->
     exists c, dlookup k (snd r) = Some c /\ col_cell v more c) /\
  (forall k, ~ In k (map fst (flat_map (part_cells len) (s_parts s))) ->
     dlookup k (snd r) = meta_cell (stamp_event s) k).

(** The two windows are numbers, at most one of them has an end, and that end is not zero. *)
Definition windows_ok (win abs : window) (base : float) : Prop :=
  num (fadd (fst win) base) = true /\ num (fst abs) = true /\
  match moved (snd win) base with Some e => num e = true | None => True end /\
  match snd abs with Some e => num e = true | None => True end /\
  (snd abs = None /\ match moved (snd win) base with Some e => ftruthy e = true | None => True end \/
   snd win = None /\ match snd abs with Some e => ftruthy e = true | None => True end).
