(** Model of windows, time normalisation and duration (trappy/ftrace.py,
    trappy/base.py, trappy/bare_trace.py).  A frame is a list of rows with their
    time; the contents [R] of a row are irrelevant here. *)
From Coq Require Import List Arith ZArith Bool.
From Verif Require Import Lib.F64 Model.Dups.
Import ListNotations.
Local Open Scope nat_scope.

(** [max(a, b)] and [min(a, b)] in Python keep the first of two equal values. *)
Definition py_max (a b : float) : float := if flt a b then b else a.
Definition py_min (a b : float) : float := if flt b a then b else a.

(** A window: start and optional end. *)
Definition window := (float * option float)%type.

(** ftrace.py:158-172 [_calc_max_window] *)
Definition calc_max_window (win abs : window) (base : float) : window :=
  (py_max (fadd (fst win) base) (fst abs),
   match snd win, snd abs with
   | Some e, Some a => Some (py_max (fadd e base) a)
   | Some e, None => Some (fadd e base)
   | None, a => a
   end).

Section Frames.
  Context {R : Type}.
  Notation tframe := (list (float * R)).

  (** [data_frame.sort_index()]: sort by time.  Rows of equal time keep their
      order here; pandas leaves it unspecified unless the index is sorted. *)
  Fixpoint insert_time (x : float * R) (f : tframe) : tframe :=
    match f with
    | [] => [x]
    | y :: rest => if flt (fst y) (fst x) then y :: insert_time x rest else x :: f
    end.
  Definition sort_index (f : tframe) : tframe := fold_right insert_time [] f.

  (** [data_frame[start:end]] on a sorted float index: the positions come from
      binary searches and both ends are included. *)
  Definition slice_pos (s : float) (e : option float) (f : tframe) : tframe :=
    let ts := map fst f in
    let i := search_left f_arith s ts in
    let j := match e with Some e => search_right f_arith e ts | None => List.length ts end in
    firstn (j - i) (skipn i f).

  (** ftrace.py:174-189 [_windowify_class] *)
  Definition windowify (w : window) (f : tframe) : tframe :=
    match f with
    | [] => []
    | _ =>
        let f := sort_index f in
        match snd w with
        | Some e => if ftruthy e then slice_pos (fst w) (Some e) f
                    else if ftruthy (fst w) then slice_pos (fst w) None f else f
        | None => if ftruthy (fst w) then slice_pos (fst w) None f else f
        end
    end.

  (** base.py:336-346 [normalize_time] *)
  Definition normalize_time (base : float) (f : tframe) : tframe :=
    if ftruthy base then map (fun r => (fsub (fst r) base, snd r)) f else f.

  (** ftrace.py:306-313 [_apply_user_parameters]; bare_trace.py:74-88. *)
  Definition apply_user (normalize : bool) (base : float) (w : window) (fs : list tframe) : list tframe :=
    let fs := map (windowify w) fs in
    if normalize then map (normalize_time base) fs else fs.

  (** bare_trace.py:42-58 [get_duration] *)
  Fixpoint last_row (f : tframe) : option (float * R) :=
    match f with [] => None | [r] => Some r | _ :: rest => last_row rest end.
  Definition max_list (l : list float) : option float :=
    match l with [] => None | x :: rest => Some (fold_left py_max rest x) end.
  Definition min_list (l : list float) : option float :=
    match l with [] => None | x :: rest => Some (fold_left py_min rest x) end.
  Definition get_duration (fs : list tframe) : float :=
    let maxs := flat_map (fun f => match last_row f with Some r => [fst r] | None => [] end) fs in
    let mins := flat_map (fun f => match f with r :: _ => [fst r] | [] => [] end) fs in
    match max_list maxs, min_list mins with
    | Some a, Some b => fsub a b
    | _, _ => fzero
    end.
End Frames.
