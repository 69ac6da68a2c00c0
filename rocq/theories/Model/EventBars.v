(** Model of the bars an EventPlot draws in its lanes,
    trappy/plotter/js/EventPlot.js:45-58, 834-924.  Numbers of the script are
    doubles, here rationals.  A path is kept as the list of its horizontal
    strokes; d3 3.5.6 gives the linear scales. *)
From Coq Require Import List Ascii String ZArith QArith Bool.
From Verif Require Import Lib.PyStr Model.EventPlot.
Import ListNotations.
Local Open Scope nat_scope.
Local Open Scope list_scope.

(** [d3.scale.linear().domain([d0, d1]).range([r0, r1])], used in 107-113 and
    137-141.  d3 maps everything to [r0] when the domain is a point, as does
    the division by zero of [Q]. *)
Record scale := Scale { d0 : Q; d1 : Q; r0 : Q; r1 : Q }.
Definition sc (s : scale) (t : Q) : Q := (r0 s + (t - d0 s) / (d1 s - d0 s) * (r1 s - r0 s))%Q.

Definition js_max (a b : Q) : Q := if Qle_bool a b then b else a.
Definition js_min (a b : Q) : Q := if Qle_bool a b then a else b.
Definition qlt (a b : Q) : bool := negb (Qle_bool b a).

Notation iv := (Q * Q)%type.
(** 45-58 [search_data]; [key] is 0 or 1.  The loop ends because the range
    shrinks, [fuel] counts its turns. *)
Fixpoint search_data (fuel : nat) (data : list iv) (key : iv -> Q) (value : Q) (left right : nat) : res nat :=
  if left <? right then
    match fuel with
    | O => Err EFuel
    | S fuel =>
        let mid := (left + right) / 2 in
        match nth_error data mid with
        | None => Err EType
        | Some d =>
            if qlt value (key d) then search_data fuel data key value left mid
            else search_data fuel data key value (S mid) right
        end
    end
  else Ok left.

(** ['M x0 y H x1'] *)
Record stroke := Stroke { s_y : option Q; s_from : Q; s_to : Q }.
(** [y(lane)]: the names of lanes that are not numbers have no position ([NaN]). *)
Definition y_of (y : scale) (l : lane) : option Q := match l with LZ z => Some (sc y (inject_Z z)) | LS _ => None end.
(** 835, 901 *)
Definition offset (y : scale) : Q := ((1 # 2) * sc y 1 + (1 # 2))%Q.
Definition y_pos (y : scale) (l : lane) : option Q := option_map (fun p => p + offset y)%Q (y_of y l).

(** 834-842 [_handle_equality] *)
Definition handle_equality (d : iv) (xMin xMax : Q) (x y : scale) (l : lane) : list stroke :=
  let b0 := js_max (fst d) xMin in
  let b1 := js_min (snd d) xMax in
  if qlt b0 b1 then [Stroke (y_pos y l) (sc x b0) (sc x b1)] else [].
(** 844-863 [_process]: what is added to the path *)
Definition process (d : iv) (xMin xMax : Q) (x y : scale) (l : lane) : list stroke :=
  let start := if qlt (fst d) xMin then xMin else fst d in
  let end_ := if qlt xMax (snd d) then xMax else snd d in
  let start := sc x start in
  let end_ := sc x end_ in
  if qlt (end_ - start) (1 # 100) then []
  else let end_ := if qlt (end_ - start) 1 then (start + 1)%Q else end_ in
       [Stroke (y_pos y l) start end_].

(** 884-885 [for (i = 0; i < data.length; i += stride_length)]: [skip] items are passed over first *)
Fixpoint every (n skip : nat) (l : list iv) : list iv :=
  match l with
  | [] => []
  | d :: r => match skip with O => d :: every n (n - 1) r | S k => every n k r end
  end.
Definition max_rects : nat := 2000.
(** 880-882: [Math.max(Math.ceil(data.length / max_rects), 1)] *)
Definition stride_length (stride : bool) (n : nat) : nat :=
  if stride then Nat.max ((n + (max_rects - 1)) / max_rects) 1 else 1.
(** 865-889 [_get_path], for one lane *)
Definition lane_path (stride : bool) (xMin xMax : Q) (x y : scale) (l : lane) (data : list iv) : res (list stroke) :=
  do hi <- search_data (List.length data) data fst xMax 0 (List.length data - 1) ;;
  do lo <- search_data (List.length data) data snd xMin 0 hi ;;
  do eq <- (if lo =? hi then
              match nth_error data lo with
              | None => Err EType
              | Some d => Ok (handle_equality d xMin xMax x y l)
              end
            else Ok []) ;;
  let data := firstn (S hi - lo) (skipn lo data) in
  Ok (eq ++ flat_map (fun d => process d xMin xMax x y l) (every (stride_length stride (List.length data)) 0 data)).
(** 865-889 [_get_path]; the lanes in the order of the data *)
Definition get_path (stride : bool) (xMin xMax : Q) (x y : scale) (m : list (lane * list iv)) : res (list stroke) :=
  do ps <- mapM (fun ll => lane_path stride xMin xMax x y (fst ll) (snd ll)) m ;; Ok (List.concat ps).
(** 892-924 [getPaths]: names with nothing to draw are left out.  The window
    is the domain of [x]; a name that is no key of the data has no lanes. *)
Fixpoint get_paths (stride : bool) (x y : scale) (items : list (str * list (lane * list iv))) (keys : list str) : res (list (str * list stroke)) :=
  match keys with
  | [] => Ok []
  | k :: r =>
      do p <- get_path stride (d0 x) (d1 x) x y (match dget eqs k items with Some m => m | None => [] end) ;;
      do ps <- get_paths stride x y items r ;;
      Ok (match p with [] => ps | _ => (k, p) :: ps end)
  end.
(** 797-798 [drawMain] and 696-698 [drawMiniPaths] call [getPaths] without its
    last argument, so that [d.stride] of the data has no effect. *)
Definition draw (d_stride : bool) (x y : scale) (g : graph) : res (list (str * list stroke)) :=
  get_paths false x y (g_data g) (g_keys g).
