(** Model of the colours and rows of an EventPlot and of what it tells about
    the event under the mouse, trappy/plotter/js/EventPlot.js:60-87, 98-141,
    278-303, 811-813.  Numbers are rationals. *)
From Coq Require Import List Ascii String ZArith QArith Bool.
From Verif Require Import Lib.PyStr Model.EventPlot Model.EventBars.
Import ListNotations.
Local Open Scope nat_scope.
Local Open Scope list_scope.

(** Values of JavaScript, as far as they occur here. *)
Inductive jv := JUndef | JNum (q : Q) | JArr (l : list jv).
(** The number a value is compared as; [None] is [NaN].  An array is turned
    into its elements with commas between them first. *)
Fixpoint to_num (v : jv) : option Q :=
  match v with
  | JUndef => None
  | JNum q => Some q
  | JArr [] => Some 0%Q
  | JArr [JUndef] => Some 0%Q
  | JArr [x] => to_num x
  | JArr _ => None
  end.
Definition jle (a b : jv) : bool :=
  match to_num a, to_num b with Some x, Some y => Qle_bool x y | _, _ => false end.
(** [v[i]] *)
Definition jget (v : jv) (i : nat) : res jv :=
  match v with
  | JUndef => Err EType
  | JNum _ => Ok JUndef
  | JArr l => Ok (nth i l JUndef)
  end.
(** The data of a name is an object whose properties are the lanes, each an array of pairs. *)
Definition js_lane (ds : list iv) : jv := JArr (map (fun d => JArr [JNum (fst d); JNum (snd d)]) ds).
Definition lane_key (i : nat) (l : lane) : bool :=
  match l with LZ z => (z =? Z.of_nat i)%Z | LS s => eqs s (str_of_nat i) end.
Definition obj_get (m : list (lane * list iv)) (i : nat) : jv :=
  match find (fun ll => lane_key i (fst ll)) m with Some ll => js_lane (snd ll) | None => JUndef end.

(** 64-87 [getCurrentInfo], one turn of its loop.  [data.length] is
    [undefined], so that both searches end at once with 0. *)
Definition candidate (m : list (lane * list iv)) (x0 : Q) (y0 : Z) : res (option jv) :=
  let right := 0 in
  let left := 0 in
  let c := obj_get m left in
  do c0 <- jget c 0 ;;
  if jle c0 (JNum x0) then
    do c1 <- jget c 1 ;;
    if jle (JNum x0) c1 then
      do c2 <- jget c 2 ;;
      match to_num c2 with
      | Some q => if Qeq_bool q (inject_Z y0) then Ok (Some c) else Ok None
      | None => Ok None
      end
    else Ok None
  else Ok None.
Fixpoint current_info (items : list (str * list (lane * list iv))) (x0 : Q) (y0 : Z) : res (option (str * jv)) :=
  match items with
  | [] => Ok None
  | (n, m) :: r =>
      do c <- candidate m x0 y0 ;;
      match c with Some v => Ok (Some (n, v)) | None => current_info r x0 y0 end
  end.

(** 119-132: the colours, and d3's ordinal scale on them.  [None] is [undefined]. *)
Definition colour_range (category20 : list str) (names : list str) (color_map : option (list (str * str))) : list str :=
  match color_map with
  | None => category20
  | Some m => flat_map (fun n => match dget eqs n m with Some c => [c] | None => [] end) names
  end.
Fixpoint position (n : str) (names : list str) : option nat :=
  match names with [] => None | k :: r => if eqs n k then Some 0 else option_map S (position n r) end.
Definition colour (category20 : list str) (names : list str) (color_map : option (list (str * str))) (n : str) : option str :=
  match position n names with
  | None => None
  | Some i => let r := colour_range category20 names color_map in
              match r with [] => None | _ => nth_error r (i mod List.length r) end
  end.

(** 105: the height of the main chart; 134-141: the scale of its rows *)
Definition main_height (lanes : nat) : Q := (50 * inject_Z (Z.of_nat lanes) - 15 - 15)%Q.
Definition y_main (lanes : nat) : scale := Scale 0 (inject_Z (Z.of_nat lanes)) 0 (main_height lanes).
(** 811-813: the width of a stroke *)
Definition stroke_width (y : scale) : Q := ((8 # 10) * sc y 1)%Q.
