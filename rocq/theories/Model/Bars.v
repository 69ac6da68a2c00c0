(** Model of trappy/plotter/BarPlot.py:88-123 [plot_axis].  Numbers are rationals in place of doubles. *)
From Coq Require Import List ZArith QArith Bool.
From Verif Require Import Lib.PyStr.
Import ListNotations.
Local Open Scope list_scope.

(** A bar: series, left end (or middle, the same for all), width, bottom and height. *)
Record bar := Bar { b_series : nat; b_x : Q; b_width : Q; b_bottom : Q; b_height : Q }.
(** Arrays of unequal length: only one of a single element is extended. *)
Definition broadcast {A B} (l : list A) (k : list B) : res (list (A * B)) :=
  if Nat.eqb (List.length l) (List.length k) then Ok (combine l k)
  else match l, k with
       | [a], _ => Ok (map (fun b => (a, b)) k)
       | _, [b] => Ok (map (fun a => (a, b)) l)
       | _, _ => Err EValue
       end.
Definition of_nat (n : nat) : Q := inject_Z (Z.of_nat n).
(** 100-121: the bars of the series from number [i] on; [ends] is [end_of_previous].  The first bar goes to the legend. *)
Fixpoint draw (stacked : bool) (w : Q) (i : nat) (ends : list Q) (ss : list (list Q)) : res (list bar) :=
  match ss with
  | [] => Ok []
  | s :: ss' =>
      let anchors := map of_nat (seq 0 (List.length s)) in
      let anchors := if stacked then anchors else map (fun a => a + of_nat i * w)%Q anchors in
      do b <- broadcast (combine anchors s) ends ;;
      let bars := map (fun xve => Bar i (fst (fst xve)) w (snd xve) (snd (fst xve))) b in
      match bars with
      | [] => Err EIndex
      | _ => let ends := if stacked then map (fun p => (fst p + snd p)%Q) (combine ends s) else ends in
             do r <- draw stacked w (S i) ends ss' ;; Ok (bars ++ r)
      end
  end.
(** 88-123 *)
Definition plot_axis (stacked : bool) (spacing : Q) (ss : list (list Q)) : res (list bar) :=
  match ss with
  | [] => if stacked then Err EValue else Err EZeroDiv
  | _ =>
      let bars_in_group := if stacked then 1%nat else List.length ss in
      let w := ((1 - spacing) / of_nat bars_in_group)%Q in
      draw stacked w 0 (repeat 0%Q (fold_right Nat.max 0%nat (map (@List.length Q) ss))) ss
  end.
