(** Model of trappy/plotter/ColorMap.py:40-84 and of the parts of matplotlib it uses. *)
From Coq Require Import List ZArith NArith Bool.
From Flocq Require Import Core BinarySingleNaN.
From Verif Require Import Lib.F64.
Import ListNotations.

Definition fmul (a b : float) : float := Bmult mode_NE a b.

(** matplotlib.colors.Colormap.__call__ for a number that is not negative: the entry of a table of [size]
    colours is the whole part of [x * size], and the last one for anything from 1 on. *)
Definition entry (size : N) (x : float) : Z := Z.min (Btrunc (fmul x (f_of_N size))) (Z.of_N size - 1).
(** matplotlib.colors.Normalize(vmin=0, vmax=top): [i / top] as doubles, 0 if [top] is 0. *)
Definition normalize (top i : N) : float := match top with N0 => fzero | Npos d => f_of_ratio i d end.

Section Map.
  Context {C : Type}.
  (** 40-50 [__init__]: the number of colours asked for and the table of colours *)
  Record colormap := CMap { num_colors : N; table : list C }.
  (** 52-59 [cmap] *)
  Definition cmap (m : colormap) (i : N) : option C :=
    nth_error (table m) (Z.to_nat (entry (N.of_nat (length (table m))) (normalize (num_colors m) i))).
  (** 61-68 [cmap_inv]; a negative difference has the first colour, like zero *)
  Definition cmap_inv (m : colormap) (i : N) : option C := cmap m (num_colors m - i)%N.
End Map.
Arguments colormap : clear implicits.
(** 81: the first three numbers of a colour, over 255 *)
Definition fraction (c : N) : float := f_of_ratio c 255.
Definition shown (rgb : list N) : list float := map fraction (firstn 3 rgb).
(** 71-84 [rgb_cmap] *)
Definition rgb_cmap (colours : list (list N)) : colormap (list float) :=
  CMap (N.of_nat (length colours)) (map shown colours).
