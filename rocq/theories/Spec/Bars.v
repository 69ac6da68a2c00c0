(** What a bar plot has to look like. *)
From Coq Require Import List ZArith QArith.
From Verif Require Import Model.Bars.
Import ListNotations.
Local Open Scope Q_scope.

(** The number at place [j] of series [i]. *)
Definition Value (ss : list (list Q)) (i j : nat) (v : Q) : Prop := exists s, nth_error ss i = Some s /\ nth_error s j = Some v.
(** The sum at place [j] of the series before [i]. *)
Definition Below (ss : list (list Q)) (i j : nat) (t : Q) : Prop :=
  t == fold_right Qplus 0 (map (fun s => nth j s 0) (firstn i ss)).
(** The bars stand one for one for the numbers of the series, as [Shape] says. *)
Definition Bars (ss : list (list Q)) (Shape : nat -> nat -> Q -> bar -> Prop) (bars : list bar) : Prop :=
  (forall b, In b bars -> exists i j v, Value ss i j v /\ Shape i j v b) /\
  (forall i j v, Value ss i j v -> exists b, In b bars /\ Shape i j v b) /\
  List.length bars = fold_right plus 0%nat (map (@List.length Q) ss).
Definition Apart (b c : bar) : Prop := b_x b + b_width b <= b_x c \/ b_x c + b_width c <= b_x b.
