(** What an expression over added events should be. *)
From Coq Require Import List Ascii String Bool Arith.
From Verif Require Import Lib.PyStr Model.Bare.
Import ListNotations.
Local Open Scope list_scope.

Section Added.
  Context {T : Type} (leb : T -> T -> bool).
  (** Two programs that do the same, except for the pivots they name. *)
  Definition SameButPivot (o o' : op T) : Prop :=
    match o, o' with
    | Add n f _, Add n' f' _ => n = n' /\ f = f'
    | Normalize b, Normalize b' => b = b'
    | _, _ => False
    end.
  (** A table: every column has a name of its own, and a value for each time. *)
  Definition Square (f : frame T) : Prop :=
    NoDup (map fst (fr_cols f)) /\ forall c vals, In (c, vals) (fr_cols f) -> List.length vals = List.length (fr_index f).
  (** The row at a position is in the window, and the filters on columns of the frame allow its values. *)
  Definition Inside (from to : option T) (filters : list (str * list T)) (times : list T) (cols : list (str * list T)) (i : nat) : Prop :=
    exists t, nth_error times i = Some t /\ (forall a, from = Some a -> leb a t = true) /\ (forall b, to = Some b -> leb t b = true) /\
    forall c wanted vals, In (c, wanted) filters -> In (c, vals) cols -> exists v, nth_error vals i = Some v /\ In v wanted.
End Added.
