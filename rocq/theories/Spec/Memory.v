(** What the memory bookkeeping may do. *)
From Coq Require Import List Ascii String ZArith NArith Bool.
From Verif Require Import Lib.PyStr Model.Base Model.Memory.
Import ListNotations.
Local Open Scope list_scope.

(** The line the kernel prints. *)
Definition memfree_line (blanks : nat) (n : N) : str :=
  $"MemFree:" ++ repeat " "%char (S blanks) ++ str_of_N n ++ $" kB" ++ [nl].

Section Warnings.
  Variables (gdd : str -> res dict) (low : Z -> Z -> bool) (free : option Z) (start : Z) (rss : nat -> Z).
  (** Memory is looked at after the first row and then every 10000 rows. *)
  Definition Checked (i : nat) : Prop := exists n, i = n * (10 * (10 * (10 * 10))).
  Definition Low (i : nat) : Prop := exists f, free = Some f /\ f <> 0%Z /\ low (rss i - start)%Z f = true.
  (** The rows up to [i] can be parsed. *)
  Definition Upto (evs : list event) (i : nat) : Prop :=
    forall j, j <= i -> exists e d, nth_error evs j = Some e /\ row_dict gdd e = Ok d.
  (** The first check that finds little memory. *)
  Definition FirstLow (evs : list event) (i : nat) : Prop :=
    Checked i /\ Low i /\ Upto evs i /\ forall j, Checked j -> j < i -> ~ Low j.
End Warnings.

(** The number of different values. *)
Definition Distinct {V} (l : list V) (n : nat) : Prop :=
  exists u, NoDup u /\ List.length u = n /\ forall x, In x u <-> In x l.
