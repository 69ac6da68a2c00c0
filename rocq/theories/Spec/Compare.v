(** Where the plots of a comparison of runs have to be. *)
From Coq Require Import List Ascii String Arith.
From Verif Require Import Lib.PyStr Model.Compare.
Import ListNotations.
Local Open Scope list_scope.

(** Run number [j] owns column [j]; its plot [p] is in row [k] as [At] says.  No axis is used twice. *)
Definition InColumns {R} (runs : list R) (At : R -> nat -> plot -> Prop) (out : list (drawing R)) : Prop :=
  (forall k j r p, In ((k, j), r, p) out <-> nth_error runs j = Some r /\ At r k p) /\
  NoDup (map (fun d => fst (fst d)) out).
