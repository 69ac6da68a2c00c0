(** Which columns a figure of input and output power is made of. *)
From Coq Require Import List Ascii String ZArith QArith Bool.
From Verif Require Import Lib.PyStr.
Import ListNotations.
Local Open Scope list_scope.

(** [c] is the column of the input power of actor [a]: the longest name that fits; anything may follow. *)
Definition names (c a : str) : Prop := (exists rest, c = $"P" ++ a ++ $"_in" ++ rest) /\ ~ In nl a.
Definition Input (c a : str) : Prop :=
  c <> $"Ptot_in" /\ names c a /\ forall a', names c a' -> (List.length a' <= List.length a)%nat.
(** The actors of some columns, in their order. *)
Inductive Actors : list str -> list str -> Prop :=
| Actors_nil : Actors [] []
| Actors_in c cs a l : Input c a -> Actors cs l -> Actors (c :: cs) (a :: l)
| Actors_out c cs l : (forall a, ~ Input c a) -> Actors cs l -> Actors (c :: cs) l.
