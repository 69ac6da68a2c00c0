(** What the power plots have to show. *)
From Coq Require Import List Ascii String ZArith NArith Bool Sorted.
From Verif Require Import Lib.PyStr Spec.Lines Model.Sysfs.
Import ListNotations.
Local Open Scope list_scope.

(** [k] is [l] without the elements that are not [P]. *)
Inductive Only {A} (P : A -> Prop) : list A -> list A -> Prop :=
| only_nil : Only P [] []
| only_keep a l k : P a -> Only P l k -> Only P (a :: l) (a :: k)
| only_drop a l k : ~ P a -> Only P l k -> Only P (a :: l) k.
(** [s] starts with [a], a number and [b]. *)
Definition Starts (a b s : str) : Prop := exists ds q, digits ds /\ s = a ++ ds ++ b ++ q.
Definition weight_name (n : str) : str := $"cdev" ++ n ++ $"_weight".
(** The weights of the devices numbered [ns] (numbers of one length, increasing) are [ws], and there are no others. *)
Definition Weights (params : list (str * param)) (ns : list str) (ws : list Z) : Prop :=
  NoDup (map fst params) /\
  Forall digits ns /\ (forall a b, In a ns -> In b ns -> List.length a = List.length b) /\
  StronglySorted (fun a b => (dec_val a < dec_val b)%N) ns /\
  (forall k, In k (map fst params) -> Starts $"cdev" $"_weight" k -> exists n, In n ns /\ k = weight_name n) /\
  Forall2 (fun n w => In (weight_name n, PInt w) params) ns ws.
(** Column, actor and weight of the same rank go together; the shortest list says how many there are. *)
Definition expected {V W} (scale : V -> Z -> W) (cs : list (str * list V)) (actors : list str) (ws : list Z) : list (str * list W) :=
  map (fun t => (fst (snd t), map (fun v => scale v (snd (snd t))) (snd (fst t)))) (combine cs (combine actors ws)).
