(** Model of trappy/stats/Topology.py. *)
From Coq Require Import List Ascii String ZArith Bool.
From Verif Require Import Lib.PyStr.
Import ListNotations.
Local Open Scope list_scope.

Section Topology.
  (** Nodes.  [enum] is the order in which Python enumerates the set of nodes, a
      function of the order of insertion. *)
  Context {A : Type} (aeq : A -> A -> bool) (enum : list A -> list A).
  Record topology := Topo { t_levels : list (str * list (list A)); t_nodes : list A }.

  Definition add_node (ns : list A) (a : A) : list A := if existsb (aeq a) ns then ns else ns ++ [a].
  (** Topology.py:85-105 [add_to_level] *)
  Definition add_to_level (name : str) (vals : list (list A)) (t : topology) : topology :=
    let old := match dget eqs name (t_levels t) with Some gs => gs | None => [] end in
    Topo (dset eqs name (old ++ vals) (t_levels t)) (fold_left add_node (List.concat vals) (t_nodes t)).
  (** 158-162 *)
  Definition flatten (t : topology) : list A := enum (t_nodes t).
  (** 66-75 [__init__] *)
  Definition topology_new (clusters : list (list A)) : topology :=
    match clusters with
    | [] => Topo [] []
    | _ => let t := add_to_level $"cluster" clusters (Topo [] []) in
           add_to_level $"cpu" (map (fun a => [a]) (flatten t)) t
    end.
  (** 107-118 [get_level] *)
  Definition get_level (t : topology) (name : str) : res (list (list A)) :=
    if eqs name $"all" then Ok [flatten t]
    else match dget eqs name (t_levels t) with Some gs => Ok gs | None => Err EKey end.
  (** 120-138 [get_index]; [list.index] *)
  Fixpoint geq (a b : list A) : bool :=
    match a, b with
    | [], [] => true
    | x :: a', y :: b' => aeq x y && geq a' b'
    | _, _ => false
    end.
  Fixpoint index_of (g : list A) (gs : list (list A)) : res Z :=
    match gs with
    | [] => Err EValue
    | h :: r => if geq h g then Ok 0%Z else do i <- index_of g r ;; Ok (i + 1)%Z
    end.
  Definition get_index (t : topology) (name : str) (g : list A) : res Z :=
    do gs <- get_level t name ;; index_of g gs.
  (** 140-153 [get_node]; a negative index counts from the end. *)
  Definition py_nth {B} (l : list B) (i : Z) : res B :=
    let n := Z.of_nat (List.length l) in
    let j := if (i <? 0)%Z then (i + n)%Z else i in
    if (j <? 0)%Z then Err EIndex
    else match nth_error l (Z.to_nat j) with Some b => Ok b | None => Err EIndex end.
  Definition get_node (t : topology) (name : str) (i : Z) : res (list A) :=
    do gs <- get_level t name ;; py_nth gs i.
  (** 164-173 [level_span] *)
  Definition level_span (t : topology) (name : str) : res nat :=
    if eqs name $"all" then Ok (List.length (t_nodes t))
    else match dget eqs name (t_levels t) with Some gs => Ok (List.length gs) | None => Err EKey end.
  (** 175-182 [has_level] *)
  Definition has_level (t : topology) (name : str) : bool := dmem eqs name (t_levels t).
End Topology.
