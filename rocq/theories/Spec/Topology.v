(** A topology described by the calls that built it. *)
From Coq Require Import List Ascii String ZArith Bool Permutation.
From Verif Require Import Lib.PyStr Model.Topology.
Import ListNotations.
Local Open Scope list_scope.

Section Spec.
  Context {A : Type} (aeq : A -> A -> bool) (enum : list A -> list A).
  (** Python enumerates a set in some order, each element once. *)
  Definition enumerates : Prop := forall l, NoDup l -> Permutation (enum l) l.
  Definition built (clusters : list (list A)) (calls : list (str * list (list A))) : topology :=
    fold_left (fun t c => add_to_level aeq (fst c) (snd c) t) calls (topology_new aeq enum clusters).
  (** The groups given to [name] by the calls, in order. *)
  Inductive Groups (name : str) : list (str * list (list A)) -> option (list (list A)) -> Prop :=
  | G_nil : Groups name [] None
  | G_other n vals calls gs : n <> name -> Groups name calls gs -> Groups name ((n, vals) :: calls) gs
  | G_first vals calls : Groups name calls None -> Groups name ((name, vals) :: calls) (Some vals)
  | G_more vals calls gs : Groups name calls (Some gs) -> Groups name ((name, vals) :: calls) (Some (vals ++ gs)).
  (** The calls the constructor makes: [singles] has each node of the clusters once. *)
  Definition initial (clusters singles : list (list A)) : list (str * list (list A)) :=
    match clusters with [] => [] | _ => [($"cluster", clusters); ($"cpu", singles)] end.
  Definition singles_of (clusters singles : list (list A)) : Prop :=
    exists ns, singles = map (fun a => [a]) ns /\ NoDup ns /\ forall a, In a ns <-> In a (List.concat clusters).
End Spec.
