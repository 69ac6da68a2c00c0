(** The first occurrences, in order, of what satisfies [P]. *)
From Coq Require Import List Ascii String ZArith NArith Bool Sorting.Sorted.
From Verif Require Import Lib.PyStr Lib.F64 Model.Base Spec.Payload Spec.Parts Spec.Classes.
Import ListNotations.
Local Open Scope list_scope.

Definition FirstOnes {A} (P : A -> Prop) (xs l : list A) : Prop :=
  exists idx, StronglySorted lt idx /\
    Forall2 (fun i x => nth_error xs i = Some x /\ P x /\ forall j, j < i -> nth_error xs j <> Some x) idx l /\
    forall x, In x xs -> P x -> In x l.
(** A payload that prints the name and the number of a task. *)
Definition prints_task (t : text) (name : str) (pid : Z) : Prop :=
  exists ps v more p, t = TFields ps /\ In (PF (Grp $"comm" v more)) ps /\ In (PF (Grp $"pid" p [])) ps /\
    (forall z, ~ int_literal v z) /\ name = join $" " (v :: more) /\ int_literal p pid.
