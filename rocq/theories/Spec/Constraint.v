(** What a constraint selects. *)
From Coq Require Import List Ascii String ZArith Bool Sorted Permutation.
From Verif Require Import Lib.PyStr Lib.TotalOrder Model.Stats Model.Accessor Spec.Accessor Model.Constraint.
Import ListNotations.
Local Open Scope list_scope.

Section Spec.
  Context {T V : Type} (leb : T -> T -> bool).
  Notation row := (T * list (str * option V))%type.
  Notation le := (fun a b => leb a b = true).
  (** The row's cells of the filtered columns that the frame has are wanted. *)
  Definition Wanted (filters : list (str * list V)) (cols : list str) (r : row) : Prop :=
    forall c wanted, In (c, wanted) filters -> In c cols -> exists v, gcell c r = Some v /\ In v wanted.
  (** The rows of a pivot value: they are wanted and have that value. *)
  Definition Mine (pivot : str) (v : V) (filters : list (str * list V)) (cols : list str) (r : row) : Prop :=
    Wanted filters cols r /\ gcell pivot r = Some v.
  (** [s] is the column of the rows that satisfy [P]. *)
  Definition Column (P : row -> Prop) (c : str) (rows : list row) (s : list (T * option V)) : Prop :=
    exists sel, Only P rows sel /\ s = map (fun r => (fst r, gcell c r)) sel.
  (** A window: the rows between the last one at or before its start and the first
      one at or after its end (all rows to the end if there is none). *)
  Definition In_window (a b : T) (rows : list row) (r : row) : Prop :=
    (forall r', In r' rows -> le (fst r') a -> le (fst r') (fst r)) /\
    (forall r', In r' rows -> le b (fst r') -> le (fst r) (fst r')).
End Spec.

(** The [i]-th member of a list, or its only one. *)
Definition nth_or_only {X} (l : list X) (i : nat) (x : X) : Prop := l = [x] \/ nth_error l i = Some x.
