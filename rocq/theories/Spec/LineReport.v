(** What an interactive line plot draws of the events printed in a report. *)
From Coq Require Import List Ascii String ZArith QArith Qcanon Bool.
From Verif Require Import Lib.PyStr Lib.F64 Model.Base Spec.Accessor Model.Solve Spec.Lines Spec.Parts Spec.Interval Spec.Classes Spec.Solve
  Model.ConstraintReport Spec.ConstraintReport.
Import ListNotations.
Local Open Scope list_scope.

Section Curves.
  Context (c : columns) (L : str -> nat) (shift : F64.float -> F64.float) (ms : list mark).
  (** The point of an event: its time and the number it has in the column, or a gap. *)
  Definition NumPoint (col : str) (m : mark) (x : Qc * option Q) : Prop :=
    fst x = time (shift (m_time m)) /\
    ((exists z, CellIn c L m col (CInt z) /\ snd x = Some (inject_Z z)) \/ ((forall v, ~ CellIn c L m col v) /\ snd x = None)).
  (** Without a pivot all events are on one curve, otherwise those with the same value in the pivot column. *)
  Definition Picked (pivot : str) (v : cell) (m : mark) : Prop :=
    (pivot = PIVOT /\ v = CStr PIVOT_VAL) \/ (pivot <> PIVOT /\ CellIn c L m pivot v).
  Definition Curve (pivot : str) (win : option (Qc * Qc)) (filters : list (str * list cell)) (col : str) (v : cell) (s : list (Qc * option Q)) : Prop :=
    s <> [] /\ Has c L ms col /\
    exists sel, Only (fun m => Plotted c L shift win filters ms m /\ Picked pivot v m) ms sel /\ Forall2 (NumPoint col) sel s.
End Curves.
(** The curves of those that have one, under their names, in order. *)
Inductive Drawn {X S} (curve : X -> S -> Prop) (name : X -> str) : list X -> list (str * S) -> Prop :=
| drawn_nil : Drawn curve name [] []
| drawn_curve x xs s l : curve x s -> Drawn curve name xs l -> Drawn curve name (x :: xs) ((name x, s) :: l)
| drawn_none x xs l : (forall s, ~ curve x s) -> Drawn curve name xs l -> Drawn curve name (x :: xs) l.
