(** An interactive line plot of several written reports. *)
From Coq Require Import List Ascii String ZArith QArith Qcanon Bool Sorted.
From Verif Require Import Lib.PyStr Lib.F64 Model.Base Model.Registry Spec.Accessor Model.Constraint Spec.Constraint Model.Solve Model.Events Model.Classes Spec.Lines Spec.Parts Spec.Interval Spec.Classes Spec.Solve
  Model.ConstraintReport Spec.ConstraintReport Spec.LineReport.
Import ListNotations.
Local Open Scope list_scope.

(** What was printed in the report of a trace: its classes, the events of each attribute, the lengths of their arrays, and
    what the times are shifted by. *)
Record writing := Writing { wr_defs : list (str * klass); wr_marks : str -> list mark; wr_len : str -> str -> nat; wr_shift : F64.float -> F64.float }.
Definition Shows (w : writing) (frames : list (str * frame)) : Prop :=
  (forall a k, In (a, k) (wr_defs w) -> given_name k = a /\
     exists fr, dget eqs a frames = Some fr /\ Forall2 (row_shows (snd (kind_of k)) (wr_len w a) (wr_shift w)) (wr_marks w a) fr) /\
  forall a, StronglySorted (fun x y => (time (wr_shift w (m_time x)) <= time (wr_shift w (m_time y)))%Qc) (wr_marks w a).
(** A line of a plot: the name of its trace and its number, the report, and the event with its class and the column. *)
Record line := Line { ln_name : str; ln_num : nat; ln_report : writing; ln_event : str; ln_class : klass; ln_column : str }.
Definition ln_label (l : line) : str := label_of (ln_name l) (ln_num l) (ln_event l) (ln_column l).
Definition ln_curve (pivot : str) (win : option (Qc * Qc)) (filters : list (str * list cell)) (l : line) : cell -> list (Qc * option Q) -> Prop :=
  Curve (snd (kind_of (ln_class l))) (wr_len (ln_report l) (ln_event l)) (wr_shift (ln_report l)) (wr_marks (ln_report l) (ln_event l)) pivot win filters (ln_column l).
(** Events at different times, none with the default in the pivot column, all with integers or nothing in the column. *)
Definition Regular (pivot : str) (l : line) : Prop :=
  let w := ln_report l in let ms := wr_marks w (ln_event l) in
  Distinct (wr_shift w) ms /\ forall m, In m ms ->
    ~ CellIn (snd (kind_of (ln_class l))) (wr_len w (ln_event l)) m pivot (CStr PIVOT_VAL) /\
    forall v, CellIn (snd (kind_of (ln_class l))) (wr_len w (ln_event l)) m (ln_column l) v -> exists z, v = CInt z.
(** The lines of traces and signals (event and column), paired; one trace, or one signal, goes with all others. *)
Definition Lines (traces : list (str * writing)) (signals : list (str * str)) (ls : list line) : Prop :=
  let m := Nat.max (List.length traces) (List.length signals) in
  List.length ls = m /\ forall i l, nth_error ls i = Some l ->
    nth_or_only traces i (ln_name l, ln_report l) /\ nth_or_only signals i (ln_event l, ln_column l) /\
    In (ln_event l, ln_class l) (wr_defs (ln_report l)) /\ ln_num l = if Nat.eqb (List.length traces) m then i else 0%nat.
