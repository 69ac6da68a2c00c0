(** What a plot shows of the events printed in a report. *)
From Coq Require Import List Ascii String ZArith QArith Qcanon Bool.
From Verif Require Import Lib.PyStr Lib.F64 Model.Base Spec.Accessor Model.Solve Spec.Lines Spec.Parts Spec.Interval Spec.Classes Spec.Solve.
Import ListNotations.
Local Open Scope list_scope.

(** A way to go through the members of a set: each member, once (missing values may be there several times). *)
Definition Enumerates (order : list (option cell) -> list (option cell)) : Prop :=
  forall l, (forall v, In v (order l) <-> In v l) /\ NoDup (flat_map (fun c => match c with Some v => [v] | None => [] end) (order l)).
(** No colon at either end. *)
Definition no_colon_ends (s : str) : Prop := forall r, s <> ":"%char :: r /\ s <> r ++ [":"%char].

(** The label of a constraint; a trace without a name is called by its number. *)
Definition label_of (name : str) (k : nat) (template column : str) : str :=
  (if list_eq_dec ascii_dec name [] then $"Trace " ++ str_of_nat k else name) ++ $":" ++ template ++ $":" ++ column.

Section Series.
  Context (c : columns) (L : str -> nat) (shift : F64.float -> F64.float).
  Notation at_ := (fun m => time (shift (m_time m))).
  (** The window of a plot: from the last event at or before its start (there must be one) to the first one at or
      after its end, if there is one. *)
  Definition In_plot_window (win : option (Qc * Qc)) (ms : list mark) (m : mark) : Prop :=
    match win with
    | None => True
    | Some (a, b) =>
        (exists m', In m' ms /\ (at_ m' <= a)%Qc) /\
        (forall m', In m' ms -> (at_ m' <= a)%Qc -> (at_ m' <= at_ m)%Qc) /\
        (forall m', In m' ms -> (b <= at_ m')%Qc -> (at_ m <= at_ m')%Qc)
    end.
  (** In the window, and with wanted values in the filtered columns that some event has. *)
  Definition Plotted (win : option (Qc * Qc)) (filters : list (str * list cell)) (ms : list mark) (m : mark) : Prop :=
    In_plot_window win ms m /\
    forall col wanted, In (col, wanted) filters -> Has c L ms col -> exists v, CellIn c L m col v /\ In v wanted.
  (** The points of the events that satisfy [P]. *)
  Definition Point (col : str) (m : mark) (x : Qc * option cell) : Prop :=
    fst x = at_ m /\ forall v, snd x = Some v <-> CellIn c L m col v.
  Definition Series (P : mark -> Prop) (col : str) (ms : list mark) (s : list (Qc * option cell)) : Prop :=
    exists sel, Only P ms sel /\ Forall2 (Point col) sel s.
End Series.
