(** What the callbacks of a program see of a printed report. *)
From Coq Require Import List Ascii String ZArith Bool.
From Verif Require Import Lib.PyStr Lib.F64 Model.Base Model.Registry Model.Callbacks Spec.Lines Spec.Parts Spec.Interval Spec.Classes Spec.Solve.
Import ListNotations.
Local Open Scope list_scope.

(** The events of some attributes inside the windows, in the order of the report. *)
Definition asked (names : list str) (keep : float -> bool) (items : list entry) (us : list float) : list mark :=
  filter (fun m => existsb (eqs (m_attr m)) names && keep (m_time m)) (marked 0 items us).
(** The dictionary [d] tells about the event [m] of the class whose events are [ms]: what it printed, nan for what only others
    printed, and the time. *)
Definition Tells (c : columns) (L : str -> nat) (shift : float -> float) (ms : list mark) (m : mark) (d : list (str * cbval)) : Prop :=
  (forall col v, CellIn c L m col v -> dget eqs col d = Some (VCell v)) /\
  (forall col, Has c L ms col -> (forall v, ~ CellIn c L m col v) -> dget eqs col d = Some (VCell CNone)) /\
  (forall col, ~ Has c L ms col -> dget eqs col d = if eqs col $"Index" then Some (VTime (shift (m_time m))) else None).
