(** The switches printed in a report. *)
From Coq Require Import List Ascii String ZArith NArith QArith Bool.
From Verif Require Import Lib.PyStr Lib.F64 Model.Base Model.Residency Model.PlotReport Spec.Lines Spec.Events Spec.Interval Spec.Classes.
Import ListNotations.
Local Open Scope list_scope.

(** The switch an event stands for, with its time moved by [shift]. *)
Definition printed_switch (shift : F64.float -> F64.float) (m : mark) : list (switch Q) :=
  match m_text m with
  | TSwitch p _ n => [Switch (fQ (shift (m_time m))) (sw_pid p) (sw_pid n) (CStr (name_text (sw_comm n))) (Z.of_N (dec_val (l_cpu (m_line m))))]
  | _ => []
  end.
(** Those of an attribute that are inside the windows. *)
Definition printed_switches (a : str) (shift : F64.float -> F64.float) (keep : F64.float -> bool) (items : list entry) (us : list F64.float) : list (switch Q) :=
  flat_map (printed_switch shift) (filter (fun m => eqs a (m_attr m) && keep (m_time m)) (marked 0 items us)).
