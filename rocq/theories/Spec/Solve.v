(** What the events printed in a report say about a column. *)
From Coq Require Import List Ascii String ZArith NArith QArith Qcanon Bool.
From Verif Require Import Lib.PyStr Lib.F64 Model.Base Model.Registry Model.Solve Spec.Lines Spec.Parts Spec.Interval Spec.Classes.
Import ListNotations.
Local Open Scope list_scope.

(** [v] is what an event has in a column: a printed field found there, or else a part of the line. *)
Definition CellIn (c : columns) (L : str -> nat) (m : mark) (col : str) (v : cell) : Prop :=
  (exists key P u, In (key, P) (text_cells L (m_text m)) /\ column c key = col /\ P u /\ v = shown c key u) \/
  (~ In col (map (fun x => column c (fst x)) (text_cells L (m_text m))) /\
   exists u, meta_cell (mark_event m) col = Some u /\ v = shown c col u).
(** The events of an attribute inside the windows of a trace. *)
Definition events_of (a : str) (keep : F64.float -> bool) (items : list entry) (us : list F64.float) : list mark :=
  filter (fun m => eqs a (m_attr m) && keep (m_time m)) (marked 0 items us).
Section Rows.
  Context (c : columns) (L : str -> nat) (shift : F64.float -> F64.float).
  (** Some event has something in the column. *)
  Definition Has (ms : list mark) (col : str) : Prop := exists m v, In m ms /\ CellIn c L m col v.
  (** The event is in the window of the parser, and its cells in the filtered columns are among the wanted. *)
  Definition Wanted (ms : list mark) (from to : option Qc) (filters : list (str * list cell)) (m : mark) : Prop :=
    (forall t, from = Some t -> (t <= time (shift (m_time m)))%Qc) /\ (forall t, to = Some t -> (time (shift (m_time m)) <= t)%Qc) /\
    forall col wanted, In (col, wanted) filters -> Has ms col -> exists v, CellIn c L m col v /\ In v wanted.
  (** Its row: time, value in the pivot column if there is a pivot, value in the column if it has one. *)
  Definition RowOf (pivot : option str) (col : str) (m : mark) (row : Qc * option cell * option cell) : Prop :=
    fst (fst row) = time (shift (m_time m)) /\
    match pivot with None => snd (fst row) = None | Some p => exists v, snd (fst row) = Some v /\ CellIn c L m p v end /\
    forall v, snd row = Some v <-> CellIn c L m col v.
  (** Events of different times, and either all have something in the pivot column or none. *)
  Definition Distinct (ms : list mark) : Prop := NoDup (map (fun m => time (shift (m_time m))) ms).
  Definition AllOrNone (pivot : option str) (ms : list mark) : Prop :=
    forall p m, pivot = Some p -> Has ms p -> In m ms -> exists v, CellIn c L m p v.
End Rows.
(** The classes that expressions can name otherwise than by the trace are classes of the trace, as far as the
    trace has data for them. *)
Definition Ours (defs : list (str * klass)) (pvars : str -> option Accessor.kls) (attr : str -> res Accessor.kls) : Prop :=
  forall e k, pvars e = Some k \/ attr e = Ok k -> (exists a, In a (map fst defs) /\ a = Accessor.k_name k) ->
  exists a k', In (a, k') defs /\ k = class_of k'.
(** The column whose values separate the series of a class, by python name. *)
Definition by_pivot : list (str * list str) :=
  [ ($"id", [$"Thermal"]); ($"thermal_zone_id", [$"ThermalGovernor"; $"PIDController"]);
    ($"cpus", [$"CpuInPower"; $"CpuOutPower"; $"SchedLoadAvgSchedGroup"]); ($"cpu_id", [$"CpuIdle"]);
    ($"cpu", [$"SchedLoadAvgCpu"; $"SchedCpuCapacity"; $"SchedCpuFrequency"]); ($"pid", [$"SchedLoadAvgTask"; $"SysEnter"; $"SysExit"]) ].
