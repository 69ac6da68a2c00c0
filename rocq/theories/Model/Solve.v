(** What a parser of expressions is given by an FTrace (trappy/stats/grammar.py:335-353, 447-475, 531-558). *)
From Coq Require Import List Ascii String ZArith NArith QArith Qcanon Bool.
From Verif Require Import Lib.PyStr Lib.F64 Model.Base Model.Registry Model.Stats Model.Grammar Model.Accessor Model.PlotReport.
Import ListNotations.
Local Open Scope list_scope.

(** The attribute [pivot] of the classes that have one: cpu_power.py:108, 138; idle.py:26; pid_controller.py:32;
    raw_syscalls.py:25, 58; sched.py:33, 52, 66-69, 83, 129; thermal.py:39, 133.  The classes made for events
    that nobody registered (ftrace.py:371-377) have none. *)
Definition pivots : list (str * str) :=
  [ ($"CpuOutPower", $"cpus"); ($"CpuInPower", $"cpus"); ($"CpuIdle", $"cpu_id"); ($"PIDController", $"thermal_zone_id");
    ($"SysEnter", $"pid"); ($"SysExit", $"pid"); ($"SchedLoadAvgSchedGroup", $"cpus"); ($"SchedLoadAvgTask", $"pid");
    ($"SchedLoadAvgCpu", $"cpu"); ($"SchedCpuCapacity", $"cpu"); ($"SchedCpuFrequency", $"cpu"); ($"Thermal", $"id");
    ($"ThermalGovernor", $"thermal_zone_id") ].
Definition pivot_of (k : klass) : option str := dget eqs (k_pyname k) pivots.
(** What the grammar asks of a class (425-427, 485-486, 537): its name and its pivot. *)
Definition class_of (k : klass) : kls := Accessor.Kls (given_name k) (pivot_of k).

(** Times as the rationals they stand for. *)
Definition time (t : F64.float) : Qc := Q2Qc (fQ t).
Definition time_leb (a b : Qc) : bool := Qle_bool a b.
(** The order of [np.unique] of a column of objects in Python 2: numbers before texts, texts by their characters. *)
Fixpoint text_leb (a b : str) : bool :=
  match a, b with
  | [], _ => true
  | _ :: _, [] => false
  | x :: a', y :: b' => (N_of_ascii x <? N_of_ascii y)%N || ((N_of_ascii x =? N_of_ascii y)%N && text_leb a' b')
  end.
Definition cell_leb (a b : cell) : bool :=
  match a, b with
  | CNone, _ => true
  | CInt _, CNone => false
  | CInt x, CInt y => (x <=? y)%Z
  | CInt _, CStr _ => true
  | CStr x, CStr y => text_leb x y
  | CStr _, _ => false
  end.
(** A data frame: its columns are those of all rows (named once for each row here; only which columns there
    are matters). *)
Definition cell_value (c : cell) : option cell := match c with CNone => None | _ => Some c end.
Definition gframe_of (f : frame) : gframe Qc cell :=
  GFrame (flat_map (fun r => map fst (snd r)) f)
         (map (fun r => (time (fst r), map (fun kc => (fst kc, cell_value (snd kc))) (snd r))) f).
(** A parser made with a trace whose [class_definitions] are [defs]; [pvars] are the classes among its variables,
    and [attr] is what [str_to_attr] finds. *)
Definition world_of (defs : list (str * klass)) (frames : list (str * frame)) (pvars : str -> option kls) (attr : str -> res kls)
    (from to : option Qc) (filters : list (str * list cell)) (fill : bool) : world Qc cell :=
  World pvars (fun e => option_map class_of (dget eqs e defs)) attr
        (fun n => option_map gframe_of (dget eqs n frames)) from to filters fill.
