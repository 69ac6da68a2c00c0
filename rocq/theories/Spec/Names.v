(** CamelCase words and their underscore form. *)
From Coq Require Import List Ascii String ZArith NArith Bool.
From Verif Require Import Lib.PyStr Model.Registry Model.Builtin.
Import ListNotations.

(** The small letter of a capital of Latin-1, any other character itself. *)
Definition letters : list (ascii * ascii) :=
  combine (list_ascii_of_string "ABCDEFGHIJKLMNOPQRSTUVWXYZ") (list_ascii_of_string "abcdefghijklmnopqrstuvwxyz") ++
  map (fun n => (ascii_of_nat n, ascii_of_nat (n + 32))) (seq 192 23 ++ seq 216 7).
Definition small_letter (c : ascii) : ascii := match find (fun p => Ascii.eqb (fst p) c) letters with Some p => snd p | None => c end.
(** A capitalised word: one ASCII capital, then characters that are neither
    capitals nor changed by lower(). *)
Definition cap_word (w : str) : Prop :=
  exists c r, w = c :: r /\ is_upper c = true /\ Forall (fun x => is_upper x = false /\ small_letter x = x) r.
Definition long_word (w : str) : Prop := cap_word w /\ (2 <= List.length w)%nat.
Definition lower_word (w : str) : str := map small_letter w.

(** A run of capitals followed by other characters. *)
Definition run (b : str * str) : Prop :=
  fst b <> [] /\ Forall (fun x => is_upper x = true) (fst b) /\ snd b <> [] /\ Forall (fun x => is_upper x = false) (snd b).

(** The built-in classes as they are after registration. *)
Definition builtins : list klass := map (fun e => named (fst e)) builtin_regs.
(** A registry holding no class but built-in ones. *)
Definition only_builtin (r : registry) : Prop :=
  forall d n k, In d [r_thermal r; r_sched r; r_dynamic r] -> In (n, k) d -> In k builtins.

(** The events trappy knows, as its users see them: attribute of the trace, word in the line, class, scope.
    (Collected from the text of the classes and of the calls that register them.) *)
Definition events_table : list (str * str * str * str) :=
  [ ($"clock_enable", $"clock_enable:", $"CommonClkEnable", $"all");
    ($"clock_disable", $"clock_disable:", $"CommonClkDisable", $"all");
    ($"clock_set_rate", $"clock_set_rate:", $"CommonClkSetRate", $"all");
    ($"cpu_out_power", $"thermal_power_cpu_limit", $"CpuOutPower", $"thermal");
    ($"cpu_in_power", $"thermal_power_cpu_get_power", $"CpuInPower", $"thermal");
    ($"devfreq_in_power", $"thermal_power_devfreq_get_power:", $"DevfreqInPower", $"thermal");
    ($"devfreq_out_power", $"thermal_power_devfreq_limit:", $"DevfreqOutPower", $"thermal");
    ($"tracing_mark_write", $"tracing_mark_write:", $"TracingMarkWrite", $"all");
    ($"ext4_da_write_begin", $"ext4_da_write_begin:", $"FilesystemExt4DaWriteBegin", $"all");
    ($"ext4_da_write_end", $"ext4_da_write_end:", $"FilesystemExt4DaWriteEnd", $"all");
    ($"ext4_sync_file_enter", $"ext4_sync_file_enter:", $"FilesystemExt4SyncFileEnter", $"all");
    ($"ext4_sync_file_exit", $"ext4_sync_file_exit:", $"FilesystemExt4SyncFileExit", $"all");
    ($"f2fs_write_begin", $"f2fs_write_begin:", $"FilesystemF2FSWriteBegin", $"all");
    ($"f2fs_write_end", $"f2fs_write_end:", $"FilesystemF2FSWriteEnd", $"all");
    ($"f2fs_sync_file_enter", $"f2fs_sync_file_enter:", $"FilesystemF2FSSyncFileEnter", $"all");
    ($"f2fs_sync_file_exit", $"f2fs_sync_file_exit:", $"FilesystemF2FSSyncFileExit", $"all");
    ($"function", $"function", $"FunctionTracer", $"all");
    ($"funcgraph_entry", $"funcgraph_entry", $"FuncgraphEntry", $"all");
    ($"funcgraph_exit", $"funcgraph_exit", $"FuncgraphExit", $"all");
    ($"cpu_idle", $"cpu_idle", $"CpuIdle", $"all");
    ($"pid_controller", $"thermal_power_allocator_pid", $"PIDController", $"thermal");
    ($"sys_enter", $"sys_enter", $"SysEnter", $"all");
    ($"sys_exit", $"sys_exit", $"SysExit", $"all");
    ($"sched_load_avg_sg", $"sched_load_avg_sg:", $"SchedLoadAvgSchedGroup", $"sched");
    ($"sched_load_avg_task", $"sched_load_avg_task:", $"SchedLoadAvgTask", $"sched");
    ($"sched_load_avg_cpu", $"sched_load_avg_cpu:", $"SchedLoadAvgCpu", $"sched");
    ($"sched_contrib_scale_factor", $"sched_contrib_scale_f:", $"SchedContribScaleFactor", $"sched");
    ($"cpu_capacity", $"cpu_capacity:", $"SchedCpuCapacity", $"sched");
    ($"sched_wakeup", $"sched_wakeup:", $"SchedWakeup", $"sched");
    ($"sched_wakeup_new", $"sched_wakeup_new:", $"SchedWakeupNew", $"sched");
    ($"sched_switch", $"sched_switch:", $"SchedSwitch", $"sched");
    ($"cpu_frequency", $"cpu_frequency:", $"SchedCpuFrequency", $"sched");
    ($"sched_migrate_task", $"sched_migrate_task:", $"SchedMigrateTask", $"sched");
    ($"thermal", $"thermal_temperature:", $"Thermal", $"thermal");
    ($"thermal_governor", $"thermal_power_allocator:", $"ThermalGovernor", $"thermal") ].
(** What a trace of a scope has under an attribute, and whether the class is a fallback: only marks are. *)
Definition offered (scope own : str) : bool :=
  negb (eqs scope $"custom") && (eqs own $"all" || eqs scope own || negb (existsb (eqs scope) [$"thermal"; $"sched"])).
Definition known_class (scope a : str) : option (str * str * bool) :=
  match find (fun e => eqs a (fst (fst (fst e))) && offered scope (snd e)) events_table with
  | Some (_, w, c, _) => Some (w, c, eqs a $"tracing_mark_write")
  | None => None
  end.
