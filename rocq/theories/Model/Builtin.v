(** The event classes trappy registers when it is imported. *)
From Coq Require Import List Ascii String ZArith NArith Bool.
From Verif Require Import Lib.PyStr Model.Registry.
Import ListNotations.

(** dynamic.py:72-124 [register_dynamic_ftrace]: the class it creates. *)
Definition dynamic_class (id : N) (class_name word : str) : klass :=
  Kls id word (Some (get_name class_name)) class_name false.

(** (class, scope) for each registration in /repo/trappy/*.py.  The order is that
    of os.listdir (trappy/__init__.py:49-53), which is unspecified; no theorem
    depends on it. *)
Definition builtin_regs : list (klass * str) :=
  [ (* common_clk.py:36-61 *)
    (Kls 1 $"clock_enable:" None $"CommonClkEnable" false, $"all");
    (Kls 2 $"clock_disable:" None $"CommonClkDisable" false, $"all");
    (Kls 3 $"clock_set_rate:" None $"CommonClkSetRate" false, $"all");
    (* cpu_power.py:98-200 *)
    (Kls 4 $"thermal_power_cpu_limit" (Some $"cpu_out_power") $"CpuOutPower" false, $"thermal");
    (Kls 5 $"thermal_power_cpu_get_power" (Some $"cpu_in_power") $"CpuInPower" false, $"thermal");
    (* devfreq_power.py:28-77 *)
    (Kls 6 $"thermal_power_devfreq_get_power:" (Some $"devfreq_in_power") $"DevfreqInPower" false, $"thermal");
    (Kls 7 $"thermal_power_devfreq_limit:" (Some $"devfreq_out_power") $"DevfreqOutPower" false, $"thermal");
    (* fallback.py:47-50 *)
    (Kls 8 $"tracing_mark_write:" None $"TracingMarkWrite" true, $"all");
    (* filesystem.py:40-116 *)
    (Kls 9 $"ext4_da_write_begin:" None $"FilesystemExt4DaWriteBegin" false, $"all");
    (Kls 10 $"ext4_da_write_end:" None $"FilesystemExt4DaWriteEnd" false, $"all");
    (Kls 11 $"ext4_sync_file_enter:" None $"FilesystemExt4SyncFileEnter" false, $"all");
    (Kls 12 $"ext4_sync_file_exit:" None $"FilesystemExt4SyncFileExit" false, $"all");
    (Kls 13 $"f2fs_write_begin:" None $"FilesystemF2FSWriteBegin" false, $"all");
    (Kls 14 $"f2fs_write_end:" None $"FilesystemF2FSWriteEnd" false, $"all");
    (Kls 15 $"f2fs_sync_file_enter:" None $"FilesystemF2FSSyncFileEnter" false, $"all");
    (Kls 16 $"f2fs_sync_file_exit:" None $"FilesystemF2FSSyncFileExit" false, $"all");
    (* function.py:20-28, function_graph.py:20-36 *)
    (Kls 17 $"function" None $"FunctionTracer" false, $"all");
    (Kls 18 $"funcgraph_entry" None $"FuncgraphEntry" false, $"all");
    (Kls 19 $"funcgraph_exit" None $"FuncgraphExit" false, $"all");
    (* idle.py:22-35 *)
    (Kls 20 $"cpu_idle" None $"CpuIdle" false, $"all");
    (* pid_controller.py:25-63 *)
    (Kls 21 $"thermal_power_allocator_pid" (Some $"pid_controller") $"PIDController" false, $"thermal");
    (* raw_syscalls.py:21-82 *)
    (Kls 22 $"sys_enter" None $"SysEnter" false, $"all");
    (Kls 23 $"sys_exit" None $"SysExit" false, $"all");
    (* sched.py:25-142 *)
    (Kls 24 $"sched_load_avg_sg:" None $"SchedLoadAvgSchedGroup" false, $"sched");
    (Kls 25 $"sched_load_avg_task:" None $"SchedLoadAvgTask" false, $"sched");
    (dynamic_class 26 $"SchedLoadAvgCpu" $"sched_load_avg_cpu:", $"sched");
    (dynamic_class 27 $"SchedContribScaleFactor" $"sched_contrib_scale_f:", $"sched");
    (Kls 28 $"cpu_capacity:" None $"SchedCpuCapacity" false, $"sched");
    (dynamic_class 29 $"SchedWakeup" $"sched_wakeup:", $"sched");
    (dynamic_class 30 $"SchedWakeupNew" $"sched_wakeup_new:", $"sched");
    (Kls 31 $"sched_switch:" None $"SchedSwitch" false, $"sched");
    (Kls 32 $"cpu_frequency:" None $"SchedCpuFrequency" false, $"sched");
    (dynamic_class 33 $"SchedMigrateTask" $"sched_migrate_task:", $"sched");
    (* thermal.py:29-313 *)
    (Kls 34 $"thermal_temperature:" (Some $"thermal") $"Thermal" false, $"thermal");
    (Kls 35 $"thermal_power_allocator:" (Some $"thermal_governor") $"ThermalGovernor" false, $"thermal") ].

(** The registrations performed in a given order. *)
Fixpoint register_all (r : registry) (regs : list (klass * str)) : res registry :=
  match regs with
  | [] => Ok r
  | (k, scope) :: rest => do r' <- register r k scope ;; register_all r' rest
  end.
