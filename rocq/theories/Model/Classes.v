(** The frame that each of the event classes of trappy makes of its events
    (bare_trace.py:138-145: [create_dataframe], then [finalize_object]). *)
From Coq Require Import List Ascii String ZArith NArith Bool.
From Verif Require Import Lib.PyStr Lib.F64 Model.Base Model.Registry Model.Events.
Import ListNotations.
Local Open Scope list_scope.

(** What a class has of its own: a change of the payloads at the start of
    [create_dataframe], [generate_data_dict], [finalize_object]. *)
Record style := Style { y_text : str -> res str; y_dict : str -> res dict; y_final : frame -> frame }.
(** base.py:209-235, 237-243: nothing *)
Definition base_style : style := Style (fun s => Ok s) generate_data_dict (fun fr => fr).
(** fallback.py:33-39, with bare_trace.py:147-148: an FTrace has nothing better to offer *)
Definition mark_dict (data : str) : res dict := Ok [($"string", CStr data)].

(** By the name of the class; the classes not listed have [base_style]. *)
Definition styles : list (str * style) :=
  [ (* common_clk.py:28-61 *)
    ($"CommonClkEnable", Style (fun s => Ok s) clk_dict (fun fr => fr));
    ($"CommonClkDisable", Style (fun s => Ok s) clk_dict (fun fr => fr));
    ($"CommonClkSetRate", Style (fun s => Ok s) clk_dict clk_rate_finalize);
    (* fallback.py:47-50 *)
    ($"TracingMarkWrite", Style (fun s => Ok s) mark_dict (fun fr => fr));
    (* filesystem.py:28-116 *)
    ($"FilesystemExt4DaWriteBegin", Style (fun s => Ok s) ext4_dict fs_finalize);
    ($"FilesystemExt4DaWriteEnd", Style (fun s => Ok s) ext4_dict fs_finalize);
    ($"FilesystemExt4SyncFileEnter", Style (fun s => Ok s) ext4_dict fs_finalize);
    ($"FilesystemExt4SyncFileExit", Style (fun s => Ok s) ext4_dict fs_finalize);
    ($"FilesystemF2FSWriteBegin", Style (fun s => Ok s) f2fs_dict fs_finalize);
    ($"FilesystemF2FSWriteEnd", Style (fun s => Ok s) f2fs_dict fs_finalize);
    ($"FilesystemF2FSSyncFileEnter", Style (fun s => Ok s) f2fs_dict fs_finalize);
    ($"FilesystemF2FSSyncFileExit", Style (fun s => Ok s) f2fs_exit_dict fs_finalize);
    (* idle.py:22-33 *)
    ($"CpuIdle", Style (fun s => Ok s) generate_data_dict idle_finalize);
    (* raw_syscalls.py:21-82 *)
    ($"SysEnter", Style enter_explode generate_data_dict (fun fr => fr));
    ($"SysExit", Style exit_explode generate_data_dict (fun fr => fr));
    (* sched.py:25-140 *)
    ($"SchedLoadAvgSchedGroup", Style (fun s => Ok s) generate_data_dict mask_finalize);
    ($"SchedCpuCapacity", Style (fun s => Ok s) generate_data_dict cpu_capacity_finalize);
    ($"SchedSwitch", Style (fun s => Ok (switch_text s)) generate_data_dict (fun fr => fr));
    ($"SchedCpuFrequency", Style (fun s => Ok s) generate_data_dict cpu_frequency_finalize) ].
Definition style_of (k : klass) : style :=
  match dget eqs (k_pyname k) styles with Some y => y | None => base_style end.

(** bare_trace.py:138-145 [finalize_objects] for one class *)
Definition class_frame (fuel : nat) (k : klass) (evs : list event) : res frame :=
  let y := style_of k in
  do evs' <- mapM (fun e => do d <- y_text y (ev_data e) ;; Ok (with_data e d)) evs ;;
  do fr <- create_dataframe fuel (y_dict y) evs' ;;
  Ok (y_final y fr).
