(** Models of the event classes that parse their payload in their own way. *)
From Coq Require Import List Ascii String ZArith NArith Bool.
From Verif Require Import Lib.PyStr Lib.Regex Lib.F64 Model.Base.
Import ListNotations.
Local Open Scope list_scope.

Definition with_data (e : event) (d : str) : event :=
  Ev (ev_time e) (ev_comm e) (ev_pid e) (ev_cpu e) (ev_line e) d.

(** sched.py:115-119 [SchedSwitch.create_dataframe] *)
Definition switch_text (data : str) : str := replace1 $" ==> " $" " data.
Definition switch_dataframe (fuel : nat) (evs : list event) : res frame :=
  create_dataframe fuel generate_data_dict (map (fun e => with_data e (switch_text (ev_data e))) evs).

(** raw_syscalls.py:27 *)
Definition is_sign (c : ascii) : bool := Ascii.eqb c "-" || Ascii.eqb c "+".
Definition is_hex (c : ascii) : bool := is_digit c || in_range 97 102 c || in_range 65 70 c.
Definition re_hex (n : nat) : re := RGrp n (RSeq (ROpt (RCls is_sign)) (RPlus (RCls is_hex))).
Definition pat_enter : re :=
  RSeqs [RLit $"NR "; RGrp 1 (RPlus (RCls is_digit)); RLit $" ("; re_hex 2; RLit $", "; re_hex 3; RLit $", ";
         re_hex 4; RLit $", "; re_hex 5; RLit $", "; re_hex 6; RLit $", "; re_hex 7; RLit $")"].
(** raw_syscalls.py:32-44 [SysEnter.explode]; every exception becomes ValueError. *)
Definition group_int (conv : str -> option Z) (n : nat) (m : mres) : res Z :=
  match group n m with
  | Some s => match conv s with Some z => Ok z | None => Err EValue end
  | None => Err EValue
  end.
Definition enter_fields (nr : Z) (args : list Z) : str :=
  join $" " (($"nr=" ++ str_of_Z nr) ::
             map (fun ia => $"arg" ++ str_of_nat (fst ia) ++ $"=" ++ str_of_Z (snd ia))
                 (combine (seq 0 (List.length args)) args)).
Definition enter_explode (data : str) : res str :=
  match re_search pat_enter data with
  | None => Err EValue
  | Some m =>
      do nr <- group_int py_int10 1 m ;;
      do args <- mapM (fun n => group_int py_int16 n m) [2; 3; 4; 5; 6; 7] ;;
      Ok (enter_fields nr args)
  end.
(** raw_syscalls.py:59 and 65-76 [SysExit.explode] *)
Definition re_int (n : nat) : re := RGrp n (RSeq (ROpt (RCls is_sign)) (RPlus (RCls is_digit))).
Definition pat_exit : re := RSeqs [RLit $"NR "; re_int 1; RLit $" = "; re_int 2].
Definition exit_explode (data : str) : res str :=
  match re_search pat_exit data with
  | None => Err EValue
  | Some m =>
      do nr <- group_int py_int10 1 m ;;
      do ret <- group_int py_int10 2 m ;;
      Ok ($"nr=" ++ str_of_Z nr ++ $" ret=" ++ str_of_Z ret)
  end.
(** raw_syscalls.py:46-48 and 78-80 *)
Definition exploded_dataframe (explode : str -> res str) (fuel : nat) (evs : list event) : res frame :=
  do evs' <- mapM (fun e => do d <- explode (ev_data e) ;; Ok (with_data e d)) evs ;;
  create_dataframe fuel generate_data_dict evs'.

(** common_clk.py:30-34 [CommonClkBase.generate_data_dict] *)
Definition clk_dict (data : str) : res dict :=
  match split_once " " data with
  | None => Err EValue
  | Some (clk, fields) => do d <- generate_data_dict fields ;; Ok (dset eqs $"clk_name" (CStr clk) d)
  end.

(** filesystem.py:29-34 [FilesystemExt4Base.generate_data_dict]: pairs of the
    pieces between single blanks; a piece left over is dropped.  The list of pairs
    is given to [dict.update] (base.py:250), where the last of equal keys wins. *)
Fixpoint pairs (l : list str) : list (str * cell) :=
  match l with
  | k :: v :: r => (k, CStr v) :: pairs r
  | _ => []
  end.
Definition ext4_dict (data : str) : res dict := Ok (dupdate eqs [] (pairs (split_ch " " data))).

(** filesystem.py:73-77 and 112-114: the F2FS classes. *)
Definition f2fs_dict (data : str) : res dict :=
  generate_data_dict (replace $"," $" " (replace $" = " $"=" data)).
Definition f2fs_exit_dict (data : str) : res dict :=
  f2fs_dict (replace $"checkpoint is " $"checkpoint = " data).

(** [data_frame.rename(columns={old: new})]: common_clk.py:58-59,
    filesystem.py:36-37 and 79-80, sched.py:86-92 and 132-138. *)
Definition rename_col (old new : str) (fr : frame) : frame :=
  map (fun r => (fst r, map (fun kc => (if eqs old (fst kc) then new else fst kc, snd kc)) (snd r))) fr.
Definition cpu_capacity_finalize (fr : frame) : frame := rename_col $"state" $"capacity" (rename_col $"cpu_id" $"cpu" fr).
Definition cpu_frequency_finalize (fr : frame) : frame := rename_col $"state" $"frequency" (rename_col $"cpu_id" $"cpu" fr).
(** common_clk.py:58-59 [CommonClkSetRate.finalize_object] *)
Definition clk_rate_finalize (fr : frame) : frame := rename_col $"state" $"rate" fr.
(** filesystem.py:36-37 and 79-80 [finalize_object] of the ext4 and f2fs classes *)
Definition fs_finalize (fr : frame) : frame := rename_col $"ino" $"inode" fr.

(** idle.py:28-33 [CpuIdle.finalize_object]: every cell equal to 2^32-1. *)
Definition idle_cell (c : cell) : cell :=
  match c with CInt z => if (z =? 4294967295)%Z then CInt (-1) else c | _ => c end.
Definition idle_finalize (fr : frame) : frame :=
  map (fun r => (fst r, map (fun kc => (fst kc, idle_cell (snd kc))) (snd r))) fr.

(** sched.py:36-42 [SchedLoadAvgSchedGroup.finalize_object]: ['{:0>8}'.format]
    of the column "cpus".  A missing value is printed as "nan". *)
Definition cell_text (c : cell) : str :=
  match c with CInt z => str_of_Z z | CStr s => s | CNone => $"nan" end.
Definition pad8 (c : cell) : str :=
  let t := cell_text c in repeat "0"%char (8 - List.length t) ++ t.
Definition mask_finalize (fr : frame) : frame :=
  map (fun r => (fst r, map (fun kc => (fst kc, if eqs $"cpus" (fst kc) then CStr (pad8 (snd kc)) else snd kc)) (snd r))) fr.
