(** Property C92: reports of the events trappy knows are read back. *)
From Coq Require Import List Ascii String ZArith NArith Bool.
From Verif Require Import Lib.PyStr Lib.F64 Lib.F64Ord Model.Base Model.Line Model.Registry Model.Builtin Model.Populate Model.Window Model.Cache
  Model.Events Model.Classes Spec.Lines Spec.Payload Spec.Arrays Spec.Parts Spec.Trace Spec.Interval Spec.Written Spec.Events Spec.Classes
  Proofs.LineP Proofs.WrittenP Proofs.ClassesQ Proofs.ClassesR.
Import ListNotations.
Local Open Scope list_scope.

(** After the header, the selected events become rows, one for each event, whatever
    the classes selected: those that print key=value as well as those with payloads
    of their own, and with the columns renamed or rewritten as their class says. *)
Theorem C92_frames : forall defs hdr items,
  Forall junk_ok hdr -> begins items -> Forall (entry_ok defs) items ->
  exists st ts us,
    populate (map (fun d => (k_word (snd d), d)) defs) fzero (ftrace_body (hdr ++ map entry_str items)) = Ok st /\
    Forall2 printed_time (entry_lines items) ts /\ Assigned fzero ts us /\
    p_base st = hd fzero us /\ p_end st = last us fzero /\ p_lines st = Z.of_nat (List.length items) /\
    forall a k fuel, In (a, k) defs -> titles_ok (snd (kind_of k)) (texts_of a items) ->
      (forall q, In q (parts_in (texts_of a items)) -> (arrays q < fuel)%nat) ->
      exists fr, class_frame fuel k (arr a st) = Ok fr /\
        Forall2 (row_shows (snd (kind_of k)) (lengths (texts_of a items)) (fun t => t))
          (filter (fun m => eqs a (m_attr m)) (marked 0 items us)) fr.
Proof. exact entries_frames. Qed.

(** The constructed trace. *)
Theorem C92_trace : forall (content digest header csv : Type)
  (deq : digest -> digest -> bool) (md5 : content -> digest) (file : content -> list str)
  (head : content -> header) (enc : frame -> csv) (dec : csv -> option frame)
  (fuel : nat) (c : config) (s : fsys) hdr items,
  NoDup (map fst (c_defs c)) -> NoDup (map (fun d => k_word (snd d)) (c_defs c)) ->
  c_nocache c = true \/ (f_cache s = None /\ c_defs c <> []) ->
  file (f_trace s) = hdr ++ map entry_str items ->
  Forall junk_ok hdr -> begins items -> Forall (entry_ok (c_defs c)) items ->
  (forall a k, In (a, k) (c_defs c) -> titles_ok (snd (kind_of k)) (texts_of a items) /\
     forall q, In q (parts_in (texts_of a items)) -> (arrays q < fuel)%nat) ->
  exists tr ts us,
    fst (do_parse deq md5 (fun x => ftrace_body (file x)) head enc dec (class_frame fuel) c s) = Ok tr /\
    Forall2 printed_time (entry_lines items) ts /\ Assigned fzero ts us /\
    t_base tr = hd fzero us /\ t_end tr = last us fzero /\ t_head tr = Some (head (f_trace s)) /\
    map fst (t_frames tr) = map fst (c_defs c) /\
    (windows_ok (c_win c) (c_abs c) (t_base tr) -> forall a k, In (a, k) (c_defs c) ->
     exists fr, dget eqs a (t_frames tr) = Some fr /\
       Forall2 (row_shows (snd (kind_of k)) (lengths (texts_of a items)) (fun t => if c_norm c then fsub t (t_base tr) else t))
         (filter (fun x => eqs a (m_attr x) && in_both (c_win c) (c_abs c) (t_base tr) (m_time x))
                 (marked 0 items us)) fr).
Proof. exact (fun content digest header csv => entries_back (content:=content) (digest:=digest) (header:=header) (csv:=csv)). Qed.

(** Every class with a form of its own is one that trappy registers. *)
Example C92_ex_known : forallb (fun x => existsb (fun r => eqs (fst x) (k_pyname (fst r))) builtin_regs) known = true.
Proof. vm_compute. reflexivity. Qed.

(** A report of nine kinds of events with the classes of trappy. *)
Definition builtin (n : str) : klass :=
  match find (fun r => eqs n (k_pyname (fst r))) builtin_regs with Some r => fst r | None => Kls 0 [] None [] false end.
Definition ex_defs : list (str * klass) :=
  [($"sched_switch", builtin $"SchedSwitch"); ($"cpu_idle", builtin $"CpuIdle"); ($"sys_enter", builtin $"SysEnter"); ($"sys_exit", builtin $"SysExit");
   ($"clock_set_rate", builtin $"CommonClkSetRate"); ($"cpu_frequency", builtin $"SchedCpuFrequency");
   ($"sched_load_avg_sched_group", builtin $"SchedLoadAvgSchedGroup"); ($"ext4", builtin $"FilesystemExt4SyncFileEnter");
   ($"f2fs", builtin $"FilesystemF2FSSyncFileExit"); ($"tracing_mark_write", builtin $"TracingMarkWrite")].
Definition tl (us name : str) (t : text) : tline :=
  TLine $"   " $"kworker/0:1" $"77" None $"  " $"001" (Some ($" ", $"d..3")) $" " $"12" (Some us) [(name, $" ")] (text_str t).
Definition W (us name a : str) (t : text) : entry := EWrote (tl us name t) a t.
Definition ex_switch := TSwitch (Side [$"adb"; $"server"] 20 120) $"R+" (Side [$"swapper/1"] 0 120).
Definition ex_items : list entry :=
  [ W $"500000" $"sched_switch" $"sched_switch" ex_switch;
    W $"500001" $"cpu_idle" $"cpu_idle" (TFields [PF (Grp $"state" $"4294967295" []); PF (Grp $"cpu_id" $"1" [])]);
    EJunk ($"CPU:1 [LOST 5 EVENTS]" ++ [nl]);
    W $"500002" $"sys_enter" $"sys_enter" (TEnter 64 1 513082937344 259 0 0 4);
    W $"500003" $"sys_exit" $"sys_exit" (TExit 64 (-1));
    W $"500004" $"clock_set_rate" $"clock_set_rate" (TClock $"gpu_clk" [Grp $"state" $"800000000" []; Grp $"cpu_id" $"2" []]);
    W $"500005" $"cpu_frequency" $"cpu_frequency" (TFields [PF (Grp $"state" $"1400000" []); PF (Grp $"cpu_id" $"3" [])]);
    W $"500006" $"sched_load_avg_sg" $"sched_load_avg_sched_group" (TFields [PF (Grp $"cpus" $"f" []); PF (Grp $"load" $"7" [])]);
    W $"500007" $"ext4_sync_file_enter" $"ext4" (TPairs [($"dev", $"8,1"); ($"ino", $"99"); ($"parent", $"2")]);
    W $"500008" $"f2fs_sync_file_exit" $"f2fs"
      (TIs [FF $"dev" $"(259,14)" $"(259" [$"14)"]; FF $"ino" $"3" $"3" []] (FF $"checkpoint" $"not needed" $"not" [$"needed"]) [FF $"ret" $"0" $"0" []]);
    W $"500009" $"tracing_mark_write" $"tracing_mark_write" (TFree $"B|77|a = frame");
    EForeign (tl $"600000" $"irq_entry" (TFree $"irq=3")) ].
Definition ex_cfg : config := Cfg ex_defs true true (fzero, None) (fzero, None).
Notation ex_parse := (do_parse (fun _ _ : unit => true) (fun _ => tt) (fun x => ftrace_body x) (fun x : list str => List.length x)
  (fun f : frame => f) Some (class_frame 5)).
Definition ex_hdr : list str := [$"version = 6" ++ [nl]; $"cpus=4" ++ [nl]].
Example C92_ex :
  Forall junk_ok ex_hdr /\ begins ex_items /\ Forall (entry_ok ex_defs) ex_items /\
  NoDup (map fst ex_defs) /\ NoDup (map (fun d => k_word (snd d)) ex_defs) /\
  Forall (fun d => titles_ok (snd (kind_of (snd d))) (texts_of (fst d) ex_items) /\
     Forall (fun q => (arrays q < 5)%nat) (parts_in (texts_of (fst d) ex_items))) ex_defs /\
  windows_ok (c_win ex_cfg) (c_abs ex_cfg) (f_of_ratio 125 10) /\
  match fst (ex_parse ex_cfg (Fs (ex_hdr ++ map entry_str ex_items) None)) with
  | Ok tr => map (fun x => (fst x, map (fun r => skipn 4 (snd r)) (snd x))) (t_frames tr) =
      [($"sched_switch", [[($"prev_comm", CStr $"adb server"); ($"prev_pid", CInt 20); ($"prev_prio", CInt 120); ($"prev_state", CStr $"R+");
                           ($"next_comm", CStr $"swapper/1"); ($"next_pid", CInt 0); ($"next_prio", CInt 120)]]);
       ($"cpu_idle", [[($"state", CInt (-1)); ($"cpu_id", CInt 1)]]);
       ($"sys_enter", [[($"nr", CInt 64); ($"arg0", CInt 1); ($"arg1", CInt 513082937344); ($"arg2", CInt 259); ($"arg3", CInt 0);
                        ($"arg4", CInt 0); ($"arg5", CInt 4)]]);
       ($"sys_exit", [[($"nr", CInt 64); ($"ret", CInt (-1))]]);
       ($"clock_set_rate", [[($"rate", CInt 800000000); ($"cpu_id", CInt 2); ($"clk_name", CStr $"gpu_clk")]]);
       ($"cpu_frequency", [[($"frequency", CInt 1400000); ($"cpu", CInt 3)]]);
       ($"sched_load_avg_sched_group", [[($"cpus", CStr $"0000000f"); ($"load", CInt 7)]]);
       ($"ext4", [[($"dev", CStr $"8,1"); ($"inode", CStr $"99"); ($"parent", CStr $"2")]]);
       ($"f2fs", [[($"dev", CStr $"(259 14)"); ($"inode", CInt 3); ($"checkpoint", CStr $"not needed"); ($"ret", CInt 0)]]);
       ($"tracing_mark_write", [[($"string", CStr $"B|77|a = frame")]])]
  | Err _ => False
  end.
Proof.
  split; [|split; [exact I|split; [apply entriesb_ok; vm_compute; reflexivity|split; [|split; [|split; [|split; [|vm_compute; auto]]]]]]].
  - unfold ex_hdr. do 2 (apply Forall_cons; [left; apply PopulateP.occurs_false; vm_compute; reflexivity|]). apply Forall_nil.
  - apply nodupb_ok. vm_compute. reflexivity.
  - apply nodupb_ok. vm_compute. reflexivity.
  - unfold ex_defs. do 10 (apply Forall_cons; [split; [apply titlesb_ok; vm_compute; reflexivity|vm_compute; repeat constructor]|]). apply Forall_nil.
  - do 2 (split; [vm_compute; reflexivity|]). do 2 (split; [exact I|]). left. split; [reflexivity|exact I].
Qed.
Example C92_ex_text : map entry_str (firstn 1 ex_items) =
  [$"   kworker/0:1-77  [001] d..3 12.500000: sched_switch: prev_comm=adb server prev_pid=20 prev_prio=120 prev_state=R+ ==> next_comm=swapper/1 next_pid=0 next_prio=120" ++ [nl]].
Proof. reflexivity. Qed.

(** Without the condition on braces a switch is not read back: the name "a={}" of a
    task is taken for an empty array, and the field after it is lost with it. *)
Theorem C92_braces_refuted : exists p state n,
  name_ok (sw_comm p) /\ name_ok (sw_comm n) /\
  let t := TSwitch p state n in
  line_ok (tl $"500000" $"sched_switch" t) /\ sw_pid p = 20%Z /\
  match (do st <- populate [($"sched_switch:", ($"s", builtin $"SchedSwitch"))] fzero (ftrace_body [entry_str (W $"500000" $"sched_switch" $"s" t)]) ;;
         class_frame 5 (builtin $"SchedSwitch") (arr $"s" st)) with
  | Ok fr => map (fun r => (dlookup $"prev_comm" (snd r), dlookup $"prev_pid" (snd r))) fr = [(Some (CStr $"prev_pid=20"), None)]
  | Err _ => False
  end.
Proof.
  exists (Side [$"a={}"] 20 120), $"S", (Side [$"b"] 3 120).
  split; [apply nameb_ok; vm_compute; reflexivity|]. split; [apply nameb_ok; vm_compute; reflexivity|].
  cbv zeta. split; [apply line_okb_ok; vm_compute; reflexivity|]. split; [reflexivity|]. vm_compute. reflexivity.
Qed.

Print Assumptions C92_frames.
Print Assumptions C92_trace.
Print Assumptions C92_braces_refuted.
