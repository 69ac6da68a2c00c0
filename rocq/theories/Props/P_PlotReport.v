(** C93: from the text of a report to the bars of its plot. *)
From Coq Require Import List Ascii String ZArith NArith QArith Reals Bool Lia.
From Flocq Require Import BinarySingleNaN.
From Verif Require Import Lib.PyStr Lib.F64 Model.Base Model.Line Model.Registry Model.Builtin Model.Populate Model.Window Model.Cache
  Model.Files Model.Classes Model.Residency Model.EventPlot Model.EventBars Model.PlotTrace Model.PlotReport
  Spec.Lines Spec.Payload Spec.Arrays Spec.Parts Spec.Trace Spec.Interval Spec.Written Spec.Events Spec.Classes Spec.Files Spec.Residency Spec.EventPlot Spec.EventBars Spec.PlotTrace Spec.PlotReport
  Proofs.ClassesR Proofs.PlotReportP.
Import ListNotations.
Local Open Scope nat_scope.
Local Open Scope list_scope.

(** [plot_trace] of the path of a report: whatever other events are selected and printed, the bars are those of the times at which
    the printed switches say that a chosen task ran, and there is a row for each of the cpus that the header counts. *)
Theorem C93_report : forall (content digest csv : Type)
  (deq : digest -> digest -> bool) (md5 : content -> digest) (file : content -> list str) (enc : frame -> csv) (dec : csv -> option frame) (fuel : nat)
  (files : str -> fsys) (systrace : str -> res ptrace) (c : config) p hdr items k v,
  NoDup (map fst (c_defs c)) -> NoDup (map (fun d => k_word (snd d)) (c_defs c)) ->
  c_nocache c = true \/ (f_cache (files p) = None /\ c_defs c <> []) ->
  c_norm c = true -> c_win c = (fzero, None) -> c_abs c = (fzero, None) ->
  file (f_trace (files p)) = hdr ++ map entry_str items ->
  Forall junk_ok hdr -> begins items -> Forall (entry_ok (c_defs c)) items ->
  (forall a k, In (a, k) (c_defs c) -> titles_ok (snd (kind_of k)) (texts_of a items) /\
     forall q, In q (parts_in (texts_of a items)) -> (arrays q < fuel)%nat) ->
  In ($"sched_switch", k) (c_defs c) -> k_pyname k = $"SchedSwitch" ->
  HeaderValue (hdr ++ map entry_str items) $"cpus" v -> dec_val v <> 0%N -> ~ (exists b, p = b ++ $"html") ->
  exists ts us, Forall2 printed_time (entry_lines items) ts /\ Assigned fzero ts us /\
    (Forall (fun u => is_finite u = true) us ->
     forall en ps r0 rows init rn,
     printed_switches $"sched_switch" (fun t => fsub t (hd fzero us)) (fun _ => true) items us = r0 :: rows -> r0 :: rows = init ++ [rn] ->
     Regular (execnames_of en) (pids_of ps) (r0 :: rows) ->
     exists g, plot_trace true (open_report (fun p => fst (do_parse deq md5 (fun x => ftrace_body (file x)) (fun x => trace_metadata (file x)) enc dec (class_frame fuel) c (files p))) systrace)
                 (SPath p) en ps = Ok (g, (Residency.s_time r0, Residency.s_time rn)) /\
       Labels [] $"CPU :" (Z.of_N (dec_val v)) (g_lanes g) /\
       forall st x y, Rising x -> exists paths, draw st x y g = Ok paths /\
         AllRuns (execnames_of en) (pids_of ps) (r0 :: rows) x y paths /\ OnlyRuns (execnames_of en) (pids_of ps) (r0 :: rows) x y paths).
Proof. exact (fun content digest csv => report_bars_all (content:=content) (digest:=digest) (csv:=csv)). Qed.
(** The same of a trace constructed with windows and with or without normalised times: the switches inside the windows. *)
Theorem C93_window : forall (content digest csv : Type)
  (deq : digest -> digest -> bool) (md5 : content -> digest) (file : content -> list str) (enc : frame -> csv) (dec : csv -> option frame) (fuel : nat)
  (files : str -> fsys) (systrace : str -> res ptrace) (c : config) p hdr items k v,
  NoDup (map fst (c_defs c)) -> NoDup (map (fun d => k_word (snd d)) (c_defs c)) ->
  c_nocache c = true \/ (f_cache (files p) = None /\ c_defs c <> []) ->
  file (f_trace (files p)) = hdr ++ map entry_str items ->
  Forall junk_ok hdr -> begins items -> Forall (entry_ok (c_defs c)) items ->
  (forall a k, In (a, k) (c_defs c) -> titles_ok (snd (kind_of k)) (texts_of a items) /\
     forall q, In q (parts_in (texts_of a items)) -> (arrays q < fuel)%nat) ->
  In ($"sched_switch", k) (c_defs c) -> k_pyname k = $"SchedSwitch" ->
  HeaderValue (hdr ++ map entry_str items) $"cpus" v -> dec_val v <> 0%N -> ~ (exists b, p = b ++ $"html") ->
  exists tr ts us, fst (do_parse deq md5 (fun x => ftrace_body (file x)) (fun x => trace_metadata (file x)) enc dec (class_frame fuel) c (files p)) = Ok tr /\
    Forall2 printed_time (entry_lines items) ts /\ Assigned fzero ts us /\
    t_base tr = hd fzero us /\ t_end tr = last us fzero /\
    (windows_ok (c_win c) (c_abs c) (t_base tr) -> Forall (fun u => is_finite u = true) us ->
     forall en ps r0 rows init rn,
     printed_switches $"sched_switch" (fun t => if c_norm c then fsub t (t_base tr) else t)
       (in_both (c_win c) (c_abs c) (t_base tr)) items us = r0 :: rows -> r0 :: rows = init ++ [rn] ->
     Regular (execnames_of en) (pids_of ps) (r0 :: rows) ->
     exists g, plot_trace true (open_report (fun p => fst (do_parse deq md5 (fun x => ftrace_body (file x)) (fun x => trace_metadata (file x)) enc dec (class_frame fuel) c (files p))) systrace)
                 (SPath p) en ps = Ok (g, (Residency.s_time r0, Residency.s_time rn)) /\
       Labels [] $"CPU :" (Z.of_N (dec_val v)) (g_lanes g) /\
       forall st x y, Rising x -> exists paths, draw st x y g = Ok paths /\
         AllRuns (execnames_of en) (pids_of ps) (r0 :: rows) x y paths /\ OnlyRuns (execnames_of en) (pids_of ps) (r0 :: rows) x y paths).
Proof.
  intros content digest csv deq md5 file enc dec fuel files systrace c p hdr items k v H1 H2 H3 H4 H5 H6 H7 H8 H9 H10 H11 H12 H13.
  destruct (report_bars deq md5 file enc dec fuel files systrace c p hdr items k v) as (tr & ts & us & E); auto. exists tr, ts, us. tauto.
Qed.
(** The times in the plot are those of the doubles. *)
Theorem C93_time : forall x, Q2R (fQ x) = B2R x.
Proof. exact fQ_value. Qed.

(** A report of three switches, with another event between them. *)
Definition builtin (n : str) : klass :=
  match find (fun r => eqs n (k_pyname (fst r))) builtin_regs with Some r => fst r | None => Kls 0 [] None [] false end.
Definition ex_defs : list (str * klass) := [($"cpu_idle", builtin $"CpuIdle"); ($"sched_switch", builtin $"SchedSwitch")].
Definition tl (us cpu name : str) (t : text) : tline :=
  TLine $"   " $"swapper" $"0" None $"  " cpu (Some ($" ", $"d..3")) $" " $"12" (Some us) [(name, $" ")] (text_str t).
Definition W (us cpu name : str) (t : text) : entry := EWrote (tl us cpu name t) name t.
Definition ex_items : list entry :=
  [ W $"500000" $"000" $"sched_switch" (TSwitch (Side [$"swapper/0"] 0 120) $"R" (Side [$"adb"; $"server"] 7 120));
    W $"625000" $"001" $"cpu_idle" (TFields [PF (Grp $"state" $"0" []); PF (Grp $"cpu_id" $"1" [])]);
    EJunk ($"CPU:1 [LOST 5 EVENTS]" ++ [nl]);
    W $"750000" $"001" $"sched_switch" (TSwitch (Side [$"swapper/1"] 0 120) $"R" (Side [$"cat"] 8 120));
    W $"875000" $"000" $"sched_switch" (TSwitch (Side [$"adb"; $"server"] 7 120) $"S" (Side [$"swapper/0"] 0 120)) ].
Definition ex_hdr : list str := [$"version = 6" ++ [nl]; $"cpus=2" ++ [nl]].
Definition ex_file : list str := ex_hdr ++ map entry_str ex_items.
Definition ex_cfg : config := Cfg ex_defs true true (fzero, None) (fzero, None).
Notation ex_open := (open_report (fun p => fst (do_parse (fun _ _ : unit => true) (fun _ => tt) (fun x => ftrace_body x) (fun x => trace_metadata x)
  (fun f : frame => f) Some (class_frame 5) ex_cfg (Fs ex_file None))) (fun _ => Err EIO)).
Definition ex_us : list F64.float := [f_of_ratio 12500 1000; f_of_ratio 12625 1000; f_of_ratio 12750 1000; f_of_ratio 12875 1000].
Definition ex_rows : list (switch Q) :=
  [Switch 0 0 7 (CStr $"adb server") 0; Switch (1 # 4) 0 8 (CStr $"cat") 1; Switch (3 # 8) 7 0 (CStr $"swapper/0") 0]%Q.
Definition ex_shown (g : res (graph * (Q * Q))) :=
  match g with
  | Ok (g, d) => Some (map (fun n => (fst n, map (fun s => (fst s, map (fun v => (Qred (fst v), Qred (snd v))) (snd s))) (snd n))) (g_data g), map snd (g_lanes g), (Qred (fst d), Qred (snd d)))
  | Err _ => None
  end.
Example C93_ex : ex_shown (plot_trace true ex_open (SPath $"trace.txt") SelNone SelNone) =
  Some ([($"adb server-7", [(LZ 0, [(0, 3 # 8)])]); ($"cat-8", [(LZ 1, [(1 # 4, 3 # 8)])])]%Q, [LS $"CPU :0"; LS $"CPU :1"], (0, 3 # 8)%Q).
Proof. vm_compute. reflexivity. Qed.
Example C93_ex_text : nth 5 ex_file [] =
  $"   swapper-0  [001] d..3 12.750000: sched_switch: prev_comm=swapper/1 prev_pid=0 prev_prio=120 prev_state=R ==> next_comm=cat next_pid=8 next_prio=120" ++ [nl].
Proof. reflexivity. Qed.
Definition Qswitch (s : switch Q) : switch Q := Switch (Qred (Residency.s_time s)) (s_prev s) (s_next s) (s_comm s) (s_cpu s).
Example C93_ex_meets :
  Forall junk_ok ex_hdr /\ begins ex_items /\ Forall (entry_ok ex_defs) ex_items /\
  NoDup (map fst ex_defs) /\ NoDup (map (fun d => k_word (snd d)) ex_defs) /\
  Forall (fun d => titles_ok (snd (kind_of (snd d))) (texts_of (fst d) ex_items) /\
     Forall (fun q => (arrays q < 5)%nat) (parts_in (texts_of (fst d) ex_items))) ex_defs /\
  In ($"sched_switch", builtin $"SchedSwitch") ex_defs /\ k_pyname (builtin $"SchedSwitch") = $"SchedSwitch" /\
  HeaderValue ex_file $"cpus" $"2" /\ dec_val $"2" <> 0%N /\ ~ (exists b, $"trace.txt" = b ++ $"html") /\
  Forall (fun u => is_finite u = true) ex_us /\
  map Qswitch (printed_switches $"sched_switch" (fun t => fsub t (hd fzero ex_us)) (fun _ => true) ex_items ex_us) = ex_rows /\
  Regular [] [] ex_rows.
Proof.
  split; [|split; [exact I|split; [apply entriesb_ok; vm_compute; reflexivity|split; [|split; [|split; [|split; [|split; [|split; [|split; [|split; [|split; [|split]]]]]]]]]]]].
  - unfold ex_hdr. do 2 (apply Forall_cons; [left; apply PopulateP.occurs_false; vm_compute; reflexivity|]). apply Forall_nil.
  - apply nodupb_ok. vm_compute. reflexivity.
  - apply nodupb_ok. vm_compute. reflexivity.
  - unfold ex_defs. do 2 (apply Forall_cons; [split; [apply titlesb_ok; vm_compute; reflexivity|vm_compute; repeat constructor]|]). apply Forall_nil.
  - right. left. reflexivity.
  - vm_compute. reflexivity.
  - apply FilesP.metadata_spec; [now right|]. vm_compute. reflexivity.
  - vm_compute. discriminate.
  - intros [b E]. apply (f_equal (@rev ascii)) in E. rewrite rev_app_distr in E. vm_compute in E. discriminate.
  - unfold ex_us. repeat (constructor; [vm_compute; reflexivity|]). constructor.
  - vm_compute. reflexivity.
  - split.
    + intros r H. repeat (destruct H as [<-|H]; [split; [vm_compute; discriminate|now eexists]|]). destruct H.
    + intros b r mid r' rest E W N En. assert (forall r, In r ex_rows -> s_comm r = (if (s_next r =? 7)%Z then CStr $"adb server" else if (s_next r =? 8)%Z then CStr $"cat" else CStr $"swapper/0")) as F.
      { intros q H. repeat (destruct H as [<-|H]; [reflexivity|]). destruct H. }
      rewrite (F r), (F r'), En; [reflexivity| |]; rewrite E; [apply in_app_iff; right; right; apply in_elt|apply in_elt].
Qed.
(** A report without a header: the number of cpus is not known. *)
Example C93_ex_header : plot_trace true (open_report (fun p => fst (do_parse (fun _ _ : unit => true) (fun _ => tt) (fun x => ftrace_body x) (fun x => trace_metadata x)
  (fun f : frame => f) Some (class_frame 5) ex_cfg (Fs (map entry_str ex_items) None))) (fun _ => Err EIO)) (SPath $"trace.txt") SelNone SelNone = Err EType.
Proof. vm_compute. reflexivity. Qed.

Print Assumptions C93_report.
Print Assumptions C93_window.
Print Assumptions C93_time.
