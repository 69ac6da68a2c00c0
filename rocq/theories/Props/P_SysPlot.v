(** C104: from a systrace page to the bars of its plot. *)
From Coq Require Import List Ascii String ZArith NArith QArith Bool Lia.
From Flocq Require Import BinarySingleNaN.
From Verif Require Import Lib.PyStr Lib.PyStrFacts Lib.SearchFacts Lib.F64 Model.Base Model.Line Model.Registry Model.Builtin Model.Populate Model.Window Model.Cache
  Model.Classes Model.Residency Model.EventPlot Model.EventBars Model.PlotTrace Model.PlotReport Model.Systrace Model.SysReport Model.SysPlot
  Spec.Lines Spec.Payload Spec.Arrays Spec.Parts Spec.Trace Spec.Interval Spec.Written Spec.Events Spec.Classes Spec.Residency Spec.EventPlot Spec.EventBars
  Spec.PlotTrace Spec.PlotReport Spec.Marks Spec.SysReport
  Proofs.ClassesR Proofs.SystraceP Proofs.SysPlotP.
Import ListNotations.
Local Open Scope nat_scope.
Local Open Scope list_scope.

(** [plot_trace] of the path of a page: the bars are those of the times at which the
    printed switches say that a chosen task ran, and there is a row for each cpu up
    to the largest one that a switch was printed on. *)
Theorem C104_page : forall (content digest header csv : Type)
  (deq : digest -> digest -> bool) (md5 : content -> digest) (file : content -> list str) (head : content -> header)
  (enc : frame -> csv) (dec : csv -> option frame) (fuel : nat)
  (files : str -> fsys) (ftrace : str -> res ptrace) (c : config) p items k,
  NoDup (map fst (c_defs c)) -> NoDup (map (fun d => k_word (snd d)) (c_defs c)) ->
  c_nocache c = true \/ (f_cache (files p) = None /\ c_defs c <> []) ->
  c_norm c = true -> c_win c = (fzero, None) -> c_abs c = (fzero, None) ->
  Page (map entry_str items) (file (f_trace (files p))) ->
  begins items -> Forall (entry_ok (c_defs c)) items ->
  (forall a k, In (a, k) (c_defs c) -> titles_ok (snd (kind_of k)) (texts_of a items) /\
     forall q, In q (parts_in (texts_of a items)) -> (arrays q < fuel)%nat) ->
  In ($"sched_switch", k) (c_defs c) -> k_pyname k = $"SchedSwitch" -> (exists b, p = b ++ $"html") ->
  exists ts us, Forall2 printed_time (entry_lines items) ts /\ Assigned fzero ts us /\
    (Forall (fun u => is_finite u = true) us ->
     forall en ps r0 rows init rn,
     printed_switches $"sched_switch" (fun t => fsub t (hd fzero us)) (fun _ => true) items us = r0 :: rows -> r0 :: rows = init ++ [rn] ->
     Regular (execnames_of en) (pids_of ps) (r0 :: rows) ->
     exists g n, plot_trace true (open_page ftrace (fun p => sys_construct deq md5 file head enc dec fuel c (files p))) (SPath p) en ps =
         Ok (g, (Residency.s_time r0, Residency.s_time rn)) /\
       (exists r, In r (r0 :: rows) /\ n = (s_cpu r + 1)%Z) /\ (forall r, In r (r0 :: rows) -> (s_cpu r < n)%Z) /\
       Labels [] $"CPU :" n (g_lanes g) /\
       forall st x y, Rising x -> exists paths, draw st x y g = Ok paths /\
         AllRuns (execnames_of en) (pids_of ps) (r0 :: rows) x y paths /\ OnlyRuns (execnames_of en) (pids_of ps) (r0 :: rows) x y paths).
Proof. exact (fun content digest header csv => page_bars_all (content:=content) (digest:=digest) (header:=header) (csv:=csv)). Qed.
(** The same of windows, with or without normalised times: the switches inside the windows. *)
Theorem C104_window : forall (content digest header csv : Type)
  (deq : digest -> digest -> bool) (md5 : content -> digest) (file : content -> list str) (head : content -> header)
  (enc : frame -> csv) (dec : csv -> option frame) (fuel : nat)
  (files : str -> fsys) (ftrace : str -> res ptrace) (c : config) p items k,
  NoDup (map fst (c_defs c)) -> NoDup (map (fun d => k_word (snd d)) (c_defs c)) ->
  c_nocache c = true \/ (f_cache (files p) = None /\ c_defs c <> []) ->
  Page (map entry_str items) (file (f_trace (files p))) ->
  begins items -> Forall (entry_ok (c_defs c)) items ->
  (forall a k, In (a, k) (c_defs c) -> titles_ok (snd (kind_of k)) (texts_of a items) /\
     forall q, In q (parts_in (texts_of a items)) -> (arrays q < fuel)%nat) ->
  In ($"sched_switch", k) (c_defs c) -> k_pyname k = $"SchedSwitch" -> (exists b, p = b ++ $"html") ->
  exists tr ts us, fst (sys_parse deq md5 file head enc dec fuel c (files p)) = Ok tr /\
    Forall2 printed_time (entry_lines items) ts /\ Assigned fzero ts us /\
    t_base tr = hd fzero us /\ t_end tr = last us fzero /\
    (windows_ok (c_win c) (c_abs c) (t_base tr) -> Forall (fun u => is_finite u = true) us ->
     forall en ps r0 rows init rn,
     printed_switches $"sched_switch" (fun t => if c_norm c then fsub t (t_base tr) else t)
       (in_both (c_win c) (c_abs c) (t_base tr)) items us = r0 :: rows -> r0 :: rows = init ++ [rn] ->
     Regular (execnames_of en) (pids_of ps) (r0 :: rows) ->
     exists g n, plot_trace true (open_page ftrace (fun p => sys_construct deq md5 file head enc dec fuel c (files p))) (SPath p) en ps =
         Ok (g, (Residency.s_time r0, Residency.s_time rn)) /\
       (exists r, In r (r0 :: rows) /\ n = (s_cpu r + 1)%Z) /\ (forall r, In r (r0 :: rows) -> (s_cpu r < n)%Z) /\
       Labels [] $"CPU :" n (g_lanes g) /\
       forall st x y, Rising x -> exists paths, draw st x y g = Ok paths /\
         AllRuns (execnames_of en) (pids_of ps) (r0 :: rows) x y paths /\ OnlyRuns (execnames_of en) (pids_of ps) (r0 :: rows) x y paths).
Proof.
  intros content digest header csv deq md5 file head enc dec fuel files ftrace c p items k H1 H2 H3 H4 H5 H6 H7 H8 H9 H10.
  destruct (page_bars deq md5 file head enc dec fuel files ftrace c p items k) as (tr & ts & us & E); auto. exists tr, ts, us. tauto.
Qed.
(** A page on which no task is switched cannot be plotted. *)
Theorem C104_nothing : forall (content digest header csv : Type)
  (deq : digest -> digest -> bool) (md5 : content -> digest) (file : content -> list str) (head : content -> header)
  (enc : frame -> csv) (dec : csv -> option frame) (fuel : nat)
  (files : str -> fsys) (ftrace : str -> res ptrace) (c : config) p items k ip en ps,
  NoDup (map fst (c_defs c)) -> NoDup (map (fun d => k_word (snd d)) (c_defs c)) ->
  c_nocache c = true \/ (f_cache (files p) = None /\ c_defs c <> []) ->
  Page (map entry_str items) (file (f_trace (files p))) ->
  begins items -> Forall (entry_ok (c_defs c)) items ->
  (forall a k, In (a, k) (c_defs c) -> titles_ok (snd (kind_of k)) (texts_of a items) /\
     forall q, In q (parts_in (texts_of a items)) -> (arrays q < fuel)%nat) ->
  In ($"sched_switch", k) (c_defs c) -> k_pyname k = $"SchedSwitch" -> (exists b, p = b ++ $"html") ->
  texts_of $"sched_switch" items = [] ->
  plot_trace ip (open_page ftrace (fun p => sys_construct deq md5 file head enc dec fuel c (files p))) (SPath p) en ps =
    Err (if ip then EKey else ERuntime).
Proof. exact (fun content digest header csv => page_no_bars (content:=content) (digest:=digest) (header:=header) (csv:=csv)). Qed.

(** A page of three switches. *)
Definition builtin (n : str) : klass :=
  match find (fun r => eqs n (k_pyname (fst r))) builtin_regs with Some r => fst r | None => Kls 0 [] None [] false end.
Definition ex_defs : list (str * klass) := [($"tracing_mark_write", builtin $"TracingMarkWrite"); ($"sched_switch", builtin $"SchedSwitch")].
Definition tl (us cpu name : str) (t : text) : tline :=
  TLine $"   " $"swapper" $"0" None $"  " cpu (Some ($" ", $"d..3")) $" " $"12" (Some us) [(name, $" ")] (text_str t).
Definition W (us cpu name : str) (t : text) : entry := EWrote (tl us cpu name t) name t.
Definition ex_items : list entry :=
  [ W $"500000" $"000" $"sched_switch" (TSwitch (Side [$"swapper/0"] 0 120) $"R" (Side [$"adb"; $"server"] 7 120));
    W $"625000" $"001" $"tracing_mark_write" (TFree $"B|7|draw");
    EJunk ($"CPU:1 [LOST 5 EVENTS]" ++ [nl]);
    W $"750000" $"001" $"sched_switch" (TSwitch (Side [$"swapper/1"] 0 120) $"R" (Side [$"cat"] 8 120));
    W $"875000" $"000" $"sched_switch" (TSwitch (Side [$"adb"; $"server"] 7 120) $"S" (Side [$"swapper/0"] 0 120)) ].
Definition ex_page : list str :=
  ($"<!-- BEGIN TRACE -->" ++ [nl]) :: ($"  var linuxPerfData" ++ [nl]) :: map entry_str ex_items ++ [$"</script>" ++ [nl]; $"</html>"].
Definition ex_cfg : config := Cfg ex_defs true true (fzero, None) (fzero, None).
Notation ex_open := (open_page (fun _ => Err EIO) (fun _ => sys_construct (fun _ _ : unit => true) (fun _ => tt) (fun x => x) (fun x : list str => tt)
  (fun f : frame => f) Some 5 ex_cfg (Fs ex_page None))).
Definition ex_us : list F64.float := [f_of_ratio 12500 1000; f_of_ratio 12625 1000; f_of_ratio 12750 1000; f_of_ratio 12875 1000].
Definition ex_rows : list (switch Q) :=
  [Switch 0 0 7 (CStr $"adb server") 0; Switch (1 # 4) 0 8 (CStr $"cat") 1; Switch (3 # 8) 7 0 (CStr $"swapper/0") 0]%Q.
Definition ex_shown (g : res (graph * (Q * Q))) :=
  match g with
  | Ok (g, d) => Some (map (fun n => (fst n, map (fun s => (fst s, map (fun v => (Qred (fst v), Qred (snd v))) (snd s))) (snd n))) (g_data g), map snd (g_lanes g), (Qred (fst d), Qred (snd d)))
  | Err _ => None
  end.
Example C104_ex : ex_shown (plot_trace true ex_open (SPath $"trace.html") SelNone SelNone) =
  Some ([($"adb server-7", [(LZ 0, [(0, 3 # 8)])]); ($"cat-8", [(LZ 1, [(1 # 4, 3 # 8)])])]%Q, [LS $"CPU :0"; LS $"CPU :1"], (0, 3 # 8)%Q).
Proof. vm_compute. reflexivity. Qed.
Definition Qswitch (s : switch Q) : switch Q := Switch (Qred (Residency.s_time s)) (s_prev s) (s_next s) (s_comm s) (s_cpu s).
Example C104_ex_meets :
  Page (map entry_str ex_items) ex_page /\ begins ex_items /\ Forall (entry_ok ex_defs) ex_items /\
  NoDup (map fst ex_defs) /\ NoDup (map (fun d => k_word (snd d)) ex_defs) /\
  Forall (fun d => titles_ok (snd (kind_of (snd d))) (texts_of (fst d) ex_items) /\
     Forall (fun q => (arrays q < 5)%nat) (parts_in (texts_of (fst d) ex_items))) ex_defs /\
  In ($"sched_switch", builtin $"SchedSwitch") ex_defs /\ k_pyname (builtin $"SchedSwitch") = $"SchedSwitch" /\
  (exists b, $"trace.html" = b ++ $"html") /\
  Forall (fun u => is_finite u = true) ex_us /\
  map Qswitch (printed_switches $"sched_switch" (fun t => fsub t (hd fzero ex_us)) (fun _ => true) ex_items ex_us) = ex_rows /\
  Regular [] [] ex_rows.
Proof.
  split; [|split; [exact I|split; [apply entriesb_ok; vm_compute; reflexivity|split; [|split; [|split; [|split; [|split; [|split; [|split; [|split]]]]]]]]]].
  - apply (PageOf _ [] _ [] _ [] [$"</script>" ++ [nl]; $"</html>"]).
    + constructor.
    + left. exists [nl]. reflexivity.
    + constructor.
    + right. exists [nl]. reflexivity.
    + apply Forall_cons; [left; apply PopulateP.occurs_false; vm_compute; reflexivity|apply Forall_nil].
    + unfold Never. apply Forall_forall. intros l Hl He. apply end_iff in He.
      assert (X : forallb (fun l => negb (is_suffix end_line l)) (map entry_str ex_items) = true) by (vm_compute; reflexivity).
      rewrite forallb_forall in X. apply X in Hl. rewrite He in Hl. discriminate Hl.
    + right. split; [discriminate|]. do 2 eexists. split; [reflexivity|]. exists []. reflexivity.
  - apply nodupb_ok. vm_compute. reflexivity.
  - apply nodupb_ok. vm_compute. reflexivity.
  - unfold ex_defs. do 2 (apply Forall_cons; [split; [apply titlesb_ok; vm_compute; reflexivity|vm_compute; repeat constructor]|]). apply Forall_nil.
  - right. left. reflexivity.
  - vm_compute. reflexivity.
  - exists $"trace.". reflexivity.
  - unfold ex_us. repeat (constructor; [vm_compute; reflexivity|]). constructor.
  - vm_compute. reflexivity.
  - split.
    + intros r H. repeat (destruct H as [<-|H]; [split; [vm_compute; discriminate|now eexists]|]). destruct H.
    + intros b r mid r' rest E W N En. assert (forall r, In r ex_rows -> s_comm r = (if (s_next r =? 7)%Z then CStr $"adb server" else if (s_next r =? 8)%Z then CStr $"cat" else CStr $"swapper/0")) as F.
      { intros q H. repeat (destruct H as [<-|H]; [reflexivity|]). destruct H. }
      rewrite (F r), (F r'), En; [reflexivity| |]; rewrite E; [apply in_app_iff; right; right; apply in_elt|apply in_elt].
Qed.
(** Finding: rows for the cpus are counted from the switches alone, so a cpu that only
    printed other events has no row. *)
Theorem C104_rows_refuted : exists items e, Forall (entry_ok ex_defs) items /\ begins items /\
  In e (entry_lines items) /\ l_cpu e = $"005" /\
  match plot_trace true (open_page (fun _ => Err EIO) (fun _ => sys_construct (fun _ _ : unit => true) (fun _ => tt) (fun x => x) (fun x : list str => tt)
    (fun f : frame => f) Some 5 ex_cfg
    (Fs (($"<!-- BEGIN TRACE -->" ++ [nl]) :: ($"  var linuxPerfData" ++ [nl]) :: map entry_str items) None))) (SPath $"trace.html") SelNone SelNone with
  | Ok (g, _) => List.length (g_lanes g) = 2%nat
  | Err _ => False
  end.
Proof.
  exists (ex_items ++ [W $"880000" $"005" $"tracing_mark_write" (TFree $"E")]), (tl $"880000" $"005" $"tracing_mark_write" (TFree $"E")).
  split; [apply entriesb_ok; vm_compute; reflexivity|]. split; [exact I|]. split; [do 4 right; left; reflexivity|]. split; [reflexivity|].
  vm_compute. reflexivity.
Qed.

Print Assumptions C104_page.
Print Assumptions C104_window.
Print Assumptions C104_nothing.
Print Assumptions C104_rows_refuted.
