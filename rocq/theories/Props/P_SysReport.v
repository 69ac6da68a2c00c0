(** Property C103: systrace pages are read into frames. *)
From Coq Require Import List Ascii String ZArith NArith Bool.
From Verif Require Import Lib.PyStr Lib.PyStrFacts Lib.SearchFacts Lib.F64 Lib.F64Ord Model.Base Model.Line Model.Registry Model.Builtin Model.Populate Model.Window Model.Cache
  Model.Events Model.Classes Model.Systrace Model.SysReport Spec.Lines Spec.Payload Spec.Arrays Spec.Parts Spec.Trace Spec.Interval Spec.Written
  Spec.Events Spec.Classes Spec.Marks Spec.SysReport Proofs.PopulateP Proofs.LineP Proofs.WrittenP Proofs.ClassesQ Proofs.ClassesR Proofs.SystraceP
  Proofs.SysReportP.
Import ListNotations.
Local Open Scope list_scope.

(** Whatever the page around the trace, the events printed in it become rows, one
    for each event: the markers split into their parts, all others as in C92. *)
Theorem C103_trace : forall (content digest header csv : Type)
  (deq : digest -> digest -> bool) (md5 : content -> digest) (file : content -> list str)
  (head : content -> header) (enc : frame -> csv) (dec : csv -> option frame)
  (fuel : nat) (c : config) (s : fsys) items,
  NoDup (map fst (c_defs c)) -> NoDup (map (fun d => k_word (snd d)) (c_defs c)) ->
  c_nocache c = true \/ (f_cache s = None /\ c_defs c <> []) ->
  Page (map entry_str items) (file (f_trace s)) ->
  begins items -> Forall (entry_ok (c_defs c)) items ->
  (forall a k, In (a, k) (c_defs c) -> titles_ok (snd (kind_of k)) (texts_of a items) /\
     forall q, In q (parts_in (texts_of a items)) -> (arrays q < fuel)%nat) ->
  exists tr ts us, fst (sys_parse deq md5 file head enc dec fuel c s) = Ok tr /\
    Forall2 printed_time (entry_lines items) ts /\ Assigned fzero ts us /\
    t_base tr = hd fzero us /\ t_end tr = last us fzero /\ t_head tr = Some (head (f_trace s)) /\
    map fst (t_frames tr) = map fst (c_defs c) /\
    (windows_ok (c_win c) (c_abs c) (t_base tr) -> forall a k, In (a, k) (c_defs c) ->
     exists fr, dget eqs a (t_frames tr) = Some fr /\
       Forall2 (event_shown k (lengths (texts_of a items)) (fun t => if c_norm c then fsub t (t_base tr) else t))
         (filter (fun x => eqs a (m_attr x) && in_both (c_win c) (c_abs c) (t_base tr) (m_time x)) (marked 0 items us)) fr).
Proof. exact (fun content digest header csv => page_trace (content:=content) (digest:=digest) (header:=header) (csv:=csv)). Qed.

(** The parts of a marker are found in the columns of its row. *)
Theorem C103_marker : forall m r x n f d, m_text m = TFree (x :: bar :: str_of_N n ++ bar :: f ++ bar :: d) ->
  capital x -> ~ In bar f -> ~ In newline d -> marker_shows m r ->
  dlookup $"event" r = Some (CStr [x]) /\ dlookup $"pid" r = Some (CInt (Z.of_N n)) /\
  dlookup $"func" r = Some (CStr f) /\ dlookup $"data" r = Some (CStr d).
Proof. exact marker_parts. Qed.

(** The cpus counted: one more than the largest cpu that a task switch within the
    window was printed on.  A page without task switches is not read at all; if
    the window leaves none of them there is no number. *)
Theorem C103_cpus : forall (content digest header csv : Type)
  (deq : digest -> digest -> bool) (md5 : content -> digest) (file : content -> list str)
  (head : content -> header) (enc : frame -> csv) (dec : csv -> option frame)
  (fuel : nat) (c : config) (s : fsys) items k,
  NoDup (map fst (c_defs c)) -> NoDup (map (fun d => k_word (snd d)) (c_defs c)) ->
  c_nocache c = true \/ (f_cache s = None /\ c_defs c <> []) ->
  Page (map entry_str items) (file (f_trace s)) ->
  begins items -> Forall (entry_ok (c_defs c)) items ->
  (forall a k, In (a, k) (c_defs c) -> titles_ok (snd (kind_of k)) (texts_of a items) /\
     forall q, In q (parts_in (texts_of a items)) -> (arrays q < fuel)%nat) ->
  In ($"sched_switch", k) (c_defs c) -> k_pyname k = $"SchedSwitch" ->
  exists tr ts us, fst (sys_parse deq md5 file head enc dec fuel c s) = Ok tr /\
    Forall2 printed_time (entry_lines items) ts /\ Assigned fzero ts us /\ t_base tr = hd fzero us /\
    (texts_of $"sched_switch" items = [] -> sys_construct deq md5 file head enc dec fuel c s = Err EKey) /\
    (texts_of $"sched_switch" items <> [] -> windows_ok (c_win c) (c_abs c) (t_base tr) ->
     let ss := filter (fun x => eqs $"sched_switch" (m_attr x) && in_both (c_win c) (c_abs c) (t_base tr) (m_time x)) (marked 0 items us) in
     (ss = [] -> sys_construct deq md5 file head enc dec fuel c s = Ok (tr, Some NoRows)) /\
     (ss <> [] -> exists n, sys_construct deq md5 file head enc dec fuel c s = Ok (tr, Some (Cpus n)) /\ on_cpus ss n)).
Proof. exact (fun content digest header csv => page_cpus (content:=content) (digest:=digest) (header:=header) (csv:=csv)). Qed.
(** Without the class there is no count, and no error. *)
Theorem C103_no_cpus : forall (content digest header csv : Type)
  (deq : digest -> digest -> bool) (md5 : content -> digest) (file : content -> list str)
  (head : content -> header) (enc : frame -> csv) (dec : csv -> option frame)
  (fuel : nat) (c : config) (s : fsys) tr,
  fst (sys_parse deq md5 file head enc dec fuel c s) = Ok tr -> ~ In $"sched_switch" (map fst (t_frames tr)) ->
  sys_construct deq md5 file head enc dec fuel c s = Ok (tr, None).
Proof. exact (fun content digest header csv => page_no_cpus (content:=content) (digest:=digest) (header:=header) (csv:=csv)). Qed.

(** ** A page *)
Definition builtin (n : str) : klass :=
  match find (fun r => eqs n (k_pyname (fst r))) builtin_regs with Some r => fst r | None => Kls 0 [] None [] false end.
Definition ex_defs : list (str * klass) :=
  [($"sched_switch", builtin $"SchedSwitch"); ($"cpu_idle", builtin $"CpuIdle"); ($"tracing_mark_write", builtin $"TracingMarkWrite")].
Definition tl (cpu us name : str) (t : text) : tline :=
  TLine $"   " $"kworker/0:1" $"77" None $"  " cpu (Some ($" ", $"d..3")) $" " $"12" (Some us) [(name, $" ")] (text_str t).
Definition ex_switch := TSwitch (Side [$"adb"; $"server"] 20 120) $"R+" (Side [$"swapper/1"] 0 120).
Definition ex_items : list entry :=
  [ EWrote (tl $"001" $"500000" $"sched_switch" ex_switch) $"sched_switch" ex_switch;
    EWrote (tl $"002" $"500001" $"tracing_mark_write" (TFree $"C|77|level|9")) $"tracing_mark_write" (TFree $"C|77|level|9");
    EJunk ($"CPU:1 [LOST 5 EVENTS]" ++ [nl]);
    EWrote (tl $"003" $"500002" $"sched_switch" ex_switch) $"sched_switch" ex_switch;
    EWrote (tl $"002" $"500003" $"tracing_mark_write" (TFree $"hello")) $"tracing_mark_write" (TFree $"hello") ].
Definition line (s : str) : str := s ++ [nl].
Definition ex_page : list str :=
  [line $"<html>"] ++ line $"<!-- BEGIN TRACE -->" :: [line $"<body>"] ++
  line ($"  <script class=" ++ quote ++ $"trace-data" ++ quote ++ $">") :: [line $"# tracer: nop"] ++
  map entry_str ex_items ++ [line $"  </script>"; line $"<!-- END TRACE -->"].
Definition ex_cfg (from : N) : config := Cfg ex_defs true true (f_of_ratio from 10, None) (fzero, None).
Notation ex_construct := (sys_construct (fun _ _ : unit => true) (fun _ => tt) (fun x => x) (fun x : list str => List.length x)
  (fun f : frame => f) Some 5).
Lemma no_prefix w l : (is_prefix w l = false) -> ~ starts w l.
Proof. intros E H. apply is_prefix_spec in H. congruence. Qed.
Example C103_ex :
  Page (map entry_str ex_items) ex_page /\ begins ex_items /\ Forall (entry_ok ex_defs) ex_items /\
  NoDup (map fst ex_defs) /\ NoDup (map (fun d => k_word (snd d)) ex_defs) /\
  Forall (fun d => titles_ok (snd (kind_of (snd d))) (texts_of (fst d) ex_items) /\
     Forall (fun q => (arrays q < 5)%nat) (parts_in (texts_of (fst d) ex_items))) ex_defs /\
  windows_ok (c_win (ex_cfg 0)) (c_abs (ex_cfg 0)) (f_of_ratio 125 10) /\
  match ex_construct (ex_cfg 0) (Fs ex_page None) with
  | Ok (tr, n) => n = Some (Cpus 4) /\ map (fun x => (fst x, map (fun r => skipn 4 (snd r)) (snd x))) (t_frames tr) =
      [($"sched_switch", let sw := [($"prev_comm", CStr $"adb server"); ($"prev_pid", CInt 20); ($"prev_prio", CInt 120); ($"prev_state", CStr $"R+");
                           ($"next_comm", CStr $"swapper/1"); ($"next_pid", CInt 0); ($"next_prio", CInt 120)] in [sw; sw]);
       ($"cpu_idle", []);
       ($"tracing_mark_write", [[($"event", CStr $"C"); ($"pid", CInt 77); ($"func", CStr $"level"); ($"data", CStr $"9")];
                                [($"string", CStr $"hello")]])]
  | Err _ => False
  end.
Proof.
  split; [|split; [exact I|split; [apply entriesb_ok; vm_compute; reflexivity|split; [|split; [|split; [|split; [|vm_compute; auto]]]]]]].
  - unfold ex_page. apply PageOf.
    + repeat constructor. intros [H|H]; revert H; apply no_prefix; vm_compute; reflexivity.
    + left. exists [nl]. reflexivity.
    + repeat constructor. intros [H|H]; revert H; apply no_prefix; vm_compute; reflexivity.
    + left. exists ($">" ++ [nl]). reflexivity.
    + apply Forall_cons; [left; apply occurs_false; vm_compute; reflexivity|].
      apply Forall_cons; [right; vm_compute; intuition discriminate|apply Forall_nil].
    + unfold Never. apply Forall_forall. intros l Hl He. apply end_iff in He.
      assert (X : forallb (fun l => negb (is_suffix end_line l)) (map entry_str ex_items) = true) by (vm_compute; reflexivity).
      rewrite forallb_forall in X. apply X in Hl. rewrite He in Hl. discriminate Hl.
    + right. split; [discriminate|]. do 2 eexists. split; [reflexivity|]. exists $"  ". reflexivity.
  - apply nodupb_ok. vm_compute. reflexivity.
  - apply nodupb_ok. vm_compute. reflexivity.
  - unfold ex_defs. do 3 (apply Forall_cons; [split; [apply titlesb_ok; vm_compute; reflexivity|vm_compute; repeat constructor]|]). apply Forall_nil.
  - do 2 (split; [vm_compute; reflexivity|]). do 2 (split; [exact I|]). left. split; [reflexivity|exact I].
Qed.
(** The window leaves no switch; and a page without one. *)
Example C103_ex_window : (do x <- ex_construct (ex_cfg 50) (Fs ex_page None) ;; Ok (snd x)) = Ok (Some NoRows).
Proof. vm_compute. reflexivity. Qed.
Example C103_ex_none :
  (do x <- ex_construct (ex_cfg 0) (Fs [line $"<!-- BEGIN TRACE -->"; line $"  var linuxPerfData"; entry_str (nth 1 ex_items (EJunk []))] None) ;;
   Ok (snd x)) = Err EKey.
Proof. vm_compute. reflexivity. Qed.
Example C103_ex_marker : exists m r, m_text m = TFree ("C"%char :: bar :: str_of_N 77 ++ bar :: $"level" ++ bar :: $"9") /\ marker_shows m r.
Proof.
  exists (Mark 3 fzero (tl $"002" $"500001" $"tracing_mark_write" (TFree $"x")) $"a" (TFree $"C|77|level|9")).
  exists (cells "C" (CInt 77) (CStr $"level") (CStr $"9") ++
    [($"__comm", CStr $"kworker/0:1"); ($"__pid", CInt 77); ($"__cpu", CInt 2); ($"__line", CInt 3)]).
  split; [reflexivity|]. exists (cells "C" (CInt 77) (CStr $"level") (CStr $"9")). split; [apply marker_iff; vm_compute; reflexivity|].
  intros key. unfold dlookup, cells, meta_cell. cbn [app dget ev_comm ev_pid ev_cpu ev_line mark_event m_line m_pos m_text].
  do 4 (destruct (eqs key _); [reflexivity|]). do 4 (destruct (eqs key _); [vm_compute; reflexivity|]). reflexivity.
Qed.

(** Finding: the end of the script ends the trace only after its first line: with no
    event in the trace, lines further down the page are read as events. *)
Theorem C103_empty_refuted : exists pre b mid d hdr e post,
  Never is_begin pre /\ is_begin b /\ Never is_data mid /\ is_data d /\ Forall junk_ok (d :: hdr) /\ is_end e /\
  systrace_body (pre ++ b :: mid ++ d :: hdr ++ [] ++ e :: post) <> [].
Proof.
  exists [], (line $"<!-- BEGIN TRACE -->"), [], (line $"  var linuxPerfData"), [], (line $"</script>"), [line $"a-1 [000] 1.5: ev: x=4"].
  split; [constructor|]. split; [left; exists [nl]; reflexivity|]. split; [constructor|]. split; [right; exists [nl]; reflexivity|].
  split; [constructor; [left; apply occurs_false; vm_compute; reflexivity|constructor]|]. split; [exists []; reflexivity|].
  vm_compute. discriminate.
Qed.

Print Assumptions C103_trace.
Print Assumptions C103_marker.
Print Assumptions C103_cpus.
Print Assumptions C103_no_cpus.
Print Assumptions C103_empty_refuted.
