(** Property C99: the tasks of the load average events. *)
From Coq Require Import List Ascii String ZArith NArith Bool Lia Sorting.Sorted.
From Verif Require Import Lib.PyStr Lib.PyStrFacts Lib.Regex Lib.F64 Model.Base Model.Line Model.Registry Model.Builtin Model.Populate Model.Classes Model.Tasks
  Spec.Lines Spec.Payload Spec.Arrays Spec.Parts Spec.Trace Spec.Written Spec.Events Spec.Classes Spec.Bare Spec.Tasks
  Proofs.PopulateP Proofs.ClassesR Proofs.TasksP.
Import ListNotations.
Local Open Scope list_scope.

(** Rows that have the name and the number of a task: each pair whose name the key matches is listed once, in
    the order in which they first appear. *)
Theorem C99_pids : forall key fr tasks,
  Forall2 (fun r p => dlookup $"comm" (snd r) = Some (CStr (fst p)) /\ dlookup $"pid" (snd r) = Some (CInt (snd p))) fr tasks -> fr <> [] ->
  exists l, get_pids key fr = Ok (map (fun p => (CStr (fst p), CInt (snd p))) l) /\ FirstOnes (fun p => Listed key (fst p)) tasks l.
Proof. exact pids_ok. Qed.
(** From the report: the tasks the lines print. *)
Theorem C99_report : forall defs hdr items k tasks,
  Forall junk_ok hdr -> begins items -> Forall (entry_ok defs) items ->
  In ($"sched_load_avg_task", k) defs -> kind_of k = (Fields, Same) ->
  Forall2 (fun t p => prints_task t (fst p) (snd p)) (texts_of $"sched_load_avg_task" items) tasks -> tasks <> [] ->
  exists st, populate (map (fun d => (k_word (snd d), d)) defs) fzero (ftrace_body (hdr ++ map entry_str items)) = Ok st /\
    forall fuel key, (forall q, In q (parts_in (texts_of $"sched_load_avg_task" items)) -> (arrays q < fuel)%nat) ->
      titles_ok Same (texts_of $"sched_load_avg_task" items) ->
      exists fr l, class_frame fuel k (arr $"sched_load_avg_task" st) = Ok fr /\
        get_pids key fr = Ok (map (fun p => (CStr (fst p), CInt (snd p))) l) /\
        FirstOnes (fun p => Listed key (fst p)) tasks l.
Proof. exact report_pids. Qed.
(** Without the columns (an event that did not happen) there is a KeyError. *)
Theorem C99_none : forall key fr,
  (forall r, In r fr -> dlookup $"comm" (snd r) = None) \/ (forall r, In r fr -> dlookup $"pid" (snd r) = None) -> get_pids key fr = Err EKey.
Proof. exact pids_none. Qed.
(** A task whose name is a number makes it fail for all. *)
Theorem C99_number_refuted : forall key fr r z, In r fr -> dlookup $"comm" (snd r) = Some (CInt z) -> dlookup $"pid" (snd r) <> None ->
  get_pids key fr = Err EAttribute \/ get_pids key fr = Err EValue.
Proof. exact pids_number. Qed.

Definition avg : klass := Kls 25 $"sched_load_avg_task:" (Some $"sched_load_avg_task") $"SchedLoadAvgTask" false.
Definition task_line (us comm : str) (words : list str) (pid : str) : entry :=
  let t := TFields [PF (Grp $"comm" comm words); PF (Grp $"pid" pid []); PF (Grp $"load_avg" $"7" [])] in
  EWrote (TLine $"   " $"kworker/0:1" $"77" None $"  " $"001" (Some ($" ", $"d..3")) $" " $"12" (Some us) [($"sched_load_avg_task", $" ")] (text_str t))
    $"sched_load_avg_task" t.
Definition ex_items : list entry :=
  [task_line $"500000" $"adb" [$"server"] $"20"; task_line $"500001" $"sh" [] $"31"; task_line $"500002" $"adb" [$"server"] $"20";
   task_line $"500003" $"adb" [] $"22"; task_line $"500004" $"sh" [] $"30"].
Example C99_ex : Forall (entry_ok [($"sched_load_avg_task", avg)]) ex_items /\ kind_of avg = (Fields, Same) /\
  Forall2 (fun t p => prints_task t (fst p) (snd p)) (texts_of $"sched_load_avg_task" ex_items)
    [($"adb server", 20%Z); ($"sh", 31%Z); ($"adb server", 20%Z); ($"adb", 22%Z); ($"sh", 30%Z)] /\
  titles_ok Same (texts_of $"sched_load_avg_task" ex_items) /\
  match populate [($"sched_load_avg_task:", ($"sched_load_avg_task", avg))] fzero (ftrace_body (map entry_str ex_items)) with
  | Ok st => match class_frame 5 avg (arr $"sched_load_avg_task" st) with
             | Ok fr => get_pids (RLit $"adb") fr = Ok [(CStr $"adb server", CInt 20); (CStr $"adb", CInt 22)] /\
                        get_pids (RLit []) fr = Ok [(CStr $"adb server", CInt 20); (CStr $"sh", CInt 31); (CStr $"adb", CInt 22); (CStr $"sh", CInt 30)]
             | Err _ => False end
  | Err _ => False end.
Proof.
  assert (HT : forall c w p n, forallb (fun x => negb (is_space x)) c = true -> py_int0 c = None -> int_literal p n ->
    prints_task (TFields [PF (Grp $"comm" c w); PF (Grp $"pid" p []); PF (Grp $"load_avg" $"7" [])]) (join $" " (c :: w)) n).
  { intros c w p n Hs Hc Hp. do 4 eexists. split; [reflexivity|]. split; [now left|]. split; [right; now left|]. split; [|split; [reflexivity|exact Hp]].
    intros z Hz. apply PayloadP.py_int0_iff in Hz; [congruence|]. apply Forall_forall. intros x Hx. rewrite forallb_forall in Hs. apply Hs in Hx.
    now destruct (is_space x). }
  split; [apply entriesb_ok; vm_compute; reflexivity|]. split; [reflexivity|]. split.
  - assert (HL : forall n, int_literal (str_of_Z n) n) by exact PayloadP.literal_dec.
    cbn [ex_items texts_of flat_map task_line eqs app].
    apply Forall2_cons; [apply (HT $"adb" [$"server"] _ _ eq_refl eq_refl (HL 20%Z))|].
    apply Forall2_cons; [apply (HT $"sh" [] _ _ eq_refl eq_refl (HL 31%Z))|].
    apply Forall2_cons; [apply (HT $"adb" [$"server"] _ _ eq_refl eq_refl (HL 20%Z))|].
    apply Forall2_cons; [apply (HT $"adb" [] _ _ eq_refl eq_refl (HL 22%Z))|].
    apply Forall2_cons; [apply (HT $"sh" [] _ _ eq_refl eq_refl (HL 30%Z))|]. apply Forall2_nil.
  - split; [apply titlesb_ok; vm_compute; reflexivity|]. vm_compute. auto.
Qed.

Print Assumptions C99_pids.
Print Assumptions C99_report.
Print Assumptions C99_none.
Print Assumptions C99_number_refuted.
