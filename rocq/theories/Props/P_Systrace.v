(** C26, C27: systrace files and userspace markers. *)
From Coq Require Import List Ascii String ZArith NArith Bool.
From Verif Require Import Lib.PyStr Lib.F64 Model.Base Model.Line Model.Registry Model.Populate Model.Systrace
  Spec.Lines Spec.Trace Spec.Marks Proofs.PopulateP Proofs.SystraceP.
Import ListNotations.

(** ** C26 *)
(** The lines considered are those of the specification, and no others. *)
Theorem C26_body : forall file body, systrace_body file = body <-> SysBody file body.
Proof. exact systrace_body_iff. Qed.
(** Without the markers, in this order, nothing is parsed. *)
Theorem C26_no_marker : forall file, Never is_begin file \/ Never is_data file -> systrace_body file = [].
Proof.
  intros file [H|H]; [now apply systrace_body_iff, SB_no_begin|].
  destruct (systrace_body_spec file) as [| | |a b f c d g h l rest body F G _ _]; auto.
  exfalso. destruct F as (-> & _ & _). destruct G as (-> & _ & Hd). unfold Never in H. rewrite Forall_forall in H.
  apply (H d); auto. apply in_or_app. right. right. apply in_or_app. right. now left.
Qed.
(** The number of cpus is one more than the largest cpu of a sched_switch row;
    with no such event (but the class selected) construction raises KeyError. *)
Theorem C26_cpus : forall l n, systrace_cpus (Some l) = Ok (Some n) <->
  (exists c, In c l /\ n = (c + 1)%Z) /\ forall c, In c l -> (c < n)%Z.
Proof. exact cpus_spec. Qed.
Theorem C26_cpus_error : forall l, (exists e, systrace_cpus l = Err e) <-> l = Some [].
Proof. intros [[|z l]|]; cbn; split; try (intros [e H]); try discriminate; auto. intros _. eauto. Qed.

Definition ex_line (s : str) : str := s ++ ["010"%char].
Definition ex_file : list str := map ex_line
  [$"a-1 [000] 1.5: ev: x=0"; $"<!-- BEGIN TRACE -->"; $"a-1 [000] 1.5: ev: x=1";
   $"  <script class=" ++ quote ++ $"trace-data" ++ quote ++ $">"; $"# header";
   $"a-1 [000] 1.5: ev: x=2"; $"junk"; $"a-1 [000] 2.5: ev: x=3"; $"  </script>"; $"a-1 [000] 3.5: ev: x=4"].
Example C26_ex : systrace_body ex_file = map ex_line [$"a-1 [000] 1.5: ev: x=2"; $"junk"; $"a-1 [000] 2.5: ev: x=3"].
Proof. vm_compute. reflexivity. Qed.
Example C26_ex_cpus : systrace_cpus (Some [0; 3; 1]%Z) = Ok (Some 4%Z).
Proof. reflexivity. Qed.
(** Finding: an end line without its newline (end of file) or with trailing
    blanks does not end the trace. *)
Theorem C26_end_refuted : exists file l, systrace_body file = map ex_line [$"a-1 [000] 1.5: ev: x=2"] ++ l /\
  l = [$"</script> " ++ ["010"%char]; $"a-1 [000] 3.5: ev: x=4" ++ ["010"%char]; $"</script>"].
Proof.
  exists (map ex_line [$"<!-- BEGIN TRACE -->"; $"  var linuxPerfData"; $"a-1 [000] 1.5: ev: x=2"; $"</script> ";
     $"a-1 [000] 3.5: ev: x=4"] ++ [$"</script>"]). eexists. split; [|reflexivity]. vm_compute. reflexivity.
Qed.

(** ** C27 *)
(** For every payload the dictionary is the one of the specification. *)
Theorem C27_all : forall s d, fallback_data_dict systrace_data_dict s = Ok d <-> Marker s d.
Proof. exact marker_iff. Qed.
Theorem C27_total : forall s, exists d, fallback_data_dict systrace_data_dict s = Ok d.
Proof. intros s. destruct (marker_total s) as (d & H). exists d. now apply marker_iff. Qed.
(** Printing the four parts and reading them back. *)
Theorem C27_round_trip : forall x n f d, capital x -> ~ In bar f -> ~ In newline d ->
  fallback_data_dict systrace_data_dict (x :: bar :: str_of_N n ++ bar :: f ++ bar :: d) =
  Ok (cells x (CInt (Z.of_N n)) (CStr f) (CStr d)).
Proof. exact marker_printed. Qed.
(** Traces other than SysTrace keep the text of every marker. *)
Theorem C27_other_traces : forall s, fallback_data_dict no_data_dict s = Ok [($"string", CStr s)].
Proof. reflexivity. Qed.
Example C27_ex : fallback_data_dict systrace_data_dict $"C|42|level|17" =
    Ok [($"event", CStr $"C"); ($"pid", CInt 42); ($"func", CStr $"level"); ($"data", CStr $"17")] /\
  fallback_data_dict systrace_data_dict $"B|42|do it" =
    Ok [($"event", CStr $"B"); ($"pid", CInt 42); ($"func", CStr $"do it"); ($"data", CNone)] /\
  fallback_data_dict systrace_data_dict $"E" =
    Ok [($"event", CStr $"E"); ($"pid", CNone); ($"func", CNone); ($"data", CNone)] /\
  fallback_data_dict systrace_data_dict $"hello|1|x" = Ok [($"string", CStr $"hello|1|x")].
Proof. vm_compute. auto. Qed.
Example C27_ex_hyps : capital "C" /\ ~ In bar $"level" /\ ~ In newline $"17".
Proof. split; [split; vm_compute; discriminate|]. split; vm_compute; intuition discriminate. Qed.
(** Finding: ordinary text that starts with a capital letter is taken for a
    marker and lost, so different texts become equal. *)
Theorem C27_text_refuted : exists a b, a <> b /\
  fallback_data_dict systrace_data_dict a = fallback_data_dict systrace_data_dict b.
Proof. exists $"Hello", $"Help me". split; [discriminate|]. vm_compute. reflexivity. Qed.

Print Assumptions C26_body.
Print Assumptions C26_no_marker.
Print Assumptions C26_cpus.
Print Assumptions C26_cpus_error.
Print Assumptions C26_end_refuted.
Print Assumptions C27_all.
Print Assumptions C27_total.
Print Assumptions C27_round_trip.
Print Assumptions C27_other_traces.
Print Assumptions C27_text_refuted.
