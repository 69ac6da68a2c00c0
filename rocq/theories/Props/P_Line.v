(** Property C01: the fields of a report line (trappy/ftrace.py SPECIAL_FIELDS_RE). *)
From Coq Require Import List Ascii String ZArith NArith Bool Lia.
From Verif Require Import Lib.PyStr Lib.PyStrFacts Lib.F64 Model.Line Spec.Lines Proofs.LineP Proofs.LineReadP.
Import ListNotations.

(** Every printed line satisfying [line_ok] (any task name, with or without
    thread group, flags and fraction, any blanks) followed by trailing white
    space parses to exactly the printed fields. *)
Theorem C01_fields : forall (L : tline) (sp : str), line_ok L -> all_space sp ->
  exists t, printed_time L t /\
    parse_fields (line_str L ++ sp) =
    Ok (Some (Flds (l_comm L) (Z.of_N (dec_val (l_pid L))) (Z.of_N (dec_val (l_cpu L))) t (l_data L))).
Proof. exact (fun L sp H Hs => ex_intro _ _ (conj (line_time_printed L H) (parse_line L sp H Hs))). Qed.
(** The same line, with or without its newline, counts as a trace line. *)
Theorem C01_recognised : forall (L : tline) (rest : str), line_ok L -> rest = [] \/ rest = [nl] ->
  is_trace_line (line_str L ++ rest) = true.
Proof. exact trace_line. Qed.
(** Whatever the line: reading it never fails; it gives nothing exactly if the line (without
    trailing blanks) does not start with the parts of a trace line in their order, and
    otherwise the values of such parts, of which the task name does not start with a blank and
    goes as far as it can. *)
Theorem C01_read : forall line, match parse_fields line with
  | Ok None => ~ TraceLine (rstrip line)
  | Ok (Some f) => exists L rest, line_read L /\ rstrip line = line_str L ++ rest /\
      (forall c r, rest = c :: r -> c = nl) /\ (forall c r, l_comm L = c :: r -> is_space c = false) /\
      (forall L' rest', line_read L' -> rstrip line = line_str L' ++ rest' -> List.length (l_lead L' ++ l_comm L') <= List.length (l_lead L ++ l_comm L)) /\
      f_comm f = l_comm L /\ f_pid f = Z.of_N (dec_val (l_pid L)) /\ f_cpu f = Z.of_N (dec_val (l_cpu L)) /\
      printed_time L (f_time f) /\ f_data f = l_data L
  | Err _ => False
  end.
Proof. exact parse_read. Qed.
(** The lines at which a trace can start. *)
Theorem C01_starts : forall s, is_trace_line s = true <-> TraceLine s.
Proof. exact is_trace_line_iff. Qed.
Example C01_ex_read : TraceLine $"x-1 [0] 123: 45: foo: bar" /\ ~ TraceLine $"x-1 [0] 123: foo" /\ ~ TraceLine $"x-1[0] 1.5: foo: bar" /\
  match parse_fields $"  a-b-12 (  34) [001] d..2 5.25: raw: foo: x=1 y=2  " with
  | Ok (Some f) => f_comm f = $"a-b" /\ f_pid f = 12%Z /\ f_cpu f = 1%Z /\ f_data f = $"x=1 y=2" | _ => False end.
Proof.
  split; [apply C01_starts; vm_compute; reflexivity|]. split; [rewrite <- C01_starts; vm_compute; discriminate|].
  split; [rewrite <- C01_starts; vm_compute; discriminate|]. vm_compute. auto.
Qed.

Definition ex_line : tline :=
  TLine $"  " $"kworker/0:1-[x] my-task 7" $"123" (Some ($" ", $"-----")) $" " $"003"
        (Some ($" ", $"d..3")) $"  " $"1234" (Some $"567890") [($"sched_wakeup", $" ")] $"comm=a-b pid=12 prio=120".
Definition ex_raw : tline :=
  TLine [] $"task" $"7" None $"     " $"1" None $"      " $"12345678901" None [($"raw", $" "); ($"ev", $"  ")] $"x=1".
Example C01_ex_ok : line_ok ex_line /\ line_ok ex_raw.
Proof. split; apply line_okb_ok; vm_compute; reflexivity. Qed.
Example C01_ex_text : line_str ex_line =
  $"  kworker/0:1-[x] my-task 7-123 (-----) [003] d..3  1234.567890: sched_wakeup: comm=a-b pid=12 prio=120".
Proof. reflexivity. Qed.
Example C01_ex_raw_text : line_str ex_raw = $"task-7     [1]      12345678901: raw: ev:  x=1".
Proof. reflexivity. Qed.

(** Without the condition on the event name the time can be taken from the
    name: finding, see DESIGN.md. *)
Theorem C01_number_name_refuted : exists L : tline,
  line_str L = $"x-1 [0] 123: 45: foo: bar" /\ l_sec L = $"123" /\
  match parse_fields (line_str L) with
  | Ok (Some f) => feq (f_time f) (fdiv (f_of_N 45) f1e9) = true /\
                   feq (f_time f) (fdiv (f_of_N 123) f1e9) = false
  | _ => False
  end.
Proof.
  exists (TLine [] $"x" $"1" None $" " $"0" None $" " $"123" None [($"45", $" "); ($"foo", $" ")] $"bar").
  split; [reflexivity|]. split; [reflexivity|]. vm_compute. auto.
Qed.
(** Without the conditions on the tail, text of the payload can be taken for
    the task, pid and cpu. *)
Theorem C01_bracket_refuted : exists L : tline,
  line_str L = $"x-1 [0] 1.5: print: a-22 [3] 9.5: foo: bar" /\ l_comm L = $"x" /\ l_pid L = $"1" /\
  match parse_fields (line_str L) with
  | Ok (Some f) => f_comm f = $"x-1 [0] 1.5: print: a" /\ f_pid f = 22%Z /\ f_cpu f = 3%Z
  | _ => False
  end.
Proof.
  exists (TLine [] $"x" $"1" None $" " $"0" None $" " $"1" (Some $"5") [($"print", $" ")] $"a-22 [3] 9.5: foo: bar").
  split; [reflexivity|]. split; [reflexivity|]. split; [reflexivity|]. vm_compute. auto.
Qed.

Print Assumptions C01_fields.
Print Assumptions C01_recognised.
Print Assumptions C01_read.
Print Assumptions C01_starts.
Print Assumptions C01_number_name_refuted.
Print Assumptions C01_bracket_refuted.
