(** Properties C02-C04 and C47: the parse loop (trappy/ftrace.py). *)
From Coq Require Import List Ascii String ZArith NArith Bool Lia Sorted.
From Verif Require Import Lib.PyStr Lib.PyStrFacts Lib.F64 Model.Base Model.Line Model.Registry Model.Populate
  Spec.Lines Spec.Trace Spec.Empties Proofs.PopulateP Proofs.EmptyP Proofs.BodyP.
Import ListNotations.

(** ** C02 *)
(** Parsing raises no exception, whatever the lines are. *)
Theorem C02_total : forall ws base body, exists st, populate ws base body = Ok st.
Proof. exact populate_total. Qed.
(** The printed times of the parsed lines determine the assigned times [us]
    (unchanged when later than the previous one, else the next double), and
    these are the times the events carry. *)
Theorem C02_times : forall ws base body st, populate ws base body = Ok st ->
  exists us, Assigned fzero (map (fun p => f_time (snd p)) (parsed 0 body)) us /\
    p_end st = last us fzero /\
    p_base st = (if ftruthy base then base else hd base us) /\
    p_lines st = Z.of_nat (List.length body) /\
    map fst (p_events st) = attrs ws /\
    (forall attr, Recorded ws attr (parsed 0 body) us (arr attr st)).
Proof. exact populate_spec. Qed.
(** An event on an earlier line has a strictly smaller time, unless it is +inf. *)
Theorem C02_strict : forall ws base body st, populate ws base body = Ok st ->
  forall a1 a2 e1 e2, In e1 (arr a1 st) -> In e2 (arr a2 st) -> (ev_line e1 < ev_line e2)%Z ->
  flt (ev_time e1) (ev_time e2) = true \/ ev_time e1 = finf.
Proof. exact events_ordered. Qed.
(** The rows of one event are in line order, hence in time order. *)
Theorem C02_sorted : forall ws base body st, populate ws base body = Ok st -> forall attr,
  StronglySorted (fun a b => ev_line a < ev_line b /\
    (flt (ev_time a) (ev_time b) = true \/ ev_time a = finf))%Z (arr attr st).
Proof. exact events_sorted. Qed.

Definition ex_kls : klass := Kls 1 $"sched_switch:" (Some $"sched_switch") $"SchedSwitch" false.
Definition ex_fb : klass := Kls 2 $"tracing_mark_write:" (Some $"tracing_mark_write") $"Fallback" true.
Definition ex_ws : words := [($"sched_switch:", ($"sched_switch", ex_kls)); ($"tracing_mark_write:", ($"marks", ex_fb))].
Definition ex_body : list str :=
  [$"a-1 [000] 10.000001: sched_switch: x=1"; $"garbage";
   $"b-2 [001] 10.000001: tracing_mark_write: sched_switch: y=1";
   $"b-2 [001] 9.000000: tracing_mark_write: e={} hello"; $"c-3 [000] 11.5: other: z=1"].
Example C02_ex : match populate ex_ws fzero ex_body with
  | Ok st => map ev_line (arr $"sched_switch" st) = [0%Z; 2%Z] /\ map ev_line (arr $"marks" st) = [3%Z] /\
             map ev_data (arr $"marks" st) = [$"hello"] /\ p_lines st = 5%Z /\
             map (fun e => fle (p_base st) (ev_time e)) (arr $"sched_switch" st) = [true; true] /\
             List.length (parsed 0 ex_body) = 4
  | Err _ => False end.
Proof. vm_compute. auto 10. Qed.

(** ** C03 *)
Theorem C03_base_end : forall ws base body st, populate ws base body = Ok st ->
  (parsed 0 body = [] -> p_base st = base /\ p_end st = fzero) /\
  (parsed 0 body <> [] -> ftruthy (p_end st) = true /\ ftruthy (p_base st) = true) /\
  (ftruthy base = false -> parsed 0 body <> [] ->
     (exists i l f, hd_error (parsed 0 body) = Some (i, l, f) /\
        (flt fzero (f_time f) = true -> p_base st = f_time f) /\
        (flt fzero (f_time f) = false -> next_double fzero (p_base st))) /\
     (forall attr e, In e (arr attr st) -> fle (p_base st) (ev_time e) = true)) /\
  (forall attr e, In e (arr attr st) -> fle (ev_time e) (p_end st) = true).
Proof. exact base_end. Qed.
(** Each event's fields are those of the body line numbered [__line]. *)
Theorem C03_lines : forall ws base body st, populate ws base body = Ok st ->
  forall attr e, In e (arr attr st) ->
  exists raw f, (0 <= ev_line e)%Z /\ nth_error body (Z.to_nat (ev_line e)) = Some raw /\
    parse_fields raw = Ok (Some f) /\ Dispatch ws raw attr /\
    ev_comm e = f_comm f /\ ev_pid e = f_pid f /\ ev_cpu e = f_cpu f /\ ev_data e = drop_empty (f_data f).
Proof. exact event_origin. Qed.
(** The body of a file starts at the first line that looks like a trace line. *)
Theorem C03_body : forall file, exists pre, file = pre ++ ftrace_body file /\
  Forall (fun l => ~ TraceLine l) pre /\
  (forall l rest, ftrace_body file = l :: rest -> TraceLine l).
Proof. exact body_starts. Qed.
Example C03_ex : ftrace_body [$"version = 6"; $"cpus=2"; $"a-1 [000] 1.5: ev: x=1"; $"junk"] =
  [$"a-1 [000] 1.5: ev: x=1"; $"junk"].
Proof. vm_compute. reflexivity. Qed.

(** ** C04 *)
Theorem C04_dispatch : forall ws line attr, get_trace_class line ws = Some attr <-> Dispatch ws line attr.
Proof. exact get_class_iff. Qed.
Theorem C04_nowhere : forall ws line,
  get_trace_class line ws = None <-> forall w a k, In (w, (a, k)) ws -> ~ occurs w line.
Proof. exact get_class_None. Qed.
Theorem C04_recorded : forall ws base body st, populate ws base body = Ok st ->
  forall m raw f attr, nth_error body m = Some raw -> parse_fields raw = Ok (Some f) -> Dispatch ws raw attr ->
  exists e, In e (arr attr st) /\ ev_line e = Z.of_nat m.
Proof. exact event_recorded. Qed.
Theorem C04_once : forall ws base body st, populate ws base body = Ok st ->
  forall a1 a2 e1 e2, In e1 (arr a1 st) -> In e2 (arr a2 st) -> ev_line e1 = ev_line e2 -> a1 = a2 /\ e1 = e2.
Proof. exact event_once. Qed.
Example C04_ex : get_trace_class $"a-1 [0] 1.5: tracing_mark_write: foo" ex_ws = Some $"marks" /\
  get_trace_class $"a-1 [0] 1.5: tracing_mark_write: sched_switch: foo" ex_ws = Some $"sched_switch" /\
  get_trace_class $"a-1 [0] 1.5: foo: bar" ex_ws = None.
Proof. vm_compute. auto. Qed.
(** Dispatch is not by the event name of the line: a line of event "print"
    whose payload mentions another event's word is recorded in that other event. *)
Theorem C04_by_name_refuted : exists ws raw,
  raw = $"a-1 [0] 1.5: print: saw sched_switch: in=1" /\
  ws = [($"print:", ($"print", Kls 1 $"print:" (Some $"print") $"Print" true));
        ($"sched_switch:", ($"sched_switch", ex_kls))] /\
  match populate ws fzero [raw] with
  | Ok st => arr $"print" st = [] /\ map ev_data (arr $"sched_switch" st) = [$"saw sched_switch: in=1"]
  | Err _ => False end.
Proof. do 2 eexists. split; [reflexivity|]. split; [reflexivity|]. vm_compute. auto. Qed.

(** ** C47 *)
(** Empty arrays that are not at the end of the payload are removed, and
    nothing else is. *)
Theorem C47_drop_empty : forall l last, Forall pword_ok l -> pword_ok last ->
  drop_empty (words_str l last) = words_str (filter keep l) last.
Proof. exact drop_empty_words. Qed.
Example C47_ex : let l := [Other $"a=1"; Empty $"load"; Empty $"x"; Other $"b={1"; Other $"2}"] in
  Forall pword_ok l /\ words_str l (Empty $"y") = $"a=1 load={} x={} b={1 2} y={}" /\
  words_str (filter keep l) (Empty $"y") = $"a=1 b={1 2} y={}".
Proof.
  split; [|split; reflexivity]. repeat constructor; try discriminate; try (cbn; intuition discriminate);
  intros (a & b & E); apply (f_equal (contains $"={}")) in E; (assert (C : contains $"={}" (a ++ $"={}" ++ b) = true) by (apply contains_spec; eauto)); rewrite C in E; discriminate.
Qed.
(** When the name is glued to other text, that text is joined to the next word. *)
Theorem C47_glue_refuted : drop_empty $"p=foo-b={} c=1" = $"p=foo-c=1" /\ drop_empty $"a=1 b={}" = $"a=1 b={}".
Proof. vm_compute. auto. Qed.

Print Assumptions C02_total.
Print Assumptions C02_times.
Print Assumptions C02_strict.
Print Assumptions C02_sorted.
Print Assumptions C03_base_end.
Print Assumptions C03_lines.
Print Assumptions C03_body.
Print Assumptions C04_dispatch.
Print Assumptions C04_nowhere.
Print Assumptions C04_recorded.
Print Assumptions C04_once.
Print Assumptions C04_by_name_refuted.
Print Assumptions C47_drop_empty.
Print Assumptions C47_glue_refuted.
