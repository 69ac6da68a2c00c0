(** Property C97: when a report can be read at all. *)
From Coq Require Import List Ascii String ZArith NArith Bool Permutation.
From Verif Require Import Lib.PyStr Lib.F64 Model.Base Model.Line Model.Registry Model.Builtin Model.Populate Model.Window Model.Cache
  Model.Events Model.Classes Spec.Lines Spec.Payload Spec.Trace Spec.Events Spec.Classes Spec.Names Spec.Readable
  Proofs.PopulateP Proofs.ClassesR Proofs.ReadableP Proofs.ReadableQ.
Import ListNotations.
Local Open Scope list_scope.

(** Any file at all, with payloads that hold no array: the trace cannot be constructed
    exactly when some line of a selected event has a payload its class cannot read,
    and then the error is ParseError or ValueError. *)
Theorem C97_iff : forall (content digest header csv : Type)
  (deq : digest -> digest -> bool) (md5 : content -> digest) (file : content -> list str)
  (head : content -> header) (enc : frame -> csv) (dec : csv -> option frame)
  (fuel : nat) (c : config) (s : fsys),
  let words := map (fun d => (k_word (snd d), d)) (c_defs c) in
  let lines := ftrace_body (file (f_trace s)) in
  let made := fst (do_parse deq md5 (fun x => ftrace_body (file x)) head enc dec (class_frame fuel) c s) in
  NoDup (map (fun d => k_word (snd d)) (c_defs c)) ->
  c_nocache c = true \/ (f_cache s = None /\ c_defs c <> []) ->
  (forall a d, Prints words lines a d -> ~ In "{"%char d) ->
  ((exists e, made = Err e) <->
   exists a k d, In (a, k) (c_defs c) /\ Prints words lines a d /\ Unreadable (fst (kind_of k)) d) /\
  (forall e, made = Err e -> e = EParse \/ e = EValue).
Proof. exact (fun content digest header csv => parse_fails (content:=content) (digest:=digest) (header:=header) (csv:=csv)). Qed.

(** One such line is enough, whatever the other lines are (also with arrays). *)
Theorem C97_lost : forall (content digest header csv : Type)
  (deq : digest -> digest -> bool) (md5 : content -> digest) (file : content -> list str)
  (head : content -> header) (enc : frame -> csv) (dec : csv -> option frame)
  (fuel : nat) (c : config) (s : fsys) a k line f,
  NoDup (map (fun d => k_word (snd d)) (c_defs c)) ->
  c_nocache c = true \/ (f_cache s = None /\ c_defs c <> []) ->
  In (a, k) (c_defs c) -> In line (ftrace_body (file (f_trace s))) -> parse_fields line = Ok (Some f) ->
  Dispatch (map (fun d => (k_word (snd d), d)) (c_defs c)) line a ->
  ~ In "{"%char (f_data f) -> Unreadable (fst (kind_of k)) (f_data f) ->
  exists e, fst (do_parse deq md5 (fun x => ftrace_body (file x)) head enc dec (class_frame fuel) c s) = Err e.
Proof. exact (fun content digest header csv => parse_lost (content:=content) (digest:=digest) (header:=header) (csv:=csv)). Qed.

(** Payloads that are not readable: words without any "=" ... *)
Theorem C97_words : forall s, (exists x, In x s /\ is_space x = false) -> ~ In "="%char s -> ~ occurs $"FAILED TO PARSE" s ->
  Unreadable Fields s.
Proof. exact stray_words. Qed.
(** ... and system calls without "NR". *)
Theorem C97_calls : forall s, ~ occurs $"NR " s -> Unreadable Enters s /\ Unreadable Exits s.
Proof. exact (fun s H => conj (enter_needs s H) (exit_needs s H)). Qed.

(** The classes of trappy, imported in any order, take every line that has their
    word anywhere in it, if no other of their words is there; with the scopes that
    offer them a report with such a line is lost when its payload is not readable. *)
Theorem C97_taken : forall regs, Permutation regs builtin_regs -> exists r, register_all (Reg [] [] []) regs = Ok r /\
  forall scope a w c line, known_class scope a = Some (w, c, false) -> OnlyWord w line ->
    Dispatch (map (fun d => (k_word (snd d), d)) (class_definitions r scope [])) line a.
Proof. exact taken. Qed.
Theorem C97_others : forall (content digest header csv : Type)
  (deq : digest -> digest -> bool) (md5 : content -> digest) (file : content -> list str)
  (head : content -> header) (enc : frame -> csv) (dec : csv -> option frame) (fuel : nat)
  regs, Permutation regs builtin_regs -> exists r, register_all (Reg [] [] []) regs = Ok r /\
  forall scope a w cl (c : config) (s : fsys) line f,
    known_class scope a = Some (w, cl, false) -> c_defs c = class_definitions r scope [] ->
    c_nocache c = true \/ f_cache s = None ->
    In line (ftrace_body (file (f_trace s))) -> parse_fields line = Ok (Some f) -> OnlyWord w line ->
    ~ In "{"%char (f_data f) -> (forall k, k_pyname k = cl -> Unreadable (fst (kind_of k)) (f_data f)) ->
    exists e, fst (do_parse deq md5 (fun x => ftrace_body (file x)) head enc dec (class_frame fuel) c s) = Err e.
Proof. exact (fun content digest header csv => taken_lost (content:=content) (digest:=digest) (header:=header) (csv:=csv)). Qed.

(** A kworker starting its work, and a system call traced by its own event: neither is an
    event of trappy, and each of them makes the whole report unreadable. *)
Definition work_line : str := $" kworker/0:1-77  [001] 12.500000: workqueue_execute_start: work struct 0xffff8800: function vmstat_update" ++ [nl].
Definition call_line : str := $" cat-90  [001] 12.600000: sys_enter_openat: dfd: 0xffffff9c, filename: 0x7ffd" ++ [nl].
Definition good_line : str := $" cat-90  [001] 12.700000: cpu_frequency: state=1400000 cpu_id=3" ++ [nl].
Notation ex_parse := (do_parse (fun _ _ : unit => true) (fun _ => tt) (fun x => ftrace_body x) (fun x : list str => List.length x)
  (fun f : frame => f) Some (class_frame 5)).
Definition all_defs : list (str * klass) :=
  match register_all (Reg [] [] []) builtin_regs with Ok r => class_definitions r $"all" [] | Err _ => [] end.
Definition ex_cfg : config := Cfg all_defs true true (fzero, None) (fzero, None).
Definition ex_file (extra : list str) : fsys (content:=list str) (digest:=unit) (header:=nat) (csv:=frame) :=
  Fs ([$"version = 6" ++ [nl]] ++ good_line :: extra) None.
Definition outcome (l : list str) : option (option exn) :=
  match fst (ex_parse ex_cfg (ex_file l)) with Ok _ => Some None | Err e => Some (Some e) end.
Theorem C97_readable_refuted : outcome [] = Some None /\ outcome [work_line] = Some (Some EParse) /\ outcome [call_line] = Some (Some EValue).
Proof. vm_compute. auto. Qed.
Example C97_others_ex :
  OnlyWord $"function" work_line /\ OnlyWord $"sys_enter" call_line /\
  known_class $"all" $"function" = Some ($"function", $"FunctionTracer", false) /\
  known_class $"sched" $"sys_enter" = Some ($"sys_enter", $"SysEnter", false) /\
  (forall k, k_pyname k = $"FunctionTracer" -> Unreadable (fst (kind_of k)) $"work struct 0xffff8800: function vmstat_update") /\
  (forall k, k_pyname k = $"SysEnter" -> Unreadable (fst (kind_of k)) $"0xffffff9c, filename: 0x7ffd") /\
  option_map f_data (match parse_fields work_line with Ok o => o | Err _ => None end) = Some $"work struct 0xffff8800: function vmstat_update" /\
  option_map f_data (match parse_fields call_line with Ok o => o | Err _ => None end) = Some $"0xffffff9c, filename: 0x7ffd".
Proof.
  split; [apply only_word_ok; vm_compute; reflexivity|]. split; [apply only_word_ok; vm_compute; reflexivity|].
  split; [vm_compute; reflexivity|]. split; [vm_compute; reflexivity|].
  split; [|split; [|split; vm_compute; reflexivity]].
  - intros k Hk. unfold kind_of. rewrite Hk. change (Unreadable Fields $"work struct 0xffff8800: function vmstat_update"). apply C97_words.
    + exists "w"%char. split; [now left|reflexivity].
    + vm_compute. intuition discriminate.
    + apply occurs_false. vm_compute. reflexivity.
  - intros k Hk. unfold kind_of. rewrite Hk. change (Unreadable Enters $"0xffffff9c, filename: 0x7ffd"). apply C97_calls.
    apply occurs_false. vm_compute. reflexivity.
Qed.
(** All lines of the first report meet the hypotheses of C97_iff. *)
Definition data_of (line : str) : option str := option_map f_data (match parse_fields line with Ok o => o | Err _ => None end).
Example C97_iff_ex : NoDup (map (fun d => k_word (snd d)) all_defs) /\ List.length all_defs = 35 /\
  ftrace_body (f_trace (ex_file [work_line])) = [good_line; work_line] /\
  (forall a d, Prints (map (fun d => (k_word (snd d), d)) all_defs) [good_line; work_line] a d -> ~ In "{"%char d) /\
  exists d, Prints (map (fun d => (k_word (snd d), d)) all_defs) [good_line; work_line] $"function" d.
Proof.
  assert (Eg : data_of good_line = Some $"state=1400000 cpu_id=3") by (vm_compute; reflexivity).
  assert (Ew : data_of work_line = Some $"work struct 0xffff8800: function vmstat_update") by (vm_compute; reflexivity).
  split; [apply nodupb_ok; vm_compute; reflexivity|]. split; [vm_compute; reflexivity|]. split; [vm_compute; reflexivity|]. split.
  - intros a d (line & f & Hi & Hf & _ & ->). destruct Hi as [<-|[<-|[]]].
    + unfold data_of in Eg. rewrite Hf in Eg. injection Eg as ->. vm_compute. intuition discriminate.
    + unfold data_of in Ew. rewrite Hf in Ew. injection Ew as ->. vm_compute. intuition discriminate.
  - destruct (C97_taken builtin_regs (Permutation_refl _)) as (r & Er & H).
    assert (Ed : all_defs = class_definitions r $"all" []) by (unfold all_defs; now rewrite Er).
    unfold data_of in Ew. destruct (parse_fields work_line) as [[f|]|] eqn:Ef; [|discriminate Ew|discriminate Ew].
    exists (f_data f), work_line, f. split; [right; left; reflexivity|]. split; [exact Ef|]. split; [|reflexivity].
    rewrite Ed. apply (H _ _ $"function" $"FunctionTracer"); [vm_compute; reflexivity|]. apply only_word_ok. vm_compute. reflexivity.
Qed.

Print Assumptions C97_iff.
Print Assumptions C97_lost.
Print Assumptions C97_words.
Print Assumptions C97_calls.
Print Assumptions C97_taken.
Print Assumptions C97_others.
Print Assumptions C97_readable_refuted.
