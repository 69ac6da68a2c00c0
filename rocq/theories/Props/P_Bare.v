(** C76: a trace as an object with one attribute per event. *)
From Coq Require Import List Ascii String Bool Arith ZArith.
From Verif Require Import Lib.PyStr Lib.PyStrFacts Lib.Regex Model.Bare Spec.Bare Proofs.BareP Proofs.BareQ.
Import ListNotations.
Local Open Scope list_scope.

(** One event added: rejected exactly when the trace has an attribute of that name; otherwise nothing else changes. *)
Theorem C76_rejected : forall T methods (tr : trace T) n f p,
  add_parsed_event methods tr n f p = Err EValue <-> In n (map fst (tr_dict tr)) \/ In n methods.
Proof. exact @add_rejects. Qed.
Theorem C76_added : forall T methods (tr : trace T) n f p tr', add_parsed_event methods tr n f p = Ok tr' ->
  getattr methods tr' n = Found (AEvent (List.length (tr_events tr))) /\
  (exists e, tr_events tr' = tr_events tr ++ [e] /\ ev_name e = n /\ ev_word e = n ++ $":" /\ ev_frame e = f /\
     (forall q, ev_pivot e = Some q <-> p = Some q /\ q <> [])) /\
  (forall m a, m <> n -> getattr methods tr m = Found a <-> getattr methods tr' m = Found a) /\
  tr_base tr' = tr_base tr /\ tr_normalized tr' = tr_normalized tr.
Proof. exact @add_same. Qed.

(** Histories of a [BareTrace]: the first event of a name is the attribute, names of the class and the instance are never hidden. *)
Theorem C76_first : forall T tsub tfalse methods (zero : T) os h tr h' n f p after,
  run tsub tfalse methods (bare_new zero, h) os = Ok (tr, h') -> ~ Builtin methods n -> FirstAdd os n f p after ->
  exists i e, getattr methods tr n = Found (AEvent i) /\ nth_error (tr_events tr) i = Some e /\ ev_name e = n /\ ev_frame e = f /\
    (forall q, ev_pivot e = Some q <-> p = Some q /\ q <> []).
Proof. exact @history_first. Qed.
Theorem C76_absent : forall T tsub tfalse methods (zero : T) os h tr h' n,
  run tsub tfalse methods (bare_new zero, h) os = Ok (tr, h') -> ~ Builtin methods n -> ~ Adds os n -> forall a, getattr methods tr n <> Found a.
Proof. exact @history_none. Qed.
Theorem C76_builtin : forall T tsub tfalse methods (zero : T) os h tr h' n,
  run tsub tfalse methods (bare_new zero, h) os = Ok (tr, h') -> Builtin methods n -> getattr methods tr n = Found AOther.
Proof. exact @history_builtin. Qed.

(** The filters: names some part of which matches the key, each once, in the order of their first events. *)
Theorem C76_filters : forall T tsub tfalse methods (zero : T) os h tr h' key n,
  run tsub tfalse methods (bare_new zero, h) os = Ok (tr, h') ->
  In n (get_filters key tr) <-> Adds os n /\ ~ Builtin methods n /\ Listed key n.
Proof. exact @filters_in. Qed.
Theorem C76_literal : forall key n, Listed (RLit key) n <-> Within key n.
Proof. exact listed_lit. Qed.
Theorem C76_once : forall T tsub tfalse methods (zero : T) os h tr h' key,
  run tsub tfalse methods (bare_new zero, h) os = Ok (tr, h') -> NoDup (get_filters key tr).
Proof. exact @filters_nodup. Qed.
Theorem C76_order : forall T tsub tfalse methods (zero : T) os1 os2 h tr1 h1 tr2 h2 key,
  run tsub tfalse methods (bare_new zero, h) os1 = Ok (tr1, h1) -> run tsub tfalse methods (bare_new zero, h) (os1 ++ os2) = Ok (tr2, h2) ->
  exists l, get_filters key tr2 = get_filters key tr1 ++ l.
Proof. exact @filters_order. Qed.

(** The frames: every later offset is subtracted once, in turn; other frames stay. *)
Theorem C76_frames : forall T tsub tfalse methods (zero : T) h os, OwnFrames os -> (forall n f p, In (Add n f p) os -> Timed (h f)) ->
  exists tr h', run tsub tfalse methods (bare_new zero, h) os = Ok (tr, h') /\
    (forall n f p before after, os = before ++ Add n f p :: after -> (forall g q, ~ In (Add n g q) before) -> ~ Builtin methods n ->
      fr_name (h' f) = Some $"Time" /\ fr_cols (h' f) = fr_cols (h f) /\
      (fr_index (h f) = [] \/ fr_cols (h f) = [] -> h' f = h f) /\
      (fr_cols (h f) <> [] -> fr_index (h' f) = map (fun t => shift tsub tfalse t (offsets (in_force zero before) after)) (fr_index (h f)))) /\
    (forall a, (forall n p, ~ In (Add n a p) os) -> h' a = h a).
Proof. exact @frames_ok. Qed.
Theorem C76_unnamed : forall T tsub tfalse (tr : trace T) h b e, In e (tr_events tr) -> fr_name (h (ev_frame e)) <> Some $"Time" ->
  ~ In $"Time" (map fst (fr_cols (h (ev_frame e)))) -> fr_index (h (ev_frame e)) <> [] -> fr_cols (h (ev_frame e)) <> [] -> tfalse b = false ->
  exists x, normalize_time tsub tfalse tr h (Some b) = Err x.
Proof. exact @unnamed_fails. Qed.

(** What happens to a frame whose index is not the time: with a column of that name the column becomes the index. *)
Theorem C76_untimed : forall T tsub tfalse b (f : frame T) c, tfalse b = false -> fr_index f <> [] -> fr_cols f <> [] -> IndexColumn f c ->
  (In c (map fst (fr_cols f)) -> normalize_frame tsub tfalse b f = Err EValue) /\
  (~ In c (map fst (fr_cols f)) -> c <> $"Time" -> ~ In $"Time" (map fst (fr_cols f)) -> normalize_frame tsub tfalse b f = Err EKey) /\
  (forall ts, ~ In c (map fst (fr_cols f)) -> c <> $"Time" -> dget eqs $"Time" (fr_cols f) = Some ts ->
     exists g, normalize_frame tsub tfalse b f = Ok g /\ fr_name g = Some $"Time" /\ fr_index g = map (fun t => tsub t b) ts /\
       fr_cols g = (c, fr_index f) :: ddel eqs $"Time" (fr_cols f)).
Proof. exact @untimed. Qed.
(** The names that are taken. *)
Theorem C76_names : forall T tsub tfalse (zero : T) os h tr h' n,
  run tsub tfalse bare_methods (bare_new zero, h) os = Ok (tr, h') -> In n bare_names ->
  getattr bare_methods tr n = Found AOther /\ forall f p, add_parsed_event bare_methods tr n f p = Err EValue.
Proof. exact @names_bare. Qed.
Theorem C76_ftrace : forall names, NoDup names -> (forall n, In n names -> ~ In n ftrace_names) ->
  exists d, construct ftrace_before ftrace_after names = Ok d /\
    (forall i n, nth_error names i = Some n -> dget eqs n d = Some (AEvent i)) /\
    (forall a, In a ftrace_names -> dget eqs a d = Some AOther) /\
    parsers names d = Ok (seq 0 (List.length names)).
Proof. exact names_ftrace. Qed.
Theorem C76_late : forall names n d, In n names -> In n ftrace_late -> construct ftrace_before ftrace_after names = Ok d -> parsers names d = Err EAttribute.
Proof. exact names_late. Qed.

(** The hint of [GenericFTrace.__getattr__]. *)
Theorem C76_hint : forall T methods (tr : trace T) a n, getattr methods tr a = Hint n <->
  ~ In a (map fst (tr_dict tr)) /\ ~ In a methods /\ ~ ((exists r, a = $"__" ++ r) /\ (exists r, a = r ++ $"__")) /\
  n <> a /\ exists l w r, tr_defs tr = l ++ (n, w) :: r /\ Colons a w /\ (forall m v, In (m, v) l -> ~ Colons a v).
Proof. exact @getattr_hint. Qed.

(** Construction of a parsed trace: each class has its attribute, no other attribute is lost. *)
Theorem C76_constructed : forall before after names, NoDup names -> In $"trace_classes" before ->
  (forall n, In n names -> ~ In n before /\ ~ In n after) ->
  exists d, construct before after names = Ok d /\
    (forall i n, nth_error names i = Some n -> dget eqs n d = Some (AEvent i)) /\
    (forall a, In a before \/ In a after -> dget eqs a d = Some AOther) /\
    parsers names d = Ok (seq 0 (List.length names)).
Proof. exact construct_ok. Qed.
(** An event named like a parameter ("window", …) cannot be parsed, one named "trace_classes" cannot be built. *)
Theorem C76_lost : forall before after names n d, In n names -> In n after -> construct before after names = Ok d -> parsers names d = Err EAttribute.
Proof. exact construct_lost. Qed.
Theorem C76_taken : forall before after names, In $"trace_classes" names -> construct before after names = Err EAttribute.
Proof. exact construct_taken. Qed.
(** An event named like an earlier attribute hides it. *)
Theorem C76_names_refuted : ~ (forall names d, NoDup names -> construct ftrace_before ftrace_after names = Ok d -> dget eqs $"basetime" d = Some AOther).
Proof.
  intros H. destruct (construct ftrace_before ftrace_after [$"basetime"]) as [d|] eqn:E; [|vm_compute in E; discriminate].
  specialize (H [$"basetime"] d). rewrite E in H. assert (N : NoDup [$"basetime"]) by (repeat constructor; intros Hi; destruct Hi).
  specialize (H N eq_refl). vm_compute in E. injection E as <-. vm_compute in H. discriminate.
Qed.
(** Two events sharing one frame are shifted twice. *)
Definition shared : list (op Z) := [Add $"counters" 0 None; Add $"pivoted" 0 (Some $"cpu"); Normalize (Some 100%Z)].
Definition one_frame : heap Z := fun _ => Frame (Some $"Time") [105; 109]%Z [($"cpu", [0; 1]%Z)].
Theorem C76_frames_refuted : ~ (forall T tsub tfalse methods (zero : T) h os tr h', (forall n f p, In (Add n f p) os -> Timed (h f)) ->
  run tsub tfalse methods (bare_new zero, h) os = Ok (tr, h') ->
  forall n f p before after, os = before ++ Add n f p :: after -> (forall g q, ~ In (Add n g q) before) -> ~ Builtin methods n ->
  fr_cols (h f) <> [] -> fr_index (h' f) = map (fun t => shift tsub tfalse t (offsets (in_force zero before) after)) (fr_index (h f))).
Proof.
  intros H. destruct (run Z.sub (Z.eqb 0) bare_methods (bare_new 0%Z, one_frame) shared) as [(tr, h')|] eqn:E; [|vm_compute in E; discriminate].
  assert (Ht : forall n f p, In (Add n f p) shared -> Timed (one_frame f)).
  { intros n f p _. split; [reflexivity|]. vm_compute. intros [Hi|Hi]; [discriminate|destruct Hi]. }
  specialize (H Z Z.sub (Z.eqb 0) bare_methods 0%Z one_frame shared tr h' Ht E $"counters" 0 None [] [Add $"pivoted" 0 (Some $"cpu"); Normalize (Some 100%Z)] eq_refl).
  assert (A : fr_index (h' 0) = [5; 9]%Z).
  { apply H; [intros g q Hi; destruct Hi| |discriminate]. intros Hb. unfold Builtin in Hb. rewrite <- !mem_In in Hb. vm_compute in Hb. destruct Hb; discriminate. }
  vm_compute in E. injection E as <- <-. vm_compute in A. discriminate.
Qed.

(** A history that meets the hypotheses: two events, the second added between two normalisations, a rejected one. *)
Definition history : list (op Z) :=
  [Add $"counters" 0 None; Normalize (Some 100%Z); Add $"loads" 1 (Some $"cpu"); Add $"counters" 2 None; Add $"get_filters" 3 None; Normalize None].
Example C76_ex : OwnFrames history /\ (forall n f p, In (Add n f p) history -> Timed (one_frame f)) /\
  match run Z.sub (Z.eqb 0) bare_methods (bare_new 0%Z, one_frame) history with
  | Ok (tr, h) => map (fun a => fr_index (h a)) [0; 1; 2; 3] = [[-95; -91]; [5; 9]; [105; 109]; [105; 109]]%Z /\
      get_filters (RLit []) tr = [$"counters"; $"loads"] /\ get_filters (RLit $"oad") tr = [$"loads"] /\
      getattr bare_methods tr $"loads" = Found (AEvent 1) /\ getattr bare_methods tr $"load" = Missing
  | Err _ => False
  end.
Proof.
  split; [|split].
  - intros i j n m f p q Hi Hj.
    do 6 (destruct i as [|i]; [cbn in Hi; try discriminate; injection Hi as <- <- <-; do 6 (destruct j as [|j]; [cbn in Hj; try discriminate; auto|]); destruct j; discriminate|]).
    destruct i; discriminate.
  - intros n f p _. split; [reflexivity|]. vm_compute. intros [Hi|Hi]; [discriminate|destruct Hi].
  - vm_compute. auto.
Qed.
Example C76_untimed_ex : IndexColumn (Frame None [1; 2]%Z [($"index", [3; 4]%Z); ($"Time", [5; 6]%Z)]) $"level_0" /\
  normalize_frame Z.sub (Z.eqb 0) 1%Z (Frame None [1; 2]%Z [($"index", [3; 4]%Z); ($"Time", [5; 6]%Z)]) =
    Ok (Frame (Some $"Time") [4; 5]%Z [($"level_0", [1; 2]%Z); ($"index", [3; 4]%Z)]) /\
  normalize_frame Z.sub (Z.eqb 0) 1%Z (Frame None [1; 2]%Z [($"index", [3; 4]%Z); ($"level_0", [5; 6]%Z)]) = Err EValue.
Proof. split; [left; split; [now left|reflexivity]|vm_compute; auto]. Qed.
Example C76_hint_ex : getattr bare_methods (Tr [($"sched_load", AEvent 0)] [($"sched_load", $"sched_load_avg:")] [] 0%Z false) $"sched_load_avg" = Hint $"sched_load".
Proof. reflexivity. Qed.
Example C76_constructed_ex : construct ftrace_before ftrace_after [$"sched_switch"; $"thermal"]
  = Ok (map plain ftrace_before ++ [($"sched_switch", AEvent 0); ($"thermal", AEvent 1)] ++ map plain ftrace_after) /\
  (match construct ftrace_before ftrace_after [$"sched_switch"; $"window"] with Ok d => parsers [$"sched_switch"; $"window"] d | Err e => Err e end) = Err EAttribute.
Proof. vm_compute. auto. Qed.
(** The key is a pattern: "." stands for any character. *)
Example C76_pattern_ex : Listed (RCls (fun _ => true)) $"thermal" /\ ~ Within $"." $"thermal".
Proof.
  split.
  - exists [], $"thermal", (St (Some "t"%char) $"hermal" []). split; [reflexivity|]. now constructor.
  - intros (a & b & E). assert (Hi : In "."%char $"thermal") by (rewrite E; apply in_or_app; right; now left).
    vm_compute in Hi. repeat destruct Hi as [Hi|Hi]; try discriminate. destruct Hi.
Qed.

Print Assumptions C76_rejected.
Print Assumptions C76_added.
Print Assumptions C76_first.
Print Assumptions C76_absent.
Print Assumptions C76_builtin.
Print Assumptions C76_filters.
Print Assumptions C76_literal.
Print Assumptions C76_once.
Print Assumptions C76_order.
Print Assumptions C76_frames.
Print Assumptions C76_unnamed.
Print Assumptions C76_untimed.
Print Assumptions C76_names.
Print Assumptions C76_ftrace.
Print Assumptions C76_late.
Print Assumptions C76_hint.
Print Assumptions C76_constructed.
Print Assumptions C76_lost.
Print Assumptions C76_taken.
Print Assumptions C76_names_refuted.
Print Assumptions C76_frames_refuted.
