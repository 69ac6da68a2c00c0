(** C25: apply_callbacks replays the trace in order. *)
From Coq Require Import List Ascii String ZArith Bool Sorted.
From Verif Require Import Lib.PyStr Lib.F64 Model.Base Model.Line Model.Registry Model.Populate Model.Callbacks
  Spec.Trace Proofs.CallbacksP.
Import ListNotations.

(** For any frames: the function of each event is called once per row of that
    event, in the order of its rows, and there is no other call. *)
Theorem C25_once : forall (R : Type) (line : R -> Z) frames, NoDup (map fst frames) ->
  exists calls, callback_calls line frames = Ok calls /\
    (forall name rs, In (name, rs) frames -> map snd (filter (fun c => eqs name (fst c)) calls) = rs) /\
    (forall c, In c calls -> exists rs, In (fst c, rs) frames /\ In (snd c) rs).
Proof. exact @calls_exact. Qed.
(** When each frame's line numbers ascend, so do those of the calls. *)
Theorem C25_order : forall (R : Type) (line : R -> Z) frames calls, NoDup (map fst frames) ->
  Forall (fun f => StronglySorted (fun a b => (line a <= line b)%Z) (snd f)) frames ->
  callback_calls line frames = Ok calls ->
  StronglySorted (fun a b => (line (snd a) <= line (snd b))%Z) calls.
Proof. exact @calls_sorted. Qed.
(** On a parsed trace the hypotheses hold: the calls are exactly the recorded
    events of the requested names, in strictly ascending line order. *)
Theorem C25_trace : forall ws base body st names, populate ws base body = Ok st -> NoDup names ->
  exists calls, callback_calls ev_line (map (fun a => (a, arr a st)) names) = Ok calls /\
    (forall a e, In (a, e) calls <-> In a names /\ In e (arr a st)) /\
    StronglySorted (fun x y => (ev_line (snd x) < ev_line (snd y))%Z) calls.
Proof. exact trace_calls. Qed.
(** ... so the order in which the functions are given does not matter. *)
Theorem C25_map_order : forall ws base body st n1 n2, populate ws base body = Ok st -> NoDup n1 -> NoDup n2 ->
  (forall a, In a n1 <-> In a n2) ->
  callback_calls ev_line (map (fun a => (a, arr a st)) n1) = callback_calls ev_line (map (fun a => (a, arr a st)) n2).
Proof. exact trace_calls_order. Qed.
(** Each call gets the cell of every column under its name, and the time under
    "Index" unless the frame has a column of that name. *)
Theorem C25_row : forall cols t vals, List.length cols = List.length vals ->
  (NoDup cols -> forall i c v, nth_error cols i = Some c -> nth_error vals i = Some v ->
     dget eqs c (event_dict cols t vals) = Some (VCell v)) /\
  (~ In $"Index" cols -> dget eqs $"Index" (event_dict cols t vals) = Some (VTime t)).
Proof.
  intros cols t vals Hl. split.
  - intros Hn i c v. exact (event_dict_cell cols t vals i c v Hn Hl).
  - exact (event_dict_time cols t vals Hl).
Qed.

Example C25_ex :
  callback_calls (fun z : Z => z) [($"a", [1; 4; 5]%Z); ($"none", []); ($"b", [2; 3; 9]%Z)] =
  Ok [($"a", 1%Z); ($"b", 2%Z); ($"b", 3%Z); ($"a", 4%Z); ($"a", 5%Z); ($"b", 9%Z)].
Proof. vm_compute. reflexivity. Qed.
Example C25_ex_row : dget eqs $"cpu" (event_dict [$"__line"; $"cpu"] fzero [CInt 7; CInt 2]) = Some (VCell (CInt 2)) /\
  dget eqs $"Index" (event_dict [$"__line"; $"cpu"] fzero [CInt 7; CInt 2]) = Some (VTime fzero).
Proof. vm_compute. auto. Qed.
(** Finding: frames whose line numbers do not ascend are replayed out of order. *)
Theorem C25_unsorted_refuted : exists frames calls, NoDup (map fst frames) /\
  callback_calls (fun z : Z => z) frames = Ok calls /\
  ~ StronglySorted (fun a b => (snd a <= snd b)%Z) calls.
Proof.
  exists [($"a", [5; 1]%Z); ($"b", [3]%Z)], [($"b", 3%Z); ($"a", 5%Z); ($"a", 1%Z)].
  split; [repeat constructor; vm_compute; intuition discriminate|]. split; [vm_compute; reflexivity|].
  intros H. inversion H as [|? ? _ F]; subst. inversion F as [|? ? _ F']; subst. inversion F' as [|? ? Hc _]; subst. vm_compute in Hc. now apply Hc.
Qed.
(** Finding: a payload field named "Index" hides the time from the callback. *)
Theorem C25_index_refuted : exists cols t vals, List.length cols = List.length vals /\
  dget eqs $"Index" (event_dict cols t vals) = Some (VCell (CInt 3)).
Proof. exists [$"Index"], fzero, [CInt 3]. vm_compute. auto. Qed.

Print Assumptions C25_once.
Print Assumptions C25_order.
Print Assumptions C25_trace.
Print Assumptions C25_map_order.
Print Assumptions C25_row.
Print Assumptions C25_unsorted_refuted.
Print Assumptions C25_index_refuted.
