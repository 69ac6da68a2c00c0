(** C89: colours, rows and information of an EventPlot. *)
From Coq Require Import List Ascii String ZArith QArith Bool Lia Lqa.
From Verif Require Import Lib.PyStr Model.EventPlot Model.EventBars Model.EventInfo Spec.EventInfo Proofs.EventInfoP.
Import ListNotations.
Local Open Scope nat_scope.
Local Open Scope list_scope.

(** Nothing is ever told about the event under the mouse; the script fails when some name has no event on the lane 0. *)
Theorem C89_never : forall items x0 y0,
  (exists n m, In (n, m) items /\ NoLane0 m) /\ current_info items x0 y0 = Err EType \/
  ~ (exists n m, In (n, m) items /\ NoLane0 m) /\ current_info items x0 y0 = Ok None.
Proof. exact info_never. Qed.
(** A name has the colour it was given if all names before it were given one. *)
Theorem C89_prefix : forall c20 names m i n, NoDup names -> nth_error names i = Some n ->
  (forall j k, j <= i -> nth_error names j = Some k -> exists c, dget eqs k m = Some c) ->
  colour c20 names (Some m) n = dget eqs n m.
Proof. exact colour_prefix. Qed.
Theorem C89_own : forall c20 names m n, NoDup names -> AllGiven names m -> In n names -> colour c20 names (Some m) n = dget eqs n m.
Proof. exact colour_own. Qed.
(** Without given colours they are taken in turn. *)
Theorem C89_default : forall c20 names i n, NoDup names -> c20 <> [] -> nth_error names i = Some n ->
  colour c20 names None n = nth_error c20 (i mod List.length c20).
Proof. exact colour_default. Qed.
(** The strokes lie inside the chart, and those of different lanes do not touch. *)
Theorem C89_inside : forall lanes, 1 <= lanes -> forall z p q, (0 <= z < Z.of_nat lanes)%Z -> y_pos (y_main lanes) (LZ z) = Some q ->
  Covers q (stroke_width (y_main lanes)) p -> (0 <= p <= main_height lanes)%Q.
Proof. exact rows_inside. Qed.
Theorem C89_apart : forall lanes, 1 <= lanes -> forall z z' p q q', (z < z')%Z ->
  y_pos (y_main lanes) (LZ z) = Some q -> y_pos (y_main lanes) (LZ z') = Some q' ->
  Covers q (stroke_width (y_main lanes)) p -> Covers q' (stroke_width (y_main lanes)) p -> False.
Proof. exact rows_apart. Qed.

Definition ex_items : list (str * list (lane * list iv)) := [($"a", [(LZ 0, [(0, 1); (2, 3)]%Q); (LZ 1, [(4, 5)%Q])])].
Example C89_never_ex : current_info ex_items (1 # 2) 0 = Ok None /\ current_info [($"a", [(LZ 1, [(4, 5)%Q])])] (9 # 2) 1 = Err EType.
Proof. split; vm_compute; reflexivity. Qed.
Example C89_ex : NoDup [$"a"; $"b"; $"c"] /\
  colour [$"c1"; $"c2"] [$"a"; $"b"; $"c"] None $"c" = Some $"c1" /\
  colour [] [$"a"; $"b"; $"c"] (Some [($"b", $"red"); ($"a", $"blue")]) $"b" = Some $"red" /\
  AllGiven [$"a"; $"b"] [($"b", $"red"); ($"a", $"blue")].
Proof.
  split; [repeat constructor; cbn; intuition discriminate|]. split; [vm_compute; reflexivity|]. split; [vm_compute; reflexivity|].
  intros n [<-|[<-|[]]]; eexists; vm_compute; reflexivity.
Qed.
Example C89_rows_ex : exists q, y_pos (y_main 4) (LZ 2) = Some q /\ Covers q (stroke_width (y_main 4)) 110 /\ (main_height 4 == 170)%Q.
Proof. eexists. split; [reflexivity|]. split; [split; vm_compute; discriminate|vm_compute; reflexivity]. Qed.

(** The event under the mouse is not reported. *)
Theorem C89_info_refuted : ~ (forall items x0 y0 n d, Under items x0 y0 n d -> exists v, current_info items x0 y0 = Ok (Some (n, v))).
Proof.
  intros H. destruct (H ex_items (1 # 2)%Q 0%Z $"a" (0, 1)%Q) as (v & E).
  - exists [(LZ 0, [(0, 1); (2, 3)]%Q); (LZ 1, [(4, 5)%Q])], [(0, 1); (2, 3)]%Q.
    split; [now left|]. split; [now left|]. split; [now left|]. split; vm_compute; discriminate.
  - vm_compute in E. discriminate E.
Qed.
(** When one of the names was given no colour, others do not have the one they were given. *)
Theorem C89_own_refuted : ~ (forall c20 names m n c, NoDup names -> In n names -> dget eqs n m = Some c -> colour c20 names (Some m) n = Some c).
Proof.
  intros H. specialize (H [] [$"x"; $"a"; $"b"] [($"a", $"red"); ($"b", $"blue")] $"a" $"red" ltac:(repeat constructor; cbn; intuition discriminate)
    ltac:(cbn; tauto) eq_refl). vm_compute in H. discriminate H.
Qed.
(** With an empty map of colours nothing has a colour. *)
Theorem C89_empty_refuted : ~ (forall c20 names m n, NoDup names -> c20 <> [] -> In n names -> colour c20 names (Some m) n <> None).
Proof. intros H. apply (H [$"c"] [$"a"] [] $"a"); [repeat constructor; cbn; tauto|discriminate|now left|vm_compute; reflexivity]. Qed.

Print Assumptions C89_never.
Print Assumptions C89_prefix.
Print Assumptions C89_own.
Print Assumptions C89_default.
Print Assumptions C89_inside.
Print Assumptions C89_apart.
Print Assumptions C89_info_refuted.
Print Assumptions C89_own_refuted.
Print Assumptions C89_empty_refuted.
