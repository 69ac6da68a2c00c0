(** C63: the data of an EventPlot. *)
From Coq Require Import List Ascii String ZArith QArith Bool Sorted Lia Lqa.
From Verif Require Import Lib.PyStr Model.EventPlot Spec.EventPlot Proofs.EventPlotP.
Import ListNotations.
Local Open Scope list_scope.

(** Names are ranked, lanes are labelled, and each lane of each name holds its intervals in order. *)
Theorem C63_plot : forall d input prefix num g, event_plot d input prefix num = Ok g -> GraphOf d input prefix num g.
Proof. exact plot_ok. Qed.
(** The call is rejected exactly when no lanes are given or an event is on a lane that is not listed. *)
Theorem C63_fails : forall d input prefix num e, event_plot d input prefix num = Err e <-> e = ERuntime /\ NoLanes d input num.
Proof. exact plot_fails. Qed.
(** The ranking is determined by the data. *)
Theorem C63_ranked : forall d k k', Ranked d k -> Ranked d k' -> k = k'.
Proof. exact ranked_unique. Qed.

Definition ex_data : data :=
  [($"a", [Event 0 1 (LS $"x"); Event 2 3 (LS $"y"); Event 4 6 (LS $"x")]); ($"b", [Event 0 9 (LS $"y")]); ($"c", [])].
Example C63_ex : exists g, event_plot ex_data [LS $"y"; LS $"x"] [] 0 = Ok g /\ g_keys g = [$"b"; $"a"] /\
  g_lanes g = [(0%nat, LS $"y"); (1%nat, LS $"x")] /\
  g_data g = [($"a", [(LZ 1, [(0, 1); (4, 6)]); (LZ 0, [(2, 3)])]); ($"b", [(LZ 0, [(0, 9)])]); ($"c", [])]%Q.
Proof. eexists. split; [vm_compute; reflexivity|]. repeat split. Qed.
Example C63_default_ex : event_plot [($"a", [Event 0 1 (LZ 7)])] [] $"Lane: " 2 =
  Ok (Graph [(0%nat, LS $"Lane: 0"); (1%nat, LS $"Lane: 1")] [$"a"] [($"a", [(LZ 7, [(0, 1)%Q])])]) /\
  event_plot ex_data [LS $"y"] [] 5 = Err ERuntime /\ event_plot ex_data [] [] 0 = Err ERuntime.
Proof. repeat split; vm_compute; reflexivity. Qed.

(** Names are not ranked by the average length of their intervals: the sum is divided by one more than their number. *)
Theorem C63_average_refuted : ~ (forall d input prefix num g a b ea eb, event_plot d input prefix num = Ok g ->
  g_keys g = [a; b] -> d = [(a, ea); (b, eb)] ->
  (total eb / inject_Z (Z.of_nat (List.length eb)) <= total ea / inject_Z (Z.of_nat (List.length ea)))%Q).
Proof.
  intros H. set (ea := [Event 0 (5#2) (LZ 0); Event 3 (11#2) (LZ 0); Event 6 (17#2) (LZ 0)]). set (eb := [Event 0 3 (LZ 0)]).
  specialize (H [($"a", ea); ($"b", eb)] [] [] 1%Z _ $"a" $"b" ea eb ltac:(vm_compute; reflexivity) ltac:(vm_compute; reflexivity) eq_refl).
  vm_compute in H. apply H. reflexivity.
Qed.
(** Two lanes with one name: the first stays empty. *)
Theorem C63_duplicate_lane_refuted : ~ (forall d input prefix num g l i, event_plot d input prefix num = Ok g ->
  nth_error input i = Some l -> forall n evs e, In (n, evs) d -> In e evs -> e_lane e = l ->
  exists m, In (n, m) (g_data g) /\ dget lane_eqb (LZ (Z.of_nat i)) m <> None).
Proof.
  intros H. specialize (H [($"a", [Event 0 1 (LS $"x")])] [LS $"x"; LS $"x"] [] 0%Z _ (LS $"x") 0%nat ltac:(vm_compute; reflexivity) eq_refl
    $"a" _ _ (or_introl eq_refl) (or_introl eq_refl) eq_refl).
  destruct H as (m & [E|[]] & N). assert (m = [(LZ 1, [(0, 1)%Q])]) as -> by congruence. now apply N.
Qed.
(** Without listed lanes the lanes of the events are not checked against their number. *)
Theorem C63_lane_range_refuted : ~ (forall d prefix num g n m l, event_plot d [] prefix num = Ok g ->
  In (n, m) (g_data g) -> In l (map fst m) -> exists i, l = LZ (Z.of_nat i) /\ In i (map fst (g_lanes g))).
Proof.
  intros H. specialize (H [($"a", [Event 0 1 (LZ 7)])] [] 1%Z _ $"a" [(LZ 7, [(0, 1)%Q])] (LZ 7) ltac:(vm_compute; reflexivity)
    ltac:(now left) ltac:(now left)).
  destruct H as (i & E & [<-|[]]). discriminate E.
Qed.
(** A name without time in its intervals is not listed although its data are kept. *)
Theorem C63_listed_refuted : ~ (forall d input prefix num g n evs, event_plot d input prefix num = Ok g -> In (n, evs) d -> evs <> [] -> In n (g_keys g)).
Proof.
  intros H. specialize (H [($"a", [Event 1 1 (LZ 0)])] [] [] 1%Z _ $"a" [Event 1 1 (LZ 0)] ltac:(vm_compute; reflexivity) (or_introl eq_refl) ltac:(discriminate)).
  destruct H.
Qed.

Print Assumptions C63_plot.
Print Assumptions C63_fails.
Print Assumptions C63_ranked.
