(** C87: the bars of an EventPlot. *)
From Coq Require Import List Ascii String ZArith QArith Qminmax Bool Lia Lqa.
From Verif Require Import Lib.PyStr Model.EventPlot Model.EventBars Spec.EventPlot Spec.EventBars Proofs.EventBarsP.
Import ListNotations.
Local Open Scope nat_scope.
Local Open Scope list_scope.

(** The events of a lane that follow each other: those in the window get their bars, and the last one a second stroke if it is the only one left. *)
Theorem C87_lane : forall x y l ds, Rising x -> Disjoint ds -> ds <> [] ->
  exists a b, lane_path false (d0 x) (d1 x) x y l ds = Ok (a ++ b) /\ Again x (y_pos y l) ds a /\ Bars x (y_pos y l) ds b.
Proof. exact lane_ok. Qed.
(** From the data that were passed to the strokes: every event that can be seen is drawn, on its lane and in the path of its name, and nothing else. *)
Theorem C87_draw : forall d input prefix num g st x y, event_plot d input prefix num = Ok g -> NoDup (map fst d) -> Ordered d -> Rising x ->
  exists ps, draw st x y g = Ok ps /\ AllShown d input x y ps /\ OnlyShown d input x y ps.
Proof. exact draw_ok. Qed.
(** A lane with any events can be drawn, whatever their order. *)
Theorem C87_total : forall st xMin xMax x y l ds, ds <> [] -> exists p, lane_path st xMin xMax x y l ds = Ok p.
Proof. exact lane_total. Qed.
(** With sampling a lane of a name takes at most 2000 strokes and the second one of its last event. *)
Theorem C87_stride : forall x y l ds xMin xMax p, lane_path true xMin xMax x y l ds = Ok p -> List.length p <= 2001.
Proof. exact lane_count. Qed.
(** A stroke lies half a pixel below the middle of its lane. *)
Theorem C87_position : forall y z, (d0 y == 0)%Q -> (r0 y == 0)%Q ->
  exists p, y_pos y (LZ z) = Some p /\ (p == sc y (inject_Z z + (1 # 2)) + (1 # 2))%Q.
Proof. exact pos_ok. Qed.

Definition ex_x : scale := Scale 0 10 0 1000.
Definition ex_y : scale := Scale 0 2 0 70.
Definition ex_d : data := [($"a", [Event 0 1 (LZ 0); Event 2 3 (LZ 1); Event 4 6 (LZ 0); Event 8 9 (LZ 0)]); ($"b", [Event 1 4 (LZ 0)])].
Example C87_ex : Ordered ex_d /\ Rising (Scale 5 7 0 1000) /\ NoDup (map fst ex_d) /\
  exists g, event_plot ex_d [] $"L" 2 = Ok g /\
  exists ps, draw false (Scale 5 7 0 1000) ex_y g = Ok ps /\ map (fun np => (fst np, List.length (snd np))) ps = [($"a", 1)].
Proof.
  split.
  - intros n evs l [E|[E|[]]]; injection E as <- <-; unfold intervals, is_lane; cbn [filter e_lane map lane_eqb].
    + destruct l as [z|s]; cbn; [|easy]. destruct z as [|[?|?|]|?]; cbn; repeat split; vm_compute; discriminate.
    + destruct l as [z|s]; cbn; [|easy]. destruct z as [|[?|?|]|?]; cbn; repeat split; vm_compute; discriminate.
  - split; [split; vm_compute; discriminate|]. split; [repeat constructor; cbn; intuition discriminate|].
    eexists. split; [vm_compute; reflexivity|]. eexists. split; [vm_compute; reflexivity|]. reflexivity.
Qed.
Example C87_lane_ex : exists ss, lane_path false 0 10 ex_x ex_y (LZ 1) [(1, 2); (3, 4); (12, 13)]%Q = Ok ss /\
  map (fun s => (Qred (s_from s), Qred (s_to s))) ss = [(100, 200); (300, 400)]%Q /\
  map (fun s => option_map Qred (s_y s)) ss = [Some 53; Some 53]%Q.
Proof. eexists. split; [vm_compute; reflexivity|]. split; vm_compute; reflexivity. Qed.
Example C87_stride_ex : stride_length true 4001 = 3 /\ every 3 0 [(0, 1); (2, 3); (4, 5); (6, 7)]%Q = [(0, 1); (6, 7)]%Q.
Proof. split; vm_compute; reflexivity. Qed.

(** Events that overlap on a lane are lost, even when they are in the order of their beginnings. *)
Theorem C87_overlap_refuted : ~ (forall x y l ds p d, Rising x -> (forall d, In d ds -> fst d <= snd d)%Q ->
  (forall i j a b, i < j -> nth_error ds i = Some a -> nth_error ds j = Some b -> (fst a <= fst b)%Q) ->
  lane_path false (d0 x) (d1 x) x y l ds = Ok p -> In d ds -> ~ NoBar x d -> p <> []).
Proof.
  intros H. specialize (H (Scale 5 6 0 100) ex_y (LZ 0) [(0, 10); (1, 2); (3, 4)]%Q [] (0, 10)%Q).
  apply H.
  - split; vm_compute; discriminate.
  - intros d [<-|[<-|[<-|[]]]]; vm_compute; discriminate.
  - intros i j a b L A B. destruct i as [|[|[|i]]]; try (destruct i; discriminate A); destruct j as [|[|[|j]]]; try lia; try (destruct j; discriminate B);
      injection A as <-; injection B as <-; vm_compute; discriminate.
  - vm_compute. reflexivity.
  - now left.
  - vm_compute. intros C. discriminate C.
  - reflexivity.
Qed.
(** A short bar at the right edge is drawn beyond the edge. *)
Theorem C87_edge_refuted : ~ (forall x y l ds p s, Rising x -> Disjoint ds -> lane_path false (d0 x) (d1 x) x y l ds = Ok p -> In s p -> (s_to s <= r1 x)%Q).
Proof.
  intros H. set (ds := [(1, 2); (1999 # 200, 10)]%Q).
  assert (exists p s, lane_path false (d0 ex_x) (d1 ex_x) ex_x ex_y (LZ 0) ds = Ok p /\ In s p /\ ~ (s_to s <= r1 ex_x)%Q) as (p & s & E & I & N).
  { eexists _, (Stroke _ _ _). split; [vm_compute; reflexivity|]. split; [right; left; reflexivity|]. vm_compute. intros C. now apply C. }
  apply N. apply (H ex_x ex_y (LZ 0) ds p s); try assumption; [split; vm_compute; discriminate|].
  cbn. repeat split; vm_compute; discriminate.
Qed.
(** The only event of a lane is drawn twice. *)
Theorem C87_once_refuted : ~ (forall x y l ds p, Rising x -> Disjoint ds -> lane_path false (d0 x) (d1 x) x y l ds = Ok p -> List.length p <= List.length ds).
Proof.
  intros H. specialize (H ex_x ex_y (LZ 0) [(1, 2)%Q] _ ltac:(split; vm_compute; discriminate) ltac:(cbn; repeat split; vm_compute; discriminate) ltac:(vm_compute; reflexivity)).
  cbn in H. lia.
Qed.
(** Sampling is never done, although it may be asked for. *)
Theorem C87_stride_refuted : ~ (forall d g x y ps n p, event_plot d [] [] 1 = Ok g -> draw true x y g = Ok ps -> In (n, p) ps -> List.length p <= 2001).
Proof.
  intros H. set (d := [($"a", map (fun i => Event (inject_Z (2 * Z.of_nat i)) (inject_Z (2 * Z.of_nat i + 1)) (LZ 0)) (seq 0 2002))]).
  set (x := Scale 0 4004 0 4004).
  assert (match event_plot d [] [] 1 with
          | Ok g => match draw true x ex_y g with Ok ps => map (fun np => N.of_nat (List.length (snd np))) ps | Err _ => [] end
          | Err _ => []
          end = [2002%N]) as Lp by (vm_compute; reflexivity).
  destruct (event_plot d [] [] 1) as [g|] eqn:Eg; [|discriminate Lp].
  destruct (draw true x ex_y g) as [ps|] eqn:Ep; [|discriminate Lp].
  destruct ps as [|[n p] [|? ?]]; try discriminate Lp. specialize (H d g x ex_y _ n p Eg Ep (or_introl eq_refl)).
  cbn [map snd] in Lp. injection Lp as Lp. lia.
Qed.

Print Assumptions C87_lane.
Print Assumptions C87_draw.
Print Assumptions C87_total.
Print Assumptions C87_stride.
Print Assumptions C87_position.
Print Assumptions C87_overlap_refuted.
Print Assumptions C87_edge_refuted.
Print Assumptions C87_once_refuted.
Print Assumptions C87_stride_refuted.
