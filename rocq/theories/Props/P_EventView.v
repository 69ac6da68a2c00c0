(** C88: the view of an EventPlot. *)
From Coq Require Import List ZArith QArith Bool Lia Lqa.
From Verif Require Import Lib.PyStr Model.EventBars Model.EventView Spec.EventView Proofs.EventViewP.
Import ListNotations.
Local Open Scope nat_scope.
Local Open Scope list_scope.

(** Whatever is done, the view stays inside the data, and the axis and the brush show the same. *)
Theorem C88_consistent : forall c, Good c -> forall acts, Forall (Fits c) acts -> Consistent c (run c acts).
Proof. exact run_consistent. Qed.
(** The brush chooses the view. *)
Theorem C88_brush : forall c, Good c -> forall acts e0 e1, Forall (Fits c) acts -> Fits c (Brush e0 e1) ->
  same (v_dom (run c (acts ++ [Brush e0 e1]))) (e0, e1).
Proof. exact run_brush. Qed.
(** A gesture leads to the window it asks for, or to the nearest one inside the data. *)
Theorem C88_zoom : forall c, Good c -> forall acts t k a b, Forall (Fits c) acts -> (1 <= k)%Q -> Asked c t k a b ->
  Nearest c a b (v_dom (run c (acts ++ [Zoom t k]))).
Proof. exact run_zoom. Qed.
(** A guide keeps the time at which it was set, whatever is done with the view afterwards, and is drawn there when it is in the view. *)
Theorem C88_guides : forall c pre ctrl px post, (forall a, In a post -> ~ is_click ctrl a) ->
  c_summary c = true \/ (forall w, ~ In (Resize w) post) ->
  exists g, guide_of ctrl (run c (pre ++ Click ctrl px :: post)) = Some g /\ g_pos g = invert (zoom_scale (run c pre)) px /\
    (Forall clicks post /\ g_at g = Some px \/ ~ Forall clicks post /\ DrawnAt (run c (pre ++ Click ctrl px :: post)) g).
Proof. exact guides_ok. Qed.
(** The number shown is the time from the first guide to the second, from the moment both are set. *)
Theorem C88_delta : forall c acts, let v := run c acts in
  (forall a b, v_a v = Some a -> v_b v = Some b -> v_delta v = Some (g_pos b - g_pos a)%Q) /\
  (v_a v = None \/ v_b v = None -> v_delta v = None).
Proof. exact delta_ok. Qed.

Definition ex_c : chart := Chart 0 10 1000 1000 true true.
Definition ex_acts : list act := [Click false 100; Zoom (-1000) 2; Click true 250; Zoom 500 4; Brush 2 4].
Example C88_ex : Good ex_c /\ Forall (Fits ex_c) ex_acts /\ Fits ex_c (Brush 5 6) /\ Asked ex_c (-1000) 2 5 10 /\
  let v := run ex_c ex_acts in
  same (v_dom v) (2, 4)%Q /\ option_map (fun g => (Qred (g_pos g), g_at g)) (v_a v) = Some (1%Q, None) /\
  option_map (fun g => (Qred (g_pos g), g_at g)) (v_b v) = Some ((25 # 4)%Q, None) /\ option_map Qred (v_delta v) = Some (21 # 4)%Q.
Proof.
  split; [repeat split; vm_compute; reflexivity|]. split.
  - repeat constructor; cbn; try lra; try (vm_compute; discriminate).
  - split; [split; [reflexivity|]; split; [cbn; lra|intros _; vm_compute; discriminate]|]. split; [split; vm_compute; reflexivity|].
    cbv zeta. repeat split; vm_compute; reflexivity.
Qed.
Example C88_guides_ex : (forall a, In a [Zoom (-1000) 2; Click true 250] -> ~ is_click false a) /\
  exists g, v_a (run ex_c [Click false 700; Zoom (-1000) 2; Click true 250]) = Some g /\ Qred (g_pos g) = 7%Q /\ option_map Qred (g_at g) = Some 400%Q.
Proof.
  split; [intros a [<-|[<-|[]]] (px & E); discriminate E|]. eexists. split; [vm_compute; reflexivity|]. split; vm_compute; reflexivity.
Qed.

(** It is announced as the first less the second. *)
Theorem C88_label_refuted : ~ (forall c acts a b, let v := run c acts in
  v_a v = Some a -> v_b v = Some b -> exists q, v_delta v = Some q /\ (q == g_pos a - g_pos b)%Q).
Proof.
  intros H. destruct (H ex_c [Click false 100; Click true 200] _ _ ltac:(vm_compute; reflexivity) ltac:(vm_compute; reflexivity)) as (q & E & C).
  vm_compute in E. injection E as <-. vm_compute in C. discriminate C.
Qed.
(** A brush below the 4096th part of the data shows another place than the axis says, if the factor is limited. *)
Theorem C88_small_brush_refuted : ~ (forall c e0 e1, Good c -> c_summary c = true -> (c_lo c <= e0 /\ e0 < e1 /\ e1 <= c_hi c)%Q ->
  let v := run c [Brush e0 e1] in (fst (v_dom v) <= e1)%Q).
Proof.
  intros H. specialize (H ex_c 4%Q (4001 # 1000)%Q ltac:(repeat split; vm_compute; reflexivity) eq_refl ltac:(repeat split; vm_compute; (reflexivity || discriminate))).
  vm_compute in H. now apply H.
Qed.
(** After the window of the browser was resized the brush no longer chooses the view, *)
Theorem C88_resize_refuted : ~ (forall c w e0 e1, Good c -> (0 < w)%Q -> Fits c (Brush e0 e1) -> same (v_dom (run c [Resize w; Brush e0 e1])) (e0, e1)).
Proof.
  intros H. destruct (H ex_c 500%Q 4%Q 6%Q ltac:(repeat split; vm_compute; reflexivity) ltac:(lra)) as (A & _).
  - split; [reflexivity|]. split; [cbn; lra|]. intros _. vm_compute. discriminate.
  - vm_compute in A. discriminate A.
Qed.
(** and gestures leave the data. *)
Theorem C88_resize_zoom_refuted : ~ (forall c w t k, Good c -> (0 < w)%Q -> (1 <= k)%Q -> (c_lo c <= fst (v_dom (run c [Resize w; Zoom t k])))%Q).
Proof.
  intros H. specialize (H ex_c 500%Q 500%Q 2%Q ltac:(repeat split; vm_compute; reflexivity) ltac:(lra) ltac:(lra)). vm_compute in H. now apply H.
Qed.
(** Another plot that was made later, with another width, has the same effect. *)
Theorem C88_global_width_refuted : ~ (forall c e0 e1, (c_lo c < c_hi c /\ 0 < c_w0 c /\ 0 < c_wg c)%Q -> Fits c (Brush e0 e1) -> same (v_dom (run c [Brush e0 e1])) (e0, e1)).
Proof.
  intros H. destruct (H (Chart 0 10 1000 500 true true) 4%Q 6%Q ltac:(repeat split; vm_compute; reflexivity)) as (_ & A).
  - split; [reflexivity|]. split; [cbn; lra|]. intros _. vm_compute. discriminate.
  - vm_compute in A. discriminate A.
Qed.
(** Without a summary the guides stay where they were when the window is resized. *)
Theorem C88_no_summary_refuted : ~ (forall c w px g, Good c -> (0 < w)%Q -> v_a (run c [Click false px; Resize w]) = Some g ->
  DrawnAt (run c [Click false px; Resize w]) g).
Proof.
  intros H. destruct (H (Chart 0 10 1000 1000 false true) 500%Q 500%Q _ ltac:(repeat split; vm_compute; reflexivity) ltac:(lra) ltac:(vm_compute; reflexivity)) as [(_ & E)|(_ & E)].
  - injection E as E. vm_compute in E. discriminate E.
  - discriminate E.
Qed.

Print Assumptions C88_consistent.
Print Assumptions C88_brush.
Print Assumptions C88_zoom.
Print Assumptions C88_guides.
Print Assumptions C88_delta.
Print Assumptions C88_label_refuted.
Print Assumptions C88_small_brush_refuted.
Print Assumptions C88_resize_refuted.
Print Assumptions C88_resize_zoom_refuted.
Print Assumptions C88_global_width_refuted.
Print Assumptions C88_no_summary_refuted.
