From Coq Require Import List ZArith QArith Qminmax Bool Lia Lqa.
From Verif Require Import Lib.PyStr Model.EventBars Model.EventView Spec.EventView Proofs.EventBarsP.
Import ListNotations.
Local Open Scope nat_scope.
Local Open Scope list_scope.

Section View.
Variable c : chart.
Hypothesis G : Good c.
Let W := (c_hi c - c_lo c)%Q.

Lemma W_pos : (0 < W)%Q.
Proof. destruct G as (L & _). unfold W. lra. Qed.

(** The domain for a translation and a factor *)
Lemma rescale_eq t k : ~ (k == 0)%Q ->
  same (rescale c t k) (c_lo c - t / k / c_w0 c * W, c_lo c - t / k / c_w0 c * W + W / k)%Q.
Proof.
  intros N. destruct G as (L & P & _). unfold rescale, invert, same, W. cbn [fst snd d0 d1 r0 r1]. split; field; split; try assumption; lra.
Qed.

Lemma same_trans a b d : same a b -> same b d -> same a d.
Proof. intros (A & B) (C & D). split; etransitivity; eauto. Qed.

(** Clamping to the domain *)
Lemma shift_left t k (v : view) : (1 <= k)%Q -> (v_w v == c_w0 c)%Q -> same (v_dom v) (rescale c t k) ->
  same (rescale c (t - sc (zoom_scale v) (c_lo c) + 0) k) (c_lo c, c_lo c + W / k)%Q /\
  same (rescale c (t - sc (zoom_scale v) (c_hi c) + v_w v) k) (c_hi c - W / k, c_hi c)%Q.
Proof.
  intros K E D. pose proof W_pos as HW. destruct G as (L & P & _).
  assert (~ (k == 0)%Q) as K0 by lra.
  destruct (same_trans _ _ _ D (rescale_eq t k K0)) as (D0 & D1). cbn [fst snd] in D0, D1.
  assert (forall z, sc (zoom_scale v) z == t + (z - c_lo c) / W * c_w0 c * k)%Q as S.
  { intros z. unfold sc, zoom_scale. cbn [d0 d1 r0 r1]. 
    assert (snd (v_dom v) - fst (v_dom v) == W / k)%Q as Ew by (rewrite D0, D1; ring).
    rewrite Ew, D0, E. field. repeat split; lra. }
  split; (eapply same_trans; [apply rescale_eq; assumption|]); unfold same; cbn [fst snd]; rewrite S.
  - split; unfold W; field; repeat split; try lra; fold W; lra.
  - rewrite E. split; unfold W; field; repeat split; try lra; fold W; lra.
Qed.

(** Updates of the guides leave the rest alone *)
Lemma zoomed_ok t k v : (1 <= k)%Q -> (v_w v == c_w0 c)%Q -> v_t v = t -> v_k v = k -> same (v_dom v) (rescale c t k) ->
  let v' := zoomed c v in
  v_w v' = v_w v /\ v_k v' = k /\ same (v_dom v') (rescale c (v_t v') k) /\
  (exists a b, same (v_dom v) (a, b) /\ Nearest c a b (v_dom v')) /\ v_axis v' = v_dom v' /\ (c_summary c = true -> v_ext v' = v_dom v') /\
  (snd (v_dom v') - fst (v_dom v') == W / k)%Q.
Proof.
  intros K E Et Ek D v'. unfold v', zoomed. subst t k. pose proof W_pos as HW.
  assert (~ (v_k v == 0)%Q) as K0 by lra.
  destruct (shift_left (v_t v) (v_k v) v K E D) as (SL & SR).
  pose proof (same_trans _ _ _ D (rescale_eq (v_t v) (v_k v) K0)) as (D0 & D1). cbn [fst snd] in D0, D1.
  destruct (qlt (fst (v_dom v)) (c_lo c)) eqn:C1; [|destruct (qlt (c_hi c) (snd (v_dom v))) eqn:C2].
  - apply qlt_true in C1. cbn -[sc rescale]. repeat split; try reflexivity; try (intros ->; reflexivity).
    + exists (fst (v_dom v)), (snd (v_dom v)). split; [split; reflexivity|]. apply Near_left; [assumption|].
      destruct SL as (A & B). split; cbn [fst snd] in *; [exact A|]. rewrite B, D1, D0. ring.
    + destruct SL as (A & B). cbn [fst snd] in A, B. rewrite A, B. ring.
  - apply qlt_false in C1. apply qlt_true in C2. cbn -[sc rescale]. repeat split; try reflexivity; try (intros ->; reflexivity).
    + exists (fst (v_dom v)), (snd (v_dom v)). split; [split; reflexivity|]. apply Near_right; [assumption|assumption|].
      destruct SR as (A & B). split; cbn [fst snd] in *; [|exact B]. rewrite A, D1, D0. ring.
    + destruct SR as (A & B). cbn [fst snd] in A, B. rewrite A, B. ring.
  - apply qlt_false in C1, C2. cbn -[sc rescale]. repeat split; try reflexivity; try (intros ->; reflexivity); try apply D.
    + exists (fst (v_dom v)), (snd (v_dom v)). split; [split; reflexivity|]. apply Near_in; [assumption|assumption|split; reflexivity].
    + rewrite D0, D1. ring.
Qed.

Definition Inv (v : view) : Prop :=
  (v_w v == c_w0 c)%Q /\ (1 <= v_k v)%Q /\ same (v_dom v) (rescale c (v_t v) (v_k v)) /\ Consistent c v.

Lemma nearest_inside k a b w : (1 <= k)%Q -> (b - a == W / k)%Q -> Nearest c a b w -> (c_lo c <= fst w /\ fst w < snd w /\ snd w <= c_hi c)%Q.
Proof.
  intros K E N. pose proof W_pos as HW.
  assert (0 < b - a)%Q as P. { rewrite E. apply Qlt_shift_div_l; lra. }
  assert (b - a <= W)%Q as Q1. { rewrite E. apply Qle_shift_div_r; [lra|]. nra. }
  unfold W in *. destruct N as [w L (A & B)|w L1 L2 (A & B)|w L1 L2 (A & B)]; cbn [fst snd] in *; rewrite A, B; lra.
Qed.

Lemma zoomed_inv t k v : (1 <= k)%Q -> (v_w v == c_w0 c)%Q -> v_t v = t -> v_k v = k -> same (v_dom v) (rescale c t k) -> Inv (zoomed c v).
Proof.
  intros K E Et Ek D. destruct (zoomed_ok t k v K E Et Ek D) as (H1 & H2 & H3 & (a & b & (S0 & S1) & N) & H5 & H6 & H7).
  assert (b - a == W / k)%Q as Eba.
  { assert (~ (k == 0)%Q) as K0 by lra. destruct (same_trans _ _ _ D (rescale_eq t k K0)) as (D0 & D1). cbn [fst snd] in *.
    rewrite <- S0, <- S1, D0, D1. ring. }
  unfold Inv. rewrite H1, H2. split; [assumption|]. split; [assumption|]. split; [exact H3|].
  split; [now apply (nearest_inside k a b)|]. rewrite H5. split; [split; reflexivity|]. intros Sm. rewrite (H6 Sm). split; reflexivity.
Qed.

Lemma brushed_ok e0 e1 v : (v_w v == c_w0 c)%Q -> Fits c (Brush e0 e1) ->
  same (v_dom (brushed c (e0, e1) v)) (e0, e1) /\ Inv (brushed c (e0, e1) v).
Proof.
  intros E (Sm & (L1 & L2 & L3) & Cl). pose proof W_pos as HW. destruct G as (L & P & Eg).
  set (v' := brushed c (e0, e1) v). set (k := (c_wg c / sc (x_scale c v) (c_lo c + snd (e0, e1) - fst (e0, e1)))%Q).
  assert (k == W / (e1 - e0))%Q as Ek.
  { unfold k, sc, x_scale. cbn [d0 d1 r0 r1 fst snd]. rewrite Eg, E. unfold W. field. repeat split; try lra. }
  assert (1 <= k)%Q as K1. { rewrite Ek. apply Qle_shift_div_l; unfold W; lra. }
  assert (v_k v' == k)%Q as Ev.
  { unfold v', brushed. cbn -[sc js_max js_min]. fold k. destruct (c_clamps c) eqn:C; [|reflexivity].
    rewrite js_max_ok, js_min_ok. specialize (Cl eq_refl).
    assert (k <= 4096)%Q. { rewrite Ek. apply Qle_shift_div_r; [lra|]. unfold W. lra. }
    rewrite Q.min_r by assumption. now rewrite Q.max_r. }
  assert (v_t v' == 0 - sc (x_scale c v) e0 * k)%Q as Et by reflexivity.
  assert (same (v_dom v') (rescale c (v_t v') (v_k v'))) as D by (split; reflexivity).
  assert (~ (v_k v' == 0)%Q) as K0 by (rewrite Ev; lra).
  assert (same (v_dom v') (e0, e1)) as De.
  { eapply same_trans; [exact D|]. eapply same_trans; [apply rescale_eq; assumption|].
    unfold same. cbn [fst snd]. rewrite Ev, Et. unfold sc, x_scale. cbn [d0 d1 r0 r1]. rewrite E, Ek. unfold W.
    split; field; repeat split; lra. }
  split; [exact De|]. split; [exact E|]. split; [rewrite Ev; assumption|]. split; [exact D|].
  destruct De as (De0 & De1). cbn [fst snd] in De0, De1.
  split; [rewrite De0, De1; lra|]. split; [|intros _]; split; symmetry; assumption.
Qed.

Lemma step_inv v a : Inv v -> Fits c a -> Inv (step c v a).
Proof.
  intros I F. pose proof I as (E & K & D & Cn). destruct a as [t k|e0 e1|ctrl px|w]; cbn [step Fits] in *.
  - apply (zoomed_inv t k); cbn; try assumption; try reflexivity. split; reflexivity.
  - now apply brushed_ok.
  - unfold click. split; [exact E|]. split; [exact K|]. split; [exact D|]. exact Cn.
  - unfold resize. destruct (c_summary c) eqn:Sm.
    + apply (zoomed_inv (v_t v) (v_k v)); cbn; try assumption; reflexivity.
    + split; [exact F|]. split; [exact K|]. split; [exact D|]. exact Cn.
Qed.
Lemma start_inv : Inv (start c).
Proof.
  pose proof W_pos as HW. destruct G as (L & P & Eg). split; [reflexivity|]. split; [cbn; lra|]. split.
  - destruct (rescale_eq 0 1 ltac:(lra)) as (A & B). unfold start. cbn [v_dom v_t v_k].
    split; cbn [fst snd] in *; [rewrite A|rewrite B]; unfold W; field; lra.
  - split; [cbn; lra|]. split; [split; reflexivity|]. intros _. split; reflexivity.
Qed.
Lemma run_inv acts : Forall (Fits c) acts -> Inv (run c acts).
Proof.
  unfold run. generalize start_inv. generalize (start c). induction acts as [|a acts IH]; intros v I F; [exact I|].
  inversion F; subst. cbn [fold_left]. apply IH; [now apply step_inv|assumption].
Qed.
Lemma run_consistent acts : Forall (Fits c) acts -> Consistent c (run c acts).
Proof. intros F. apply (run_inv acts F). Qed.
Lemma run_brush acts e0 e1 : Forall (Fits c) acts -> Fits c (Brush e0 e1) -> same (v_dom (run c (acts ++ [Brush e0 e1]))) (e0, e1).
Proof.
  intros F B. unfold run. rewrite fold_left_app. cbn [fold_left step]. apply brushed_ok; [|assumption]. apply (run_inv acts F).
Qed.
Lemma run_zoom acts t k a b : Forall (Fits c) acts -> (1 <= k)%Q -> Asked c t k a b -> Nearest c a b (v_dom (run c (acts ++ [Zoom t k]))).
Proof.
  intros F K (A & B). unfold run. rewrite fold_left_app. cbn [fold_left step]. change (fold_left (step c) acts (start c)) with (run c acts).
  set (v := View _ _ _ _ _ _ _ _ _). pose proof (run_inv acts F) as (E & _).
  destruct (zoomed_ok t k v K E eq_refl eq_refl ltac:(split; reflexivity)) as (_ & _ & _ & (a' & b' & (S0 & S1) & N) & _).
  assert (a == a' /\ b == b')%Q as (Ea & Eb).
  { pose proof W_pos as HW. destruct G as (L & P & Eg). assert (~ (k == 0)%Q) as K0 by lra.
    destruct (rescale_eq t k K0) as (R0 & R1). cbn [fst snd] in *. change (v_dom v) with (rescale c t k) in S0, S1.
    rewrite <- S0, <- S1, R0, R1. unfold sc in A, B. cbn [d0 d1 r0 r1] in A, B. fold W in A, B.
    assert (t == - (k * ((a - c_lo c) / W * c_w0 c)))%Q as Ta. { rewrite <- (Qplus_0_l (- _)), <- A. ring. }
    split; [rewrite Ta; field; repeat split; lra|].
    assert ((b - a) * k * c_w0 c == W * c_w0 c)%Q as Tb.
    { rewrite Ta in B. rewrite <- B at 2. field. lra. }
    assert ((b - a) * k == W)%Q as Tc. { apply (Qmult_inj_r _ _ (c_w0 c)); [lra|exact Tb]. }
    assert (b == a + W / k)%Q as ->. { rewrite <- Tc. field. lra. }
    rewrite Ta. field. repeat split; lra. }
  destruct N as [w H (X & Y)|w H1 H2 (X & Y)|w H1 H2 (X & Y)]; cbn [fst snd] in *.
  - apply Near_left; [lra|]. split; cbn [fst snd]; [exact X|rewrite Y; lra].
  - apply Near_right; [lra|lra|]. split; cbn [fst snd]; [rewrite X; lra|exact Y].
  - apply Near_in; [lra|lra|]. split; cbn [fst snd]; lra.
Qed.
End View.

(** The guides *)
Lemma zoomed_guides c v ctrl : guide_of ctrl (zoomed c v) = option_map (update (zoomed c v)) (guide_of ctrl v).
Proof.
  unfold zoomed. destruct (qlt _ _); [|destruct (qlt _ _)]; destruct ctrl; cbn -[sc update rescale];
    (destruct (v_a v); destruct (v_b v); reflexivity).
Qed.
Lemma update_drawn v g : DrawnAt v (update v g) /\ g_pos (update v g) = g_pos g.
Proof.
  unfold update, DrawnAt. destruct (Qle_bool (fst (v_dom v)) (g_pos g)) eqn:A; destruct (Qle_bool (g_pos g) (snd (v_dom v))) eqn:B; cbn [andb g_pos g_at].
  - apply Qle_bool_iff in A, B. split; [left|reflexivity]. split; [lra|reflexivity].
  - split; [right|reflexivity]. split; [|reflexivity]. intros (_ & C). apply Qle_bool_iff in C. congruence.
  - split; [right|reflexivity]. split; [|reflexivity]. intros (C & _). apply Qle_bool_iff in C. congruence.
  - split; [right|reflexivity]. split; [|reflexivity]. intros (C & _). apply Qle_bool_iff in C. congruence.
Qed.
Lemma brushed_guides c e v ctrl : guide_of ctrl (brushed c e v) = option_map (update (brushed c e v)) (guide_of ctrl v).
Proof. unfold brushed. destruct ctrl; cbn -[sc update rescale js_max]; (destruct (v_a v); destruct (v_b v); reflexivity). Qed.

Lemma step_moves c v a ctrl : ~ clicks a -> c_summary c = true \/ (forall w, a <> Resize w) ->
  guide_of ctrl (step c v a) = option_map (update (step c v a)) (guide_of ctrl v).
Proof.
  intros N S. destruct a as [t k|e0 e1|ct px|w]; cbn [step].
  - set (u := View _ _ _ _ _ _ _ _ _). now rewrite zoomed_guides.
  - apply brushed_guides.
  - exfalso. apply N. now exists ct, px.
  - destruct S as [S|S]; [|now destruct (S w)]. unfold resize. rewrite S. cbv zeta. set (u := View _ _ _ _ _ _ _ _ _). now rewrite zoomed_guides.
Qed.
Lemma step_click c v ct px ctrl : ct <> ctrl -> 
  let v' := step c v (Click ct px) in guide_of ctrl v' = guide_of ctrl v /\ v_dom v' = v_dom v /\ v_w v' = v_w v.
Proof. intros N. destruct ct, ctrl; try congruence; cbn; auto. Qed.
Lemma drawn_same v v' g : v_dom v' = v_dom v -> v_w v' = v_w v -> DrawnAt v g -> DrawnAt v' g.
Proof. intros D W. unfold DrawnAt, zoom_scale. now rewrite D, W. Qed.
Lemma guides_ok c pre ctrl px post : (forall a, In a post -> ~ is_click ctrl a) ->
  c_summary c = true \/ (forall w, ~ In (Resize w) post) ->
  exists g, guide_of ctrl (run c (pre ++ Click ctrl px :: post)) = Some g /\ g_pos g = invert (zoom_scale (run c pre)) px /\
    (Forall clicks post /\ g_at g = Some px \/ ~ Forall clicks post /\ DrawnAt (run c (pre ++ Click ctrl px :: post)) g).
Proof.
  intros N S. unfold run. rewrite fold_left_app. cbn [fold_left]. set (v0 := fold_left (step c) pre (start c)).
  set (v1 := step c v0 (Click ctrl px)).
  revert N S. induction post as [|a post IH] using rev_ind; intros N S.
  - exists (Guide (invert (zoom_scale v0) px) (Some px)). split; [unfold v1; destruct ctrl; reflexivity|].
    split; [reflexivity|]. left. split; [constructor|reflexivity].
  - destruct IH as (g & Eg & Ep & K).
    + intros a' I. apply N. apply in_app_iff. now left.
    + destruct S as [S|S]; [now left|right]. intros w I. apply (S w). apply in_app_iff. now left.
    + rewrite fold_left_app. cbn [fold_left]. set (v := fold_left (step c) post v1) in *.
      assert (~ is_click ctrl a) as Na by (apply N; apply in_app_iff; right; now left).
      assert (clicks a \/ ~ clicks a) as [(ct & p & ->)|Nc].
      { destruct a; [right|right|left|right]; try (intros (x & y & E); discriminate E). now exists ctrl0, px0. }
      * assert (ct <> ctrl) as Ne by (intros ->; apply Na; now exists p).
        destruct (step_click c v ct p ctrl Ne) as (E1 & E2 & E3). cbv zeta in *.
        exists g. rewrite E1. split; [assumption|]. split; [assumption|]. destruct K as [(F & A)|(F & A)].
        -- left. split; [|assumption]. apply Forall_app. split; [assumption|]. constructor; [now exists ct, p|constructor].
        -- right. split; [|eapply drawn_same; eauto]. intros C. apply F. apply Forall_app in C. apply C.
      * assert (guide_of ctrl (step c v a) = Some (update (step c v a) g)) as E1.
        { rewrite step_moves; [now rewrite Eg|assumption|]. destruct S as [S|S]; [now left|right]. intros w ->. apply (S w). apply in_app_iff. right. now left. }
        exists (update (step c v a) g). split; [assumption|]. destruct (update_drawn (step c v a) g) as (D1 & D2). split; [congruence|].
        right. split; [|assumption]. intros C. apply Forall_app in C as (_ & C). inversion C; contradiction.
Qed.
Definition Delta (v : view) : Prop :=
  match v_a v, v_b v with Some a, Some b => v_delta v = Some (g_pos b - g_pos a)%Q | _, _ => v_delta v = None end.
Lemma update_delta v : Delta v -> Delta (update_info v).
Proof.
  unfold Delta, update_info. cbn [v_a v_b v_delta]. destruct (v_a v), (v_b v); cbn [option_map]; try easy.
  now rewrite !(proj2 (update_drawn v _)).
Qed.
Lemma zoomed_delta c v : Delta v -> Delta (zoomed c v).
Proof.
  intros D. unfold zoomed. cbv zeta. apply update_delta. destruct (qlt _ _); [|destruct (qlt _ _)]; exact D.
Qed.
Lemma step_delta c v a : Delta v -> Delta (step c v a).
Proof.
  intros D. destruct a; cbn [step].
  - apply zoomed_delta. exact D.
  - unfold brushed. cbv zeta. apply update_delta. exact D.
  - unfold click, Delta in *. destruct ctrl; cbn [v_a v_b v_delta]; destruct (v_a v), (v_b v); try exact D; reflexivity.
  - unfold resize. cbv zeta. destruct (c_summary c); [apply zoomed_delta|]; exact D.
Qed.
Lemma delta_ok c acts : let v := run c acts in
  (forall a b, v_a v = Some a -> v_b v = Some b -> v_delta v = Some (g_pos b - g_pos a)%Q) /\
  (v_a v = None \/ v_b v = None -> v_delta v = None).
Proof.
  cbv zeta. assert (Delta (run c acts)) as D.
  { unfold run. assert (Delta (start c)) as H by reflexivity. revert H. generalize (start c).
    induction acts as [|a acts IH]; intros v H; [exact H|]. cbn [fold_left]. apply IH. now apply step_delta. }
  unfold Delta in D. split.
  - intros a b A B. now rewrite A, B in D.
  - intros [E|E]; rewrite E in D; [assumption|]. now destruct (v_a (run c acts)).
Qed.
