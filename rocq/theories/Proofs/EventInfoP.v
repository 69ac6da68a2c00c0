From Coq Require Import List Ascii String ZArith QArith Bool Lia Lqa.
From Verif Require Import Lib.PyStr Lib.PyStrFacts Model.EventPlot Model.EventBars Model.EventInfo Spec.EventInfo.
Import ListNotations.
Local Open Scope nat_scope.
Local Open Scope list_scope.

Lemma candidate_never m x0 y0 : NoLane0 m /\ candidate m x0 y0 = Err EType \/ ~ NoLane0 m /\ candidate m x0 y0 = Ok None.
Proof.
  unfold candidate, obj_get. cbv zeta. destruct (find _ m) as [[l ds]|] eqn:F.
  - right. apply find_some in F as (I & K). cbn [fst] in K. split.
    + intros N. destruct (N l ds I) as (N1 & N2). destruct l as [z|s]; cbn in K.
      * apply Z.eqb_eq in K. subst z. now apply N1.
      * apply eqs_eq in K. subst s. now apply N2.
    + cbn [snd]. destruct ds as [|d [|d' ds]]; reflexivity.
  - left. split; [|reflexivity]. intros l ds I. pose proof (find_none _ _ F _ I) as K. cbn [fst] in K. split; intros ->; discriminate K.
Qed.
Lemma info_never items x0 y0 :
  (exists n m, In (n, m) items /\ NoLane0 m) /\ current_info items x0 y0 = Err EType \/
  ~ (exists n m, In (n, m) items /\ NoLane0 m) /\ current_info items x0 y0 = Ok None.
Proof.
  induction items as [|[n m] items IH]; cbn [current_info].
  - right. split; [|reflexivity]. intros (n & m & [] & _).
  - destruct (candidate_never m x0 y0) as [(N & ->)|(N & ->)]; cbn [bind].
    + left. split; [|reflexivity]. exists n, m. split; [now left|assumption].
    + destruct IH as [((n' & m' & I & N') & ->)|(N' & ->)]; [left|right]; (split; [|reflexivity]).
      * exists n', m'. split; [now right|assumption].
      * intros (n' & m' & [I|I] & K); [injection I as <- <-; contradiction|]. apply N'. now exists n', m'.
Qed.

Lemma position_nth names : NoDup names -> forall i n, nth_error names i = Some n -> position n names = Some i.
Proof.
  induction 1 as [|k r N ND IH]; intros i n H; [destruct i; discriminate H|]. cbn [position]. destruct i as [|i]; cbn in H.
  - injection H as ->. now rewrite (proj2 (eqs_eq n n) eq_refl).
  - destruct (eqs n k) eqn:C; [|now rewrite (IH i n H)]. apply eqs_eq in C. subst k. exfalso. apply N. eapply nth_error_In; eauto.
Qed.
Lemma range_prefix m names : forall i n, (forall j k, j <= i -> nth_error names j = Some k -> exists c, dget eqs k m = Some c) ->
  nth_error names i = Some n ->
  nth_error (colour_range [] names (Some m)) i = dget eqs n m /\ i < List.length (colour_range [] names (Some m)).
Proof.
  cbn [colour_range]. induction names as [|k r IH]; intros i n H E; [destruct i; discriminate E|].
  destruct (H 0 k ltac:(lia) eq_refl) as (c & Ec). cbn [flat_map]. rewrite Ec. cbn [app List.length]. destruct i as [|i]; cbn in E.
  - injection E as ->. cbn. split; [congruence|lia].
  - destruct (IH i n) as (E1 & E2); [|assumption|split; [exact E1|lia]].
    intros j k' L Ek. apply (H (S j)); [lia|exact Ek].
Qed.
Lemma colour_prefix c20 names m i n : NoDup names -> nth_error names i = Some n ->
  (forall j k, j <= i -> nth_error names j = Some k -> exists c, dget eqs k m = Some c) ->
  colour c20 names (Some m) n = dget eqs n m.
Proof.
  intros ND E H. unfold colour. rewrite (position_nth names ND i n E).
  destruct (range_prefix m names i n H E) as (E1 & E2). change (colour_range c20 names (Some m)) with (colour_range [] names (Some m)).
  cbv zeta. set (r := colour_range [] names (Some m)) in *. destruct r as [|r0 r'] eqn:Er; [cbn in E2; lia|].
  rewrite Nat.mod_small; assumption.
Qed.
Lemma colour_own c20 names m n : NoDup names -> AllGiven names m -> In n names -> colour c20 names (Some m) n = dget eqs n m.
Proof.
  intros ND A I. apply In_nth_error in I as (i & E). apply (colour_prefix c20 names m i n ND E).
  intros j k _ Ek. apply A. eapply nth_error_In; eauto.
Qed.
Lemma colour_default c20 names i n : NoDup names -> c20 <> [] -> nth_error names i = Some n ->
  colour c20 names None n = nth_error c20 (i mod List.length c20).
Proof.
  intros ND N E. unfold colour. rewrite (position_nth names ND i n E). cbn [colour_range]. destruct c20; [congruence|reflexivity].
Qed.

Section Rows.
Variable lanes : nat.
Hypothesis L : 1 <= lanes.
Let n := inject_Z (Z.of_nat lanes).
Let h := (main_height lanes / n)%Q.
Lemma n_ge : (1 <= n)%Q.
Proof. unfold n. change 1%Q with (inject_Z 1). rewrite <- Zle_Qle. lia. Qed.
Lemma h_ge : (20 <= h)%Q.
Proof. pose proof n_ge. unfold h, main_height. fold n. apply Qle_shift_div_l; lra. Qed.
Lemma sc_main t : (sc (y_main lanes) t == t * h)%Q.
Proof. pose proof n_ge. unfold sc, y_main, h. cbn [d0 d1 r0 r1]. fold n. field. lra. Qed.
Lemma pos_main z : exists p, y_pos (y_main lanes) (LZ z) = Some p /\ (p == (inject_Z z + (1 # 2)) * h + (1 # 2))%Q.
Proof.
  eexists. split; [reflexivity|]. unfold offset. rewrite !sc_main. ring.
Qed.
Lemma width_main : (stroke_width (y_main lanes) / 2 == (4 # 10) * h)%Q.
Proof. unfold stroke_width. rewrite sc_main. field. Qed.
Lemma rows_inside z p q : (0 <= z < Z.of_nat lanes)%Z -> y_pos (y_main lanes) (LZ z) = Some q ->
  Covers q (stroke_width (y_main lanes)) p -> (0 <= p <= main_height lanes)%Q.
Proof.
  intros Z E (C1 & C2). destruct (pos_main z) as (q' & E' & Eq). rewrite E in E'. injection E' as <-.
  rewrite width_main in C1, C2. rewrite Eq in C1, C2. pose proof h_ge as H. pose proof n_ge as N.
  assert (main_height lanes == n * h)%Q as M. { unfold h. field. lra. }
  assert (0 <= inject_Z z)%Q as Z0 by (change 0%Q with (inject_Z 0); rewrite <- Zle_Qle; lia).
  assert (inject_Z z + 1 <= n)%Q as Z1.
  { unfold n. change 1%Q with (inject_Z 1). rewrite <- inject_Z_plus, <- Zle_Qle. lia. }
  assert (0 <= inject_Z z * h)%Q by nra. assert ((inject_Z z + 1) * h <= n * h)%Q by nra.
  split; [|rewrite M]; nra.
Qed.
Lemma rows_apart z z' p q q' : (z < z')%Z -> y_pos (y_main lanes) (LZ z) = Some q -> y_pos (y_main lanes) (LZ z') = Some q' ->
  Covers q (stroke_width (y_main lanes)) p -> Covers q' (stroke_width (y_main lanes)) p -> False.
Proof.
  intros Z E E' (C1 & C2) (C3 & C4). destruct (pos_main z) as (p1 & F & Eq). rewrite E in F. injection F as <-.
  destruct (pos_main z') as (p2 & F & Eq'). rewrite E' in F. injection F as <-.
  rewrite width_main in C1, C2, C3, C4. rewrite Eq in C1, C2. rewrite Eq' in C3, C4. pose proof h_ge as H.
  assert (inject_Z z + 1 <= inject_Z z')%Q as Z1.
  { change 1%Q with (inject_Z 1). rewrite <- inject_Z_plus, <- Zle_Qle. lia. }
  assert ((inject_Z z + 1) * h <= inject_Z z' * h)%Q by nra. nra.
Qed.
End Rows.
