(** Order and rounding facts about the binary64 operations. *)
From Coq Require Import ZArith NArith Bool Reals Lra Lia Psatz.
From Flocq Require Import Core BinarySingleNaN Sterbenz.
From Verif Require Import Lib.F64.
Open Scope R_scope.

Notation fexp64 := (SpecFloat.fexp prec64 emax64).
Notation rnd64 := (round radix2 fexp64 (round_mode mode_NE)).
Notation finite x := (is_finite x = true).

(** Non-negative and not NaN: every time stamp. *)
Definition nn (x : float) : bool :=
  match x with
  | B754_nan => false
  | B754_infinity s => negb s
  | B754_zero _ => true
  | B754_finite s _ _ _ => negb s
  end.

Global Instance fexp64_valid : Valid_exp fexp64.
Proof. apply (FLT_exp_valid (SpecFloat.emin prec64 emax64) prec64). Qed.
Global Instance fexp64_mono : Monotone_exp fexp64.
Proof. apply (FLT_exp_monotone (SpecFloat.emin prec64 emax64) prec64). Qed.

Lemma nn_pos x : nn x = true -> 0 <= B2R x.
Proof.
  destruct x as [s|s| |s m e H]; cbn; intros Hn; try lra.
  destruct s; [discriminate|]. apply F2R_ge_0. cbn. lia.
Qed.
Lemma nn_inf x : nn x = true -> is_finite x = false -> x = finf.
Proof. destruct x as [s|s| |s m e H]; cbn; try discriminate. destruct s; try discriminate. reflexivity. Qed.
Lemma nn_not_nan x : nn x = true -> is_nan x = false.
Proof. now destruct x. Qed.
Lemma nn_of_pos x : is_finite x = true -> 0 <= B2R x -> nn x = true.
Proof.
  destruct x as [s|s| |s m e H]; cbn; try discriminate; auto.
  intros _ Hp. destruct s; auto. exfalso.
  assert (F2R (Float radix2 (Zneg m) e) < 0) by (apply F2R_lt_0; cbn; lia).
  cbn in *. lra.
Qed.

Lemma flt_spec x y : nn x = true -> nn y = true ->
  (flt x y = true <-> finite x /\ (finite y -> B2R x < B2R y)).
Proof.
  intros Hx Hy. destruct (is_finite x) eqn:Fx, (is_finite y) eqn:Fy.
  - unfold flt. rewrite Bltb_correct by auto.
    case Rlt_bool_spec; intros; split; try tauto; try discriminate. intros [_ H']. specialize (H' eq_refl). lra.
  - apply nn_inf in Fy as ->; auto. split; [intros; split; auto; discriminate|intros _].
    destruct x as [s|s| |s m e Hb]; cbn in *; try discriminate; auto; now destruct s.
  - apply nn_inf in Fx as ->; auto. split; [|intros []; discriminate].
    destruct y as [s|s| |s m e Hb]; cbn in *; discriminate.
  - apply nn_inf in Fx as ->; auto. apply nn_inf in Fy as ->; auto.
    split; [discriminate|intros []; discriminate].
Qed.

Lemma fle_spec x y : nn x = true -> nn y = true ->
  (fle x y = true <-> (finite y -> finite x /\ B2R x <= B2R y)).
Proof.
  intros Hx Hy. destruct (is_finite x) eqn:Fx, (is_finite y) eqn:Fy.
  - unfold fle. rewrite Bleb_correct by auto.
    case Rle_bool_spec; intros; split; try tauto; try discriminate.
    intros H'. destruct (H' eq_refl). lra.
  - apply nn_inf in Fy as ->; auto. split; [intros; discriminate|intros _].
    destruct x as [s|s| |s m e Hb]; cbn in *; try discriminate; auto; now destruct s.
  - apply nn_inf in Fx as ->; auto. split; [|intros H; destruct (H eq_refl); discriminate].
    destruct y as [s|s| |s m e Hb]; cbn in *; discriminate.
  - apply nn_inf in Fx as ->; auto. apply nn_inf in Fy as ->; auto.
    split; auto. discriminate.
Qed.

Lemma flt_negb_fle x y : nn x = true -> nn y = true -> flt x y = negb (fle y x).
Proof.
  intros Hx Hy. apply eq_true_iff_eq. rewrite negb_true_iff, flt_spec by auto.
  split.
  - intros [Fx H]. destruct (fle y x) eqn:E; auto. rewrite fle_spec in E by auto.
    destruct (E Fx) as [Fy Hle]. specialize (H Fy). lra.
  - intros E. destruct (is_finite x) eqn:Fx.
    + split; auto. intros Fy. apply Rnot_le_lt. intros Hle.
      enough (fle y x = true) by congruence. apply fle_spec; auto.
    + exfalso. enough (fle y x = true) by congruence. apply fle_spec; auto. congruence.
Qed.
Lemma fle_refl x : nn x = true -> fle x x = true.
Proof. intros H. apply fle_spec; auto. intros; split; auto; lra. Qed.
Lemma fle_trans x y z : nn x = true -> nn y = true -> nn z = true ->
  fle x y = true -> fle y z = true -> fle x z = true.
Proof.
  intros Hx Hy Hz. rewrite !fle_spec by auto. intros A B Fz.
  destruct (B Fz) as [Fy ?]. destruct (A Fy). split; auto; lra.
Qed.
Lemma flt_le x y : nn x = true -> nn y = true -> flt x y = true -> fle x y = true.
Proof. intros Hx Hy. rewrite flt_spec, fle_spec by auto. intros [Fx A] Fy. split; auto. apply Rlt_le; auto. Qed.
Lemma fle_lt_trans x y z : nn x = true -> nn y = true -> nn z = true ->
  fle x y = true -> flt y z = true -> flt x z = true.
Proof.
  intros Hx Hy Hz. rewrite fle_spec, !flt_spec by auto. intros A [Fy B].
  destruct (A Fy) as [Fx ?]. split; auto. intros Fz. specialize (B Fz). lra.
Qed.
Lemma flt_le_trans x y z : nn x = true -> nn y = true -> nn z = true ->
  flt x y = true -> fle y z = true -> flt x z = true.
Proof.
  intros Hx Hy Hz. rewrite fle_spec, !flt_spec by auto. intros [Fx A] B.
  split; auto. intros Fz. destruct (B Fz) as [Fy ?]. specialize (A Fy). lra.
Qed.
Lemma flt_trans x y z : nn x = true -> nn y = true -> nn z = true ->
  flt x y = true -> flt y z = true -> flt x z = true.
Proof. intros Hx Hy Hz A B. apply (fle_lt_trans x y z); auto. now apply flt_le. Qed.
Lemma flt_irrefl x : flt x x = false.
Proof.
  unfold flt. destruct x as [s|s| |s m e H]; cbn; auto; try now destruct s.
  unfold Bltb. cbn. destruct s; cbn; rewrite ?Z.compare_refl, ?Pcompare_refl; auto;
  unfold Pos.compare_cont; now rewrite Pcompare_refl.
Qed.
Lemma flt_asym x y : nn x = true -> nn y = true -> flt x y = true -> flt y x = false.
Proof.
  intros Hx Hy H. destruct (flt y x) eqn:E; auto.
  assert (flt x x = true) by (apply (flt_trans x y x); auto). now rewrite flt_irrefl in *.
Qed.

(** ** Next double *)
Lemma fnext_nn x : nn x = true -> nn (fnext x) = true.
Proof.
  intros Hx. destruct (is_finite x) eqn:Fx.
  - assert (H := Bsucc_correct _ _ _ _ x Fx). unfold fnext.
    destruct (Rlt_bool _ _).
    + destruct H as (E & F & S). apply nn_of_pos; auto. rewrite E.
      eapply Rle_trans; [apply nn_pos, Hx|]. apply succ_ge_id.
    + destruct (Bsucc x) as [s|s| |s m e Hb]; cbn in H; try discriminate.
      injection H as ->. reflexivity.
  - apply nn_inf in Fx as ->; auto.
Qed.
Lemma fnext_gt x : nn x = true -> finite x -> flt x (fnext x) = true.
Proof.
  intros Hx Fx. apply flt_spec; auto using fnext_nn. split; auto.
  assert (H := Bsucc_correct _ _ _ _ x Fx). unfold fnext. intros Fs.
  destruct (Rlt_bool _ _).
  - destruct H as (E & F & S). rewrite E.
    destruct (Req_dec (B2R x) 0) as [->|Hz].
    + rewrite succ_0.
      change fexp64 with (FLT_exp (SpecFloat.emin prec64 emax64) prec64).
      rewrite ulp_FLT_0; auto with typeclass_instances. apply bpow_gt_0.
    + now apply succ_gt_id.
  - destruct (Bsucc x); cbn in *; discriminate.
Qed.
Lemma fnext_least x y : nn x = true -> nn y = true -> flt x y = true -> fle (fnext x) y = true.
Proof.
  intros Hx Hy H. apply flt_spec in H as [Fx H]; auto. apply fle_spec; auto using fnext_nn.
  intros Fy. specialize (H Fy).
  assert (S : succ radix2 fexp64 (B2R x) <= B2R y).
  { apply succ_le_lt; auto with typeclass_instances; try apply generic_format_B2R. }
  assert (C := Bsucc_correct _ _ _ _ x Fx). unfold fnext.
  rewrite Rlt_bool_true in C.
  - destruct C as (E & F & _). rewrite E. split; auto.
  - eapply Rle_lt_trans; [apply S|]. eapply Rle_lt_trans; [apply Rle_abs|].
    apply (abs_B2R_lt_emax prec64 emax64).
Qed.
Lemma fnext_inf : fnext finf = finf.
Proof. reflexivity. Qed.
Lemma fnext_truthy x : nn x = true -> ftruthy (fnext x) = true.
Proof.
  intros Hx. destruct (is_finite x) eqn:Fx.
  - assert (H := fnext_gt x Hx Fx). apply flt_spec in H as [_ H]; auto using fnext_nn.
    destruct (fnext x); auto. specialize (H eq_refl). cbn in H. apply nn_pos in Hx. lra.
  - apply nn_inf in Fx as ->; auto.
Qed.
Lemma flt_zero_truthy x : nn x = true -> (flt fzero x = true <-> ftruthy x = true).
Proof.
  intros H. destruct x as [s|s| |s m e Hb]; cbn in *; try discriminate.
  - split; intros H1; try discriminate.
  - destruct s; [discriminate|]. now split.
  - destruct s; [discriminate|]. now split.
Qed.

(** ** Decimal literals *)
Definition ratio (n : N) (d : positive) : R := IZR (Z.of_N n) / IZR (Zpos d).
Lemma ratio_ge0 n d : 0 <= ratio n d.
Proof.
  unfold ratio. apply Rmult_le_pos; [apply IZR_le; lia|].
  apply Rlt_le, Rinv_0_lt_compat, IZR_lt. lia.
Qed.

Lemma f_of_ratio_spec n d :
  nn (f_of_ratio n d) = true /\
  if Rlt_bool (rnd64 (ratio n d)) (bpow radix2 emax64)
  then finite (f_of_ratio n d) /\ B2R (f_of_ratio n d) = rnd64 (ratio n d)
  else f_of_ratio n d = finf.
Proof.
  assert (P := ratio_ge0 n d).
  destruct n as [|p].
  - split; auto. unfold ratio. cbn [Z.of_N]. unfold Rdiv. rewrite Rmult_0_l, round_0.
    2: auto with typeclass_instances.
    rewrite Rlt_bool_true by apply bpow_gt_0. auto.
  - unfold f_of_ratio.
    assert (C := proj2 (Bdiv_correct_aux prec64 emax64 prec64_gt_0 prec64_lt_emax mode_NE false p 0 false d 0)).
    generalize (proj1 (Bdiv_correct_aux prec64 emax64 prec64_gt_0 prec64_lt_emax mode_NE false p 0 false d 0)).
    intros V. cbv beta zeta in C.
    assert (Ex : F2R (Float radix2 (cond_Zopp false (Zpos p)) 0) / F2R (Float radix2 (cond_Zopp false (Zpos d)) 0)
                 = ratio (Npos p) d).
    { unfold F2R, ratio. cbn. now rewrite !Rmult_1_r. }
    rewrite Ex in C.
    assert (Rp : 0 <= rnd64 (ratio (Npos p) d)).
    { rewrite <- (round_0 radix2 fexp64 (round_mode mode_NE)). apply round_le; auto with typeclass_instances. }
    rewrite Rabs_pos_eq in C by auto.
    match type of V with SpecFloat.valid_binary _ _ ?zz = true => set (z := zz) in * end. clearbody z.
    destruct (Rlt_bool _ _).
    + destruct C as (E & F & S).
      assert (Fi : is_finite (SF2B z V) = true) by now rewrite is_finite_SF2B.
      assert (Er : B2R (SF2B z V) = rnd64 (ratio (Npos p) d)) by now rewrite B2R_SF2B.
      split; [|split]; auto. apply nn_of_pos; auto. now rewrite Er.
    + subst z. cbn. auto.
Qed.
Lemma f_of_ratio_nn n d : nn (f_of_ratio n d) = true.
Proof. apply f_of_ratio_spec. Qed.

(** Rounding is monotone: a later literal never reads as an earlier time. *)
Lemma f_of_ratio_mono n d n' d' :
  (Z.of_N n * Zpos d' <= Z.of_N n' * Zpos d)%Z ->
  fle (f_of_ratio n d) (f_of_ratio n' d') = true.
Proof.
  intros H.
  assert (Hr : ratio n d <= ratio n' d').
  { unfold ratio. apply IZR_le in H. rewrite !mult_IZR in H.
    assert (0 < IZR (Zpos d)) by (apply IZR_lt; lia).
    assert (0 < IZR (Zpos d')) by (apply IZR_lt; lia).
    apply Rmult_le_reg_r with (IZR (Zpos d)); auto.
    apply Rmult_le_reg_r with (IZR (Zpos d')); auto.
    field_simplify; lra. }
  destruct (f_of_ratio_spec n d) as [N1 S1], (f_of_ratio_spec n' d') as [N2 S2].
  assert (Hrr : rnd64 (ratio n d) <= rnd64 (ratio n' d')).
  { apply round_le; auto with typeclass_instances. }
  apply fle_spec; auto. intros F2.
  revert S2. case Rlt_bool_spec; intros B2; [intros [_ E2]|intros E2; rewrite E2 in F2; discriminate].
  revert S1. rewrite Rlt_bool_true by lra. intros [F1 E1]. split; auto. lra.
Qed.

(** ** Subtraction of a base time *)
Lemma fsub_spec x b : finite x -> finite b -> 0 <= B2R b <= B2R x ->
  finite (fsub x b) /\ B2R (fsub x b) = rnd64 (B2R x - B2R b) /\ nn (fsub x b) = true.
Proof.
  intros Fx Fb Hb.
  assert (C := Bminus_correct prec64 emax64 _ _ mode_NE x b Fx Fb).
  assert (0 <= rnd64 (B2R x - B2R b)).
  { rewrite <- (round_0 radix2 fexp64 (round_mode mode_NE)). apply round_le; auto with typeclass_instances. lra. }
  assert (rnd64 (B2R x - B2R b) <= B2R x).
  { rewrite <- (round_generic radix2 fexp64 (round_mode mode_NE) (B2R x)) at 2; [|apply generic_format_B2R].
    apply round_le; auto with typeclass_instances. lra. }
  assert (B := abs_B2R_lt_emax prec64 emax64 x). rewrite Rabs_pos_eq in B by lra.
  rewrite Rlt_bool_true in C by (rewrite Rabs_pos_eq; lra).
  destruct C as (E & F & S). unfold fsub. split; [|split]; auto.
  apply nn_of_pos; auto. now rewrite E.
Qed.

Lemma fsub_mono x y b : finite x -> finite y -> finite b -> 0 <= B2R b <= B2R x -> B2R x <= B2R y ->
  fle (fsub x b) (fsub y b) = true.
Proof.
  intros Fx Fy Fb Hb Hxy.
  destruct (fsub_spec x b) as (F1 & E1 & N1); auto.
  destruct (fsub_spec y b) as (F2 & E2 & N2); auto; [lra|].
  apply fle_spec; auto. intros _. split; auto. rewrite E1, E2.
  apply round_le; auto with typeclass_instances. lra.
Qed.

Lemma fsub_exact x b : finite x -> finite b -> 0 <= B2R b <= B2R x -> B2R x <= 2 * B2R b ->
  B2R (fsub x b) = B2R x - B2R b.
Proof.
  intros Fx Fb Hb H2. destruct (fsub_spec x b) as (_ & -> & _); auto.
  apply round_generic; auto with typeclass_instances.
  apply sterbenz; auto with typeclass_instances; try apply generic_format_B2R. lra.
Qed.
