(** Which colour a line gets. *)
From Coq Require Import List ZArith NArith Bool Reals Lra Lia Psatz.
From Flocq Require Import Core BinarySingleNaN Relative.
From Verif Require Import Lib.F64 Lib.F64Facts Model.Colours.
Import ListNotations.
Open Scope R_scope.

(** Whole multiples of a power of two that are small enough are doubles. *)
Lemma format m e : (Z.abs m < 2 ^ 53)%Z -> (-1000 <= e)%Z -> generic_format radix2 fexp64 (IZR m * bpow radix2 e).
Proof.
  intros Hm He. change (generic_format radix2 (FLT_exp (SpecFloat.emin prec64 emax64) prec64) (IZR m * bpow radix2 e)).
  apply generic_format_FLT. exists (Float radix2 m e); cbn; auto. unfold SpecFloat.emin. cbn. lia.
Qed.
Lemma rnd_ge x m e : (Z.abs m < 2 ^ 53)%Z -> (-1000 <= e)%Z -> IZR m * bpow radix2 e <= x -> IZR m * bpow radix2 e <= rnd64 x.
Proof. intros Hm He Hx. apply round_ge_generic; auto with typeclass_instances. now apply format. Qed.
Lemma rnd_le x m e : (Z.abs m < 2 ^ 53)%Z -> (-1000 <= e)%Z -> x <= IZR m * bpow radix2 e -> rnd64 x <= IZR m * bpow radix2 e.
Proof. intros Hm He Hx. apply round_le_generic; auto with typeclass_instances. now apply format. Qed.
Lemma rnd_ge_Z x m : (Z.abs m < 2 ^ 53)%Z -> IZR m <= x -> IZR m <= rnd64 x.
Proof. intros Hm Hx. replace (IZR m) with (IZR m * bpow radix2 0) in * by (cbn; lra). apply rnd_ge; auto; lia. Qed.
Lemma rnd_le_Z x m : (Z.abs m < 2 ^ 53)%Z -> x <= IZR m -> rnd64 x <= IZR m.
Proof. intros Hm Hx. replace (IZR m) with (IZR m * bpow radix2 0) in * by (cbn; lra). apply rnd_le; auto; lia. Qed.
Lemma rnd_err x : bpow radix2 (-900) <= x -> Rabs (rnd64 x - x) <= bpow radix2 (-53) * x.
Proof.
  intros Hx. assert (P := bpow_gt_0 radix2 (-900)).
  assert (H := relative_error_N_FLT radix2 (SpecFloat.emin prec64 emax64) prec64 eq_refl (fun z => negb (Z.even z)) x).
  rewrite (Rabs_pos_eq x) in H by lra. specialize (H ltac:(eapply Rle_trans; [apply bpow_le|exact Hx]; vm_compute; congruence)).
  change (bpow radix2 (- prec64 + 1)) with (bpow radix2 (-52)) in H.
  replace (bpow radix2 (-53)) with (/ 2 * bpow radix2 (-52)) by (cbn; lra). exact H.
Qed.

Lemma ratio_val n d : (Z.of_N n < 2 ^ 52)%Z -> finite (f_of_ratio n d) /\ B2R (f_of_ratio n d) = rnd64 (IZR (Z.of_N n) / IZR (Z.pos d)).
Proof.
  intros Hn. destruct (f_of_ratio_spec n d) as [_ H].
  assert (B : rnd64 (ratio n d) <= IZR (2 ^ 52)).
  { apply rnd_le_Z; [lia|]. unfold ratio. assert (1 <= IZR (Z.pos d)) by (apply IZR_le; lia).
    assert (0 <= IZR (Z.of_N n)) by (apply IZR_le; lia). assert (IZR (Z.of_N n) <= IZR (2 ^ 52)) by (apply IZR_le; lia).
    apply Rle_trans with (2 := H2). apply Rmult_le_reg_r with (IZR (Z.pos d)); [lra|]. unfold Rdiv. rewrite Rmult_assoc, Rinv_l by lra. nra. }
  rewrite Rlt_bool_true in H; [exact H|]. eapply Rle_lt_trans; [exact B|]. replace (IZR (2 ^ 52)) with (bpow radix2 52) by reflexivity.
  apply bpow_lt. reflexivity.
Qed.
Lemma int_val n : (Z.of_N n < 2 ^ 52)%Z -> finite (f_of_N n) /\ B2R (f_of_N n) = IZR (Z.of_N n).
Proof.
  intros Hn. unfold f_of_N. destruct (ratio_val n 1 Hn) as [F E]. split; auto. rewrite E. replace (IZR (Z.of_N n) / 1) with (IZR (Z.of_N n)) by lra.
  apply round_generic; auto with typeclass_instances. replace (IZR (Z.of_N n)) with (IZR (Z.of_N n) * bpow radix2 0) by (cbn; lra).
  apply format; lia.
Qed.
(** Multiplying a number that is neither negative nor great. *)
Lemma mul_val x n : (Z.of_N n < 2 ^ 52)%Z -> finite x -> 0 <= B2R x <= IZR (2 ^ 52) ->
  finite (fmul x (f_of_N n)) /\ B2R (fmul x (f_of_N n)) = rnd64 (B2R x * IZR (Z.of_N n)).
Proof.
  intros Hn Fx Hx. destruct (int_val n Hn) as [Fn En]. assert (H := Bmult_correct _ _ prec64_gt_0 prec64_lt_emax mode_NE x (f_of_N n)).
  rewrite En in H. assert (N0 : 0 <= IZR (Z.of_N n)) by (apply IZR_le; lia). assert (N1 : IZR (Z.of_N n) <= IZR (2 ^ 52)) by (apply IZR_le; lia).
  rewrite Rlt_bool_true in H.
  - destruct H as (E & F & _). rewrite Fx, Fn in F. split; auto.
  - assert (B : IZR (2 ^ 52) * IZR (2 ^ 52) = 1 * bpow radix2 104) by (rewrite <- mult_IZR; cbn; lra).
    assert (L : 0 <= rnd64 (B2R x * IZR (Z.of_N n))) by (apply (rnd_ge_Z _ 0); [lia|nra]).
    rewrite Rabs_pos_eq by exact L. eapply Rle_lt_trans; [apply (rnd_le _ 1 104); try lia; nra|].
    rewrite Rmult_1_l. apply bpow_lt. reflexivity.
Qed.
Lemma trunc_val (x : float) z : finite x -> IZR z <= B2R x < IZR (z + 1) -> (0 <= z)%Z -> Btrunc x = z.
Proof.
  intros Fx Hx Hz. apply eq_IZR. rewrite Btrunc_correct by exact prec64_lt_emax. rewrite round_FIX_IZR by auto with typeclass_instances. f_equal.
  rewrite Ztrunc_floor; [now apply Zfloor_imp|]. apply Rle_trans with (2 := proj1 Hx). apply IZR_le. lia.
Qed.
Lemma trunc_ge (x : float) z : finite x -> IZR z <= B2R x -> (0 <= z)%Z -> (z <= Btrunc x)%Z.
Proof.
  intros Fx Hx Hz. apply le_IZR. rewrite Btrunc_correct by exact prec64_lt_emax. rewrite round_FIX_IZR by auto with typeclass_instances.
  apply IZR_le. rewrite Ztrunc_floor; [now apply Zfloor_lub|]. apply Rle_trans with (2 := Hx). apply IZR_le. lia.
Qed.
Lemma trunc_le (x : float) z : finite x -> 0 <= B2R x < IZR (z + 1) -> (Btrunc x <= z)%Z.
Proof.
  intros Fx Hx. apply Z.lt_succ_r. apply lt_IZR. rewrite Btrunc_correct by exact prec64_lt_emax. rewrite round_FIX_IZR by auto with typeclass_instances.
  rewrite Ztrunc_floor by lra. eapply Rle_lt_trans; [apply Zfloor_lb|]. unfold Z.succ. lra.
Qed.

Section Entry.
  Variables (i : N) (n : positive).
  Hypothesis (Hi : (Z.of_N i < 2 ^ 50)%Z) (Hn : (Z.pos n < 2 ^ 50)%Z).
  Notation I := (IZR (Z.of_N i)).
  Notation K := (IZR (Z.pos n)).
  Let x := normalize (Npos n) i.
  Lemma I0 : 0 <= I. Proof. apply IZR_le. lia. Qed.
  Lemma K1 : 1 <= K. Proof. apply IZR_le. lia. Qed.
  Lemma x_val : finite x /\ B2R x = rnd64 (I / K).
  Proof. unfold x. cbn. apply ratio_val. lia. Qed.
  Lemma x_bounds : 0 <= B2R x <= IZR (2 ^ 52).
  Proof.
    pose proof I0. pose proof K1. destruct x_val as [_ ->]. assert (0 <= I / K) by (apply Rmult_le_pos; [lra|]; left; apply Rinv_0_lt_compat; lra).
    split; [apply (rnd_ge_Z _ 0); auto; lia|]. apply rnd_le_Z; [lia|]. assert (I <= IZR (2 ^ 52)) by (apply IZR_le; lia).
    apply Rmult_le_reg_r with K; [lra|]. unfold Rdiv. rewrite Rmult_assoc, Rinv_l by lra. nra.
  Qed.
  Lemma x_err : (0 < Z.of_N i)%Z -> Rabs (B2R x - I / K) <= bpow radix2 (-53) * (I / K).
  Proof.
    intros Hp. destruct x_val as [_ ->]. apply rnd_err. assert (1 <= I) by (apply IZR_le; lia). pose proof K1.
    assert (K <= bpow radix2 50). { replace (bpow radix2 50) with (IZR (2 ^ 50)) by reflexivity. apply IZR_le. lia. }
    apply Rle_trans with (/ bpow radix2 50); [rewrite <- bpow_opp; apply bpow_le; lia|].
    apply Rle_trans with (/ K); [apply Rinv_le; lra|]. unfold Rdiv. assert (0 < / K) by (apply Rinv_0_lt_compat; lra). nra.
  Qed.
  (** A table with a colour for each line. *)
  Lemma own_entry : (Z.of_N i < Z.pos n)%Z -> entry (Npos n) x = Z.of_N i \/ ((0 < Z.of_N i)%Z /\ entry (Npos n) x = Z.of_N i - 1)%Z.
  Proof.
    intros Hlt. pose proof K1. unfold entry. change (Z.of_N (N.pos n)) with (Z.pos n).
    destruct (mul_val x (Npos n) ltac:(lia) (proj1 x_val) x_bounds) as [F E]. change (Z.of_N (N.pos n)) with (Z.pos n) in E.
    destruct (Z.eq_dec (Z.of_N i) 0) as [Z0|NZ].
    - left. rewrite (trunc_val _ 0 F); [lia| |lia]. destruct x_val as [_ X]. rewrite Z0 in X. replace (0 / K) with 0 in X by (field; lra).
      rewrite round_0 in X by auto with typeclass_instances. rewrite E, X, Rmult_0_l, round_0 by auto with typeclass_instances. cbn; lra.
    - assert (Hp : (0 < Z.of_N i)%Z) by lia. assert (D := x_err Hp). apply Rabs_le_inv in D.
      assert (M : I / K * K = I) by (field; lra). assert (B : bpow radix2 (-53) * I <= 1 / 2).
      { apply Rle_trans with (bpow radix2 (-53) * bpow radix2 52).
        - apply Rmult_le_compat_l; [apply bpow_ge_0|]. replace (bpow radix2 52) with (IZR (2 ^ 52)) by reflexivity. apply IZR_le. lia.
        - rewrite <- bpow_plus. cbn. lra. }
      assert (P : 0 < bpow radix2 (-53)) by apply bpow_gt_0.
      assert (L : IZR (2 * Z.of_N i - 1) * bpow radix2 (-1) <= rnd64 (B2R x * K)).
      { apply rnd_ge; try lia. rewrite minus_IZR, mult_IZR. replace (bpow radix2 (-1)) with (1 / 2) by (cbn; lra).
        assert ((I / K - bpow radix2 (-53) * (I / K)) * K <= B2R x * K) by (apply Rmult_le_compat_r; lra).
        replace ((I / K - bpow radix2 (-53) * (I / K)) * K) with (I - bpow radix2 (-53) * I) in H0 by (rewrite <- M at 1 2; ring). lra. }
      assert (U : rnd64 (B2R x * K) <= IZR (2 * Z.of_N i + 1) * bpow radix2 (-1)).
      { apply rnd_le; try lia. rewrite plus_IZR, mult_IZR. replace (bpow radix2 (-1)) with (1 / 2) by (cbn; lra).
        assert (B2R x * K <= (I / K + bpow radix2 (-53) * (I / K)) * K) by (apply Rmult_le_compat_r; lra).
        replace ((I / K + bpow radix2 (-53) * (I / K)) * K) with (I + bpow radix2 (-53) * I) in H0 by (rewrite <- M at 1 2; ring). lra. }
      rewrite minus_IZR, mult_IZR in L. rewrite plus_IZR, mult_IZR in U. replace (bpow radix2 (-1)) with (1 / 2) in * by (cbn; lra).
      rewrite <- E in L, U. assert (1 <= I) by (apply IZR_le; lia).
      destruct (Rle_or_lt I (B2R (fmul x (f_of_N (N.pos n))))) as [C|C].
      + left. rewrite (trunc_val _ (Z.of_N i) F); [lia| |lia]. rewrite plus_IZR. lra.
      + right. split; auto. rewrite (trunc_val _ (Z.of_N i - 1) F); [lia| |lia]. replace (Z.of_N i - 1 + 1)%Z with (Z.of_N i) by lia.
        rewrite minus_IZR. lra.
  Qed.
  Lemma late_entry : (Z.pos n <= Z.of_N i)%Z -> entry (Npos n) x = (Z.pos n - 1)%Z.
  Proof.
    intros Hge. pose proof K1. unfold entry. change (Z.of_N (N.pos n)) with (Z.pos n).
    destruct (mul_val x (Npos n) ltac:(lia) (proj1 x_val) x_bounds) as [F E]. change (Z.of_N (N.pos n)) with (Z.pos n) in E.
    assert (Z.pos n <= Btrunc (fmul x (f_of_N (N.pos n))))%Z; [|lia]. apply trunc_ge; auto; [|lia]. rewrite E. apply rnd_ge_Z; [lia|].
    assert (1 <= B2R x); [|nra]. destruct x_val as [_ ->]. apply (rnd_ge_Z _ 1); [lia|]. assert (K <= I) by (apply IZR_le; lia).
    apply Rmult_le_reg_r with K; [lra|]. unfold Rdiv. rewrite Rmult_assoc, Rinv_l by lra. lra.
  Qed.
  Lemma gradient_late : (Z.pos n <= Z.of_N i)%Z -> entry 256 x = 255%Z.
  Proof.
    intros Hge. pose proof K1. unfold entry. change (Z.of_N 256) with 256%Z.
    destruct (mul_val x 256 eq_refl (proj1 x_val) x_bounds) as [F E]. change (Z.of_N 256) with 256%Z in E.
    assert (256 <= Btrunc (fmul x (f_of_N 256)))%Z; [|lia]. apply trunc_ge; auto; [|lia]. rewrite E. apply rnd_ge_Z; [lia|].
    assert (1 <= B2R x); [|lra]. destruct x_val as [_ ->]. apply (rnd_ge_Z _ 1); [lia|]. assert (K <= I) by (apply IZR_le; lia).
    apply Rmult_le_reg_r with K; [lra|]. unfold Rdiv. rewrite Rmult_assoc, Rinv_l by lra. lra.
  Qed.
  (** The gradient of 256 colours. *)
  Lemma gradient_entry : (Z.of_N i < Z.pos n)%Z -> (Z.pos n <= 2 ^ 40)%Z -> entry 256 x = (256 * Z.of_N i / Z.pos n)%Z.
  Proof.
    intros Hlt H40. pose proof K1. pose proof I0. unfold entry. change (Z.of_N 256) with 256%Z.
    destruct (mul_val x 256 eq_refl (proj1 x_val) x_bounds) as [F E]. change (Z.of_N 256) with 256%Z in E.
    set (q := (256 * Z.of_N i / Z.pos n)%Z).
    assert (Q0 : (0 <= q)%Z) by (apply Z.div_pos; lia).
    assert (Q1 : (Z.pos n * q <= 256 * Z.of_N i)%Z) by (apply Z.mul_div_le; lia).
    assert (Q2 : (256 * Z.of_N i + 1 <= Z.pos n * (q + 1))%Z).
    { pose proof (Z.mul_succ_div_gt (256 * Z.of_N i) (Z.pos n) eq_refl). unfold q. lia. }
    assert (Q3 : (q < 256)%Z) by (apply Z.div_lt_upper_bound; lia).
    rewrite (trunc_val _ q F); [lia| |exact Q0]. rewrite E. assert (IK : 0 < / K) by (apply Rinv_0_lt_compat; lra).
    assert (G : 256 * I < 256 * K) by (apply Rmult_lt_compat_l; [lra|apply IZR_lt; lia]).
    split.
    - apply rnd_ge_Z; [lia|]. assert (IZR q * bpow radix2 (-8) <= B2R x).
      { destruct x_val as [_ ->]. apply rnd_ge; try lia. replace (bpow radix2 (-8)) with (/ 256) by (cbn; lra).
        apply IZR_le in Q1. rewrite !mult_IZR in Q1. apply Rmult_le_reg_r with K; [lra|]. unfold Rdiv. rewrite (Rmult_assoc I), Rinv_l by lra. nra. }
      replace (bpow radix2 (-8)) with (/ 256) in H1 by (cbn; lra). lra.
    - apply Rle_lt_trans with (IZR ((q + 1) * 2 ^ 42 - 1) * bpow radix2 (-42)).
      + apply rnd_le; try lia. destruct (Z.eq_dec (Z.of_N i) 0) as [Z0|NZ].
        { destruct x_val as [_ X]. rewrite Z0 in X. replace (0 / K) with 0 in X by (field; lra). rewrite round_0 in X by auto with typeclass_instances.
          rewrite X, Rmult_0_l. apply Rmult_le_pos; [apply IZR_le; lia|apply bpow_ge_0]. }
        assert (D := x_err ltac:(lia)). apply Rabs_le_inv in D. apply IZR_le in Q2. rewrite plus_IZR, !mult_IZR, plus_IZR in Q2.
        assert (T : I / K < 1) by (apply Rmult_lt_reg_r with K; [lra|]; unfold Rdiv; rewrite Rmult_assoc, Rinv_l by lra; lra).
        assert (T0 : 0 <= I / K) by (apply Rmult_le_pos; lra).
        assert (S : 256 * (I / K) <= IZR q + 1 - / K).
        { apply Rmult_le_reg_r with K; [lra|]. replace (256 * (I / K) * K) with (256 * I) by (field; lra). rewrite Rmult_minus_distr_r, Rinv_l by lra. lra. }
        assert (V : bpow radix2 (-40) <= / K).
        { change (-40)%Z with (- (40))%Z. rewrite bpow_opp. apply Rinv_le; [lra|]. replace (bpow radix2 40) with (IZR (2 ^ 40)) by reflexivity. apply IZR_le. lia. }
        rewrite minus_IZR, mult_IZR, plus_IZR. replace (IZR (2 ^ 42)) with (bpow radix2 42) by reflexivity.
        rewrite Rmult_minus_distr_r, Rmult_assoc, <- bpow_plus.
        change (bpow radix2 (-53)) with (/ IZR 9007199254740992) in D. change (bpow radix2 (-40)) with (/ IZR 1099511627776) in V.
        change (bpow radix2 (42 + -42)) with 1. change (bpow radix2 (-42)) with (/ IZR 4398046511104). set (t := I / K) in *. destruct D as [_ D]. lra.
      + rewrite minus_IZR, mult_IZR. replace (IZR (2 ^ 42)) with (bpow radix2 42) by reflexivity. rewrite Rmult_minus_distr_r, Rmult_assoc, <- bpow_plus.
        change (bpow radix2 (42 + -42)) with 1. pose proof (bpow_gt_0 radix2 (-42)). lra.
  Qed.
End Entry.
(** A table whose size is a power of two. *)
Lemma power_entry i k : (Z.of_N i < 2 ^ Z.of_N k)%Z -> (k <= 49)%N -> entry (2 ^ k) (normalize (2 ^ k) i) = Z.of_N i.
Proof.
  intros Hi Hk. assert (E : exists p, (2 ^ k = Npos p)%N /\ (Z.pos p = 2 ^ Z.of_N k)%Z).
  { destruct (2 ^ k)%N as [|p] eqn:Ep; [exfalso; revert Ep; apply N.pow_nonzero; lia|]. exists p. split; auto.
    change (Z.pos p) with (Z.of_N (Npos p)). rewrite <- Ep, N2Z.inj_pow. reflexivity. }
  destruct E as (p & -> & Ep). assert (P : (2 ^ Z.of_N k <= 2 ^ 49)%Z) by (apply Z.pow_le_mono_r; lia).
  assert (HI : (Z.of_N i < 2 ^ 50)%Z) by lia. assert (HP : (Z.pos p < 2 ^ 50)%Z) by lia.
  assert (K : IZR (Z.pos p) = bpow radix2 (Z.of_N k)) by (rewrite Ep; apply (IZR_Zpower radix2); lia).
  assert (X : B2R (normalize (N.pos p) i) = IZR (Z.of_N i) / IZR (Z.pos p)).
  { rewrite (proj2 (x_val i p HI)). apply round_generic; auto with typeclass_instances. unfold Rdiv. rewrite K, <- bpow_opp. apply format; lia. }
  unfold entry. change (Z.of_N (N.pos p)) with (Z.pos p).
  destruct (mul_val (normalize (N.pos p) i) (Npos p) ltac:(cbn; lia) (proj1 (x_val i p HI)) (x_bounds i p HI)) as [F E].
  change (Z.of_N (N.pos p)) with (Z.pos p) in E. rewrite X in E. assert (1 <= IZR (Z.pos p)) by (apply IZR_le; lia).
  replace (IZR (Z.of_N i) / IZR (Z.pos p) * IZR (Z.pos p)) with (IZR (Z.of_N i)) in E by (field; lra).
  rewrite round_generic in E; auto with typeclass_instances.
  - rewrite (trunc_val _ (Z.of_N i) F); [lia| |lia]. rewrite E, plus_IZR. lra.
  - replace (IZR (Z.of_N i)) with (IZR (Z.of_N i) * bpow radix2 0) by (cbn; lra). apply format; lia.
Qed.

(** ** Colour maps *)
Local Open Scope nat_scope.
Lemma nth_last {A} (l : list A) d : l <> [] -> nth_error l (length l - 1) = Some (last l d).
Proof.
  induction l as [|a [|b l] IH]; intros H; [congruence|reflexivity|]. cbn [length last Nat.sub]. specialize (IH ltac:(discriminate)).
  cbn [length Nat.sub] in IH. rewrite Nat.sub_0_r in IH. exact IH.
Qed.
Section Maps.
  Context {C : Type}.
  Lemma cmap_unfold (m : colormap C) i : cmap m i = nth_error (table m) (Z.to_nat (entry (N.of_nat (length (table m))) (normalize (num_colors m) i))).
  Proof. reflexivity. Qed.
  Theorem gradient_ok (hsv : list C) k i : length hsv = 256 -> (i < k)%N -> (k <= 2 ^ 40)%N ->
    cmap (CMap k hsv) i = nth_error hsv (N.to_nat (256 * i / k)).
  Proof.
    intros Hl Hi Hk. rewrite cmap_unfold. cbn [table num_colors]. rewrite Hl. change (N.of_nat 256) with 256%N.
    destruct k as [|p]; [lia|]. rewrite gradient_entry; try lia. f_equal.
    rewrite <- (N2Z.id (256 * i / N.pos p)), N2Z.inj_div, N2Z.inj_mul. change (Z.of_N 256) with 256%Z. change (Z.of_N (N.pos p)) with (Z.pos p).
    assert (0 <= 256 * Z.of_N i / Z.pos p)%Z by (apply Z.div_pos; lia). lia.
  Qed.
  Theorem inverse_ok (hsv : list C) k i : length hsv = 256 -> (i < k)%N -> (k <= 2 ^ 40)%N ->
    cmap_inv (CMap k hsv) i = nth_error hsv (N.to_nat (N.min 255 (256 * (k - i) / k))).
  Proof.
    intros Hl Hi Hk. unfold cmap_inv. cbn [num_colors]. destruct (N.eq_dec i 0) as [->|Hz].
    - rewrite N.sub_0_r, N.div_mul by lia. rewrite cmap_unfold. cbn [table num_colors]. rewrite Hl. change (N.of_nat 256) with 256%N.
      destruct k as [|p]; [lia|]. rewrite gradient_late by lia. reflexivity.
    - rewrite gradient_ok by lia. do 2 f_equal. assert (256 * (k - i) / k < 256)%N by (apply N.div_lt_upper_bound; lia). lia.
  Qed.
  Theorem gradient_distinct k i j : (k <= 256)%N -> (i < j)%N -> (j < k)%N -> (256 * i / k < 256 * j / k)%N.
  Proof.
    intros Hk Hi Hj. apply N.lt_le_trans with (256 * i / k + 1)%N; [lia|]. rewrite <- N.div_add by lia. apply N.div_le_mono; lia.
  Qed.
  Lemma own_ok (l : list C) i : 0 < length l -> (N.of_nat (length l) < 2 ^ 50)%N -> i < length l ->
    cmap (CMap (N.of_nat (length l)) l) (N.of_nat i) = nth_error l i \/
    (0 < i /\ cmap (CMap (N.of_nat (length l)) l) (N.of_nat i) = nth_error l (i - 1)).
  Proof.
    intros H0 Hl Hi. rewrite cmap_unfold. cbn [table num_colors]. destruct (N.of_nat (length l)) as [|p] eqn:E; [lia|].
    destruct (own_entry (N.of_nat i) p) as [->|[Hp ->]]; try lia.
    - left. f_equal. lia.
    - right. split; [lia|]. f_equal. lia.
  Qed.
  Lemma late_ok (l : list C) i d : 0 < length l -> (N.of_nat (length l) < 2 ^ 50)%N -> (N.of_nat i < 2 ^ 50)%N -> length l <= i ->
    cmap (CMap (N.of_nat (length l)) l) (N.of_nat i) = Some (last l d).
  Proof.
    intros H0 Hl Hb Hi. rewrite cmap_unfold. cbn [table num_colors]. rewrite <- (nth_last l d) by (intros ->; cbn in H0; lia).
    destruct (N.of_nat (length l)) as [|p] eqn:E; [lia|]. rewrite late_entry by lia. f_equal. lia.
  Qed.
  Lemma power_ok (l : list C) k i : length l = 2 ^ k -> k <= 49 -> i < length l ->
    cmap (CMap (N.of_nat (length l)) l) (N.of_nat i) = nth_error l i.
  Proof.
    intros Hl Hk Hi. rewrite cmap_unfold. cbn [table num_colors].
    assert (E : N.of_nat (length l) = (2 ^ N.of_nat k)%N) by (rewrite Hl, Nat2N.inj_pow; reflexivity).
    rewrite E, power_entry; [f_equal; lia| |lia]. assert (N.of_nat i < 2 ^ N.of_nat k)%N by (rewrite <- E; lia).
    apply N2Z.inj_lt in H. rewrite N2Z.inj_pow in H. exact H.
  Qed.
  Definition few_ok (n : nat) : bool := forallb (fun i => Z.eqb (entry (N.of_nat n) (normalize (N.of_nat n) (N.of_nat i))) (Z.of_nat i)) (seq 0 n).
  Lemma few_all : forallb few_ok (seq 0 22) = true.
  Proof. vm_compute. reflexivity. Qed.
  Lemma few_entries (l : list C) i : length l <= 21 -> i < length l -> cmap (CMap (N.of_nat (length l)) l) (N.of_nat i) = nth_error l i.
  Proof.
    intros Hl Hi. rewrite cmap_unfold. cbn [table num_colors]. assert (F := few_all). rewrite forallb_forall in F.
    specialize (F (length l) ltac:(apply in_seq; lia)). unfold few_ok in F. rewrite forallb_forall in F. specialize (F i ltac:(apply in_seq; lia)).
    apply Z.eqb_eq in F. rewrite F. f_equal. lia.
  Qed.
End Maps.
Lemma rgb_cmap_eq l : rgb_cmap l = CMap (N.of_nat (length (map shown l))) (map shown l).
Proof. unfold rgb_cmap. now rewrite map_length. Qed.
Lemma nth_shown l i c : nth_error l i = Some c -> nth_error (map shown l) i = Some (shown c).
Proof. intros H. now rewrite nth_error_map, H. Qed.
Lemma last_shown l d : l <> [] -> last (map shown l) (shown d) = shown (last l d).
Proof. induction l as [|a [|b l] IH]; intros H; [congruence|reflexivity|]. cbn [map last] in *. apply IH. discriminate. Qed.
Theorem user_ok l i c : (N.of_nat (length l) < 2 ^ 50)%N -> nth_error l i = Some c ->
  cmap (rgb_cmap l) (N.of_nat i) = Some (shown c) \/
  (exists j c', i = S j /\ nth_error l j = Some c' /\ cmap (rgb_cmap l) (N.of_nat i) = Some (shown c')).
Proof.
  intros Hl Hc. assert (Hi : i < length l) by (apply nth_error_Some; congruence). rewrite rgb_cmap_eq.
  destruct (own_ok (map shown l) i) as [->|[Hp ->]]; rewrite ?map_length; try lia.
  - left. now apply nth_shown.
  - right. exists (i - 1). destruct (nth_error l (i - 1)) as [c'|] eqn:E; [|apply nth_error_None in E; lia].
    exists c'. split; [lia|]. split; auto. now apply nth_shown.
Qed.
Theorem user_exact l i c : length l <= 21 \/ (exists k, length l = 2 ^ k /\ k <= 49) -> nth_error l i = Some c ->
  cmap (rgb_cmap l) (N.of_nat i) = Some (shown c).
Proof.
  intros Hl Hc. assert (Hi : i < length l) by (apply nth_error_Some; congruence). rewrite rgb_cmap_eq, <- (nth_shown _ _ _ Hc).
  destruct Hl as [Hl|(k & Hl & Hk)].
  - apply few_entries; rewrite map_length; auto.
  - apply (power_ok _ k); rewrite ?map_length; auto.
Qed.
Theorem user_late l i d : l <> [] -> (N.of_nat (length l) < 2 ^ 50)%N -> (N.of_nat i < 2 ^ 50)%N -> length l <= i ->
  cmap (rgb_cmap l) (N.of_nat i) = Some (shown (last l d)).
Proof.
  intros H0 Hl Hb Hi. rewrite rgb_cmap_eq, (late_ok _ _ (shown d)); rewrite ?map_length; auto.
  - now rewrite last_shown.
  - destruct l; [congruence|cbn; lia].
Qed.
Lemma fractions_up : forallb (fun c => flt (fraction (N.of_nat c)) (fraction (N.of_nat (S c)))) (seq 0 255) = true.
Proof. vm_compute. reflexivity. Qed.
Lemma fraction_nn c : nn (fraction c) = true.
Proof. apply f_of_ratio_nn. Qed.
Theorem fractions a b : (a < b)%N -> (b <= 255)%N -> flt (fraction a) (fraction b) = true.
Proof.
  intros Ha Hb. replace a with (N.of_nat (N.to_nat a)) by lia. replace b with (N.of_nat (N.to_nat b)) by lia.
  assert (A : N.to_nat a < N.to_nat b) by lia. assert (B : N.to_nat b <= 255) by lia. revert A B. generalize (N.to_nat a), (N.to_nat b). clear.
  intros a b A. induction A as [|b A IH]; intros B.
  - assert (F := fractions_up). rewrite forallb_forall in F. apply F, in_seq. lia.
  - eapply flt_trans; [apply fraction_nn|apply (fraction_nn (N.of_nat b))|apply fraction_nn|apply IH; lia|].
    assert (F := fractions_up). rewrite forallb_forall in F. apply F, in_seq. lia.
Qed.
