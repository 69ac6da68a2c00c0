(** The order of all doubles but NaN, by their place on the real line. *)
From Coq Require Import ZArith NArith Bool Reals Lra Lia.
From Flocq Require Import Core BinarySingleNaN.
From Verif Require Import Lib.F64 Lib.F64Facts.
Open Scope R_scope.

(** Not NaN. *)
Definition num (x : float) : bool := negb (is_nan x).
Definition ford (x : float) : R :=
  match x with
  | B754_infinity false => bpow radix2 emax64
  | B754_infinity true => - bpow radix2 emax64
  | _ => B2R x
  end.
Lemma num_nn x : nn x = true -> num x = true.
Proof. now destruct x. Qed.
Lemma ford_finite x : finite x -> ford x = B2R x.
Proof. now destruct x. Qed.
Lemma ford_bound x : finite x -> - bpow radix2 emax64 < ford x < bpow radix2 emax64.
Proof.
  intros F. rewrite ford_finite by auto. assert (B := abs_B2R_lt_emax prec64 emax64 x).
  apply Rabs_def2 in B. lra.
Qed.
Lemma emax_pos : 0 < bpow radix2 emax64.
Proof. apply bpow_gt_0. Qed.

Lemma Bcompare_ford x y : num x = true -> num y = true -> Bcompare x y = Some (Rcompare (ford x) (ford y)).
Proof.
  intros Hx Hy. pose proof emax_pos.
  destruct (is_finite x) eqn:Fx, (is_finite y) eqn:Fy.
  - rewrite Bcompare_correct by auto. now rewrite !ford_finite.
  - assert (B := ford_bound x Fx). destruct y as [s|s| |s m e Hb]; try discriminate.
    destruct s; cbn [ford] in *; [rewrite Rcompare_Gt by lra|rewrite Rcompare_Lt by lra]; now destruct x as [[]|[]| |[]].
  - assert (B := ford_bound y Fy). destruct x as [s|s| |s m e Hb]; try discriminate.
    destruct s; cbn [ford] in *; [rewrite Rcompare_Lt by lra|rewrite Rcompare_Gt by lra]; now destruct y as [[]|[]| |[]].
  - destruct x as [s|s| |s m e Hb]; try discriminate. destruct y as [s'|s'| |s' m' e' Hb']; try discriminate.
    destruct s, s'; cbn [ford].
    + now rewrite Rcompare_Eq.
    + now rewrite Rcompare_Lt by lra.
    + now rewrite Rcompare_Gt by lra.
    + now rewrite Rcompare_Eq.
Qed.
Lemma flt_ford x y : num x = true -> num y = true -> (flt x y = true <-> ford x < ford y).
Proof.
  intros Hx Hy. unfold flt, Bltb, SpecFloat.SFltb.
  change (SpecFloat.SFcompare (B2SF x) (B2SF y)) with (Bcompare x y). rewrite Bcompare_ford by auto.
  destruct (Rcompare_spec (ford x) (ford y)); split; intros; try lra; try discriminate; auto.
Qed.
Lemma fle_ford x y : num x = true -> num y = true -> (fle x y = true <-> ford x <= ford y).
Proof.
  intros Hx Hy. unfold fle, Bleb, SpecFloat.SFleb.
  change (SpecFloat.SFcompare (B2SF x) (B2SF y)) with (Bcompare x y). rewrite Bcompare_ford by auto.
  destruct (Rcompare_spec (ford x) (ford y)); split; intros; try lra; try discriminate; auto.
Qed.
Lemma feq_ford x y : num x = true -> num y = true -> (feq x y = true <-> ford x = ford y).
Proof.
  intros Hx Hy. unfold feq, Beqb, SpecFloat.SFeqb.
  change (SpecFloat.SFcompare (B2SF x) (B2SF y)) with (Bcompare x y). rewrite Bcompare_ford by auto.
  destruct (Rcompare_spec (ford x) (ford y)); split; intros; try lra; try discriminate; auto.
Qed.
Lemma fle_negb_flt x y : num x = true -> num y = true -> fle x y = negb (flt y x).
Proof.
  intros Hx Hy. apply eq_true_iff_eq. rewrite negb_true_iff, fle_ford by auto. split.
  - intros H. destruct (flt y x) eqn:E; auto. apply flt_ford in E; auto. lra.
  - intros H. destruct (Rle_lt_dec (ford x) (ford y)) as [L|L]; auto. apply flt_ford in L; auto. congruence.
Qed.
Lemma num_fle_total x y : num x = true -> num y = true -> flt x y = true \/ fle y x = true.
Proof. intros Hx Hy. rewrite (fle_negb_flt y x) by auto. destruct (flt x y); auto. Qed.
Lemma ford_nonneg x : nn x = true -> 0 <= ford x.
Proof. pose proof emax_pos. destruct x as [s|[]| |s m e Hb]; try discriminate; intros Hn; try apply (nn_pos _ Hn); cbn [ford]; lra. Qed.

(** A finite difference of non-negative doubles in order. *)
Lemma fsub_nn x y : finite x -> finite y -> nn y = true -> fle y x = true -> nn (fsub x y) = true /\ finite (fsub x y).
Proof.
  intros Fx Fy Hn Hl. assert (Hy := nn_pos _ Hn). apply fle_ford in Hl; [|now destruct y|now destruct x].
  rewrite !ford_finite in Hl by auto. destruct (fsub_spec x y Fx Fy) as (F & _ & N); auto.
Qed.
(** Widening an interval never shortens it. *)
Lemma fsub_widen x x' y y' : finite x -> finite x' -> finite y -> finite y' -> nn y' = true ->
  fle y' y = true -> fle y x = true -> fle x x' = true -> fle (fsub x y) (fsub x' y') = true.
Proof.
  intros Fx Fx' Fy Fy' Hn H1 H2 H3. assert (Hy := nn_pos _ Hn).
  assert (N : forall z, finite z -> num z = true) by (now intros []).
  apply fle_ford in H1, H2, H3; auto. rewrite !ford_finite in H1, H2, H3 by auto.
  destruct (fsub_spec x y Fx Fy) as (F1 & E1 & N1); [lra|].
  destruct (fsub_spec x' y' Fx' Fy') as (F2 & E2 & N2); [lra|].
  apply fle_spec; auto. intros _. split; auto. rewrite E1, E2. apply round_le; auto with typeclass_instances. lra.
Qed.
