(** Finite doubles (with one zero) are totally ordered. *)
From Coq Require Import ZArith Bool Reals Lra Eqdep_dec.
From Flocq Require Import Core BinarySingleNaN.
From Verif Require Import Lib.F64 Lib.F64Facts Lib.F64Ord Lib.TotalOrder.

Definition plain (x : float) : bool :=
  match x with B754_zero s => negb s | B754_finite _ _ _ _ => true | _ => false end.
Definition stamp : Type := { x : float | plain x = true }.
Definition stamp_leb (a b : stamp) : bool := fle (proj1_sig a) (proj1_sig b).
Lemma plain_finite x : plain x = true -> is_finite x = true.
Proof. now destruct x. Qed.
Lemma plain_num x : plain x = true -> num x = true.
Proof. now destruct x. Qed.
Lemma stamp_eq (a b : stamp) : proj1_sig a = proj1_sig b -> a = b.
Proof.
  destruct a as [x Hx], b as [y Hy]. cbn. intros <-. f_equal. apply UIP_dec. apply bool_dec.
Qed.
Lemma stamps_total : total_order stamp_leb.
Proof.
  constructor.
  - intros [x Hx] [y Hy]. unfold stamp_leb. cbn. rewrite !fle_ford by auto using plain_num. destruct (Rle_lt_dec (ford x) (ford y)); auto. right. lra.
  - intros [x Hx] [y Hy]. unfold stamp_leb. cbn. rewrite !fle_ford by auto using plain_num. intros H1 H2. apply stamp_eq. cbn.
    assert (E : B2R x = B2R y). { rewrite <- !ford_finite by (apply plain_finite; auto). lra. }
    destruct x as [s|s| |s m e Hb], y as [s'|s'| |s' m' e' Hb']; try discriminate.
    + destruct s, s'; try discriminate; auto.
    + exfalso. cbn [B2R] in E. symmetry in E. revert E. apply F2R_neq_0. now destruct s'.
    + exfalso. cbn [B2R] in E. revert E. apply F2R_neq_0. now destruct s.
    + apply (B2R_inj); auto.
  - intros [x Hx] [y Hy] [z Hz]. unfold stamp_leb. cbn. rewrite !fle_ford by auto using plain_num. lra.
Qed.
