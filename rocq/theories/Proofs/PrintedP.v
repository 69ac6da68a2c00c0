(** Times read off printed lines. *)
From Coq Require Import List Ascii String ZArith NArith QArith Qcanon Bool Sorted Lia Reals.
From Flocq Require Import Core BinarySingleNaN.
From Verif Require Import Lib.PyStr Lib.F64 Spec.Lines Spec.Trace Proofs.ColoursP.
Import ListNotations.
Local Open Scope list_scope.
Lemma time_is l u t d : l_us l = Some u -> (10 ^ Z.of_nat (List.length u))%Z = Z.pos d -> (Z.of_N (dec_val (l_sec l ++ u)) < 2 ^ 52)%Z ->
  is_finite_strict (f_of_ratio (dec_val (l_sec l ++ u)) d) = true -> printed_time l t -> t = f_of_ratio (dec_val (l_sec l ++ u)) d.
Proof.
  intros E Ed Hn Hs P. unfold printed_time in P. rewrite E, Ed in P. destruct (ratio_val _ d Hn) as [Hf Hv]. destruct P as [P _].
  assert (B : (round_double (IZR (Z.of_N (dec_val (l_sec l ++ u))) / IZR (Z.pos d)) < bpow radix2 1024)%R).
  { match goal with |- (?r < _)%R => replace r with (B2R (f_of_ratio (dec_val (l_sec l ++ u)) d)) by exact Hv end. eapply Rle_lt_trans; [apply Rle_abs|]. apply abs_B2R_lt_emax. }
  destruct (P B) as [Pf Pv]. assert (V : B2R t = B2R (f_of_ratio (dec_val (l_sec l ++ u)) d)) by (rewrite Hv; exact Pv).
  apply B2R_inj; [|exact Hs|exact V].
  destruct t; try reflexivity; try discriminate Pf. exfalso.
  destruct (f_of_ratio (dec_val (l_sec l ++ u)) d) as [| | |s' m e b]; try discriminate Hs.
  cbn [B2R] in V. symmetry in V. apply eq_0_F2R in V. destruct s'; discriminate V.
Qed.
(** Times that increase are kept. *)
Fixpoint increasing (prev : F64.float) (ts : list F64.float) : bool := match ts with [] => true | t :: r => flt prev t && increasing t r end.
Lemma assigned_same prev ts us : Assigned prev ts us -> increasing prev ts = true -> us = ts.
Proof.
  induction 1 as [prev|prev t ts us H A IH|prev t u ts us H N A IH]; cbn [increasing]; intros K; [reflexivity| |]; apply andb_prop in K as [K1 K2]; [f_equal; auto|congruence].
Qed.
Definition seconds (l : tline) : F64.float :=
  match l_us l with
  | Some u => f_of_ratio (dec_val (l_sec l ++ u)) (Z.to_pos (10 ^ Z.of_nat (List.length u)))
  | None => fzero
  end.
Definition clear_time (l : tline) : bool :=
  match l_us l with Some u => (0 <? 10 ^ Z.of_nat (List.length u))%Z && (Z.of_N (dec_val (l_sec l ++ u)) <? 2 ^ 52)%Z && is_finite_strict (seconds l) | None => false end.
Lemma times_are ls ts : Forall2 printed_time ls ts -> forallb clear_time ls = true -> ts = map seconds ls.
Proof.
  induction 1 as [|l t ls ts P _ IH]; cbn [forallb map]; intros K; [reflexivity|]. apply andb_prop in K as [K1 K2]. f_equal; [|auto].
  unfold clear_time in K1. unfold seconds in *. destruct (l_us l) as [u|] eqn:E; [|discriminate]. apply andb_prop in K1 as [K1 K3]. apply andb_prop in K1 as [K0 K1].
  apply Z.ltb_lt in K0, K1. apply time_is; auto. now rewrite Z2Pos.id.
Qed.
