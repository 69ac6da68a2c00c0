(** The field pattern only captures text that converts: no line makes the
    conversions of [__populate_data] fail. *)
From Coq Require Import List Ascii String ZArith NArith Bool Lia Reals Lra.
From Verif Require Import Lib.PyStr Lib.PyStrFacts Lib.Regex Lib.RegexFacts Lib.SearchFacts Lib.F64
  Lib.F64Facts Model.Line Spec.Lines Proofs.LineP.
Import ListNotations.
Local Open Scope nat_scope.

Lemma cap_add_text n s0 s1 u : s_rest s0 = u ++ s_rest s1 ->
  s_caps (cap_add n s0 s1) = (n, u) :: s_caps s1 /\ s_rest (cap_add n s0 s1) = s_rest s1.
Proof.
  intros E. unfold cap_add. cbn. split; auto. rewrite E, app_length.
  replace (List.length u + List.length (s_rest s1) - List.length (s_rest s1))%nat with (List.length u) by lia.
  now rewrite firstn_app, firstn_all, Nat.sub_diag, firstn_O, app_nil_r.
Qed.
Lemma grp_digits n s s' : mat (RGrp n (RPlus (RCls is_digit))) s s' ->
  exists d, digits d /\ s_caps s' = (n, d) :: s_caps s.
Proof.
  intros H. apply mat_grp_inv in H as (s1 & H & ->). apply mat_plus_cls in H as (u & E & Hn & Hd & _ & Hc).
  exists u. split; [split; auto|]. rewrite <- Hc. now apply cap_add_text.
Qed.
Lemma G6_caps s s' : mat G6 s s' -> exists t, s_caps s' = (6, t) :: s_caps s.
Proof.
  intros H. apply mat_grp_inv in H as (s1 & H & ->). cbn [RSeqs] in H.
  apply mat_seq_inv in H as (s2 & Hw & H). apply mat_seq_inv in H as (s3 & Hl & Hs).
  apply mat_plus_cls in Hw as (w & Ew & _ & _ & _ & C1). apply mat_lit in Hl as (El & _ & C2).
  apply mat_plus_cls in Hs as (sp & Es & _ & _ & _ & C3).
  eexists. cbn [cap_add s_caps]. now rewrite C3, C2, C1.
Qed.
Lemma star6_caps s s' : mat (RStar G6) s s' -> exists c6, six c6 /\ s_caps s' = c6 ++ s_caps s.
Proof.
  remember (RStar G6) as r eqn:Er. induction 1; try discriminate; injection Er as ->.
  - exists []. split; [constructor|reflexivity].
  - destruct (IHmat2 eq_refl) as (c6 & H6 & E). apply G6_caps in H as (t & Et).
    exists (c6 ++ [(6, t)]). split.
    + apply Forall_app. split; [assumption|repeat constructor].
    + rewrite E, Et, <- app_assoc. reflexivity.
Qed.
Lemma G4_caps s s' : mat G4 s s' -> exists sec us, digits sec /\ us_ok us /\
  s_caps s' = (4, time_str sec us) :: us_caps us (s_caps s).
Proof.
  intros H. unfold G4 in H. apply mat_grp_inv in H as (s1 & H & ->).
  apply mat_seq_inv in H as (s2 & Hp & Ho). apply mat_plus_cls in Hp as (u & E & Hn & Hd & _ & C).
  unfold ROpt in Ho. apply mat_alt_inv in Ho as [Ho|Ho].
  - apply mat_grp_inv in Ho as (s3 & Ho & ->). cbn [RSeqs] in Ho.
    apply mat_seq_inv in Ho as (s4 & Hl & Hp). apply mat_lit in Hl as (El & _ & C4).
    apply mat_plus_cls in Hp as (v & Ev & Hvn & Hvd & _ & C3).
    exists u, (Some v). split; [split; auto|]. split.
    + intros v' E'. injection E' as <-. split; auto.
    + destruct (cap_add_text 5 s2 s3 ($"." ++ v)) as [Q1 Q2]; [now rewrite El, Ev, <- app_assoc|].
      destruct (cap_add_text 4 s (cap_add 5 s2 s3) (time_str u (Some v))) as [Q3 _].
      { rewrite Q2, E, El, Ev. unfold time_str. rewrite <- !app_assoc. reflexivity. }
      rewrite Q3, Q1, C3, C4, C. reflexivity.
  - inversion Ho; subst. exists u, None. split; [split; auto|]. split; [intros ? ?; discriminate|].
    destruct (cap_add_text 4 s s1 u E) as [Q _]. rewrite Q, C. unfold time_str. now rewrite app_nil_r.
Qed.

Lemma O_tgid_caps s s' : mat (ROpt O_tgid) s s' -> s_caps s' = s_caps s.
Proof.
  unfold ROpt, O_tgid. intros H. apply mat_alt_inv in H as [H|H].
  - cbn [RSeqs] in H. apply mat_seq_inv in H as (s1 & H1 & H). apply mat_seq_inv in H as (s2 & H2 & H).
    apply mat_seq_inv in H as (s3 & H3 & H4).
    apply mat_plus_cls in H1 as (? & _ & _ & _ & _ & C1). apply mat_lit in H2 as (_ & _ & C2).
    apply mat_star_cls in H3 as (? & _ & _ & _ & C3). apply mat_lit in H4 as (_ & _ & C4). congruence.
  - now inversion H.
Qed.
Lemma O_flags_caps s s' : mat (ROpt O_flags) s s' -> s_caps s' = s_caps s.
Proof.
  unfold ROpt, O_flags. intros H. apply mat_alt_inv in H as [H|H].
  - cbn [RSeqs] in H. apply mat_seq_inv in H as (s1 & H1 & H). apply mat_seq_inv in H as (s2 & H2 & H).
    apply mat_seq_inv in H as (s3 & H3 & H). apply mat_seq_inv in H as (s4 & H4 & H5).
    apply mat_plus_cls in H1 as (? & _ & _ & _ & _ & C1).
    apply mat_cls_inv in H2 as (? & ? & _ & _ & ->). apply mat_cls_inv in H3 as (? & ? & _ & _ & ->).
    apply mat_cls_inv in H4 as (? & ? & _ & _ & ->). apply mat_cls_inv in H5 as (? & ? & _ & _ & ->). exact C1.
  - now inversion H.
Qed.

Lemma special_caps s s' : mat pat_special s s' -> exists comm pid cpu sec us c6 data,
  digits pid /\ digits cpu /\ digits sec /\ us_ok us /\ six c6 /\
  s_caps s' = (7, data) :: c6 ++ (4, time_str sec us) :: us_caps us ((3, cpu) :: (2, pid) :: (1, comm) :: s_caps s).
Proof.
  rewrite pat_special_eq. intros H.
  apply mat_seq_inv in H as (s1 & Hb & H). inversion Hb; subst; clear Hb.
  apply mat_seq_inv in H as (s2 & Hsp & H). apply mat_star_cls in Hsp as (? & _ & _ & _ & C2).
  apply mat_seq_inv in H as (s3 & Hg & H). apply mat_grp_inv in Hg as (s4 & Hg & ->).
  apply mat_star_cls in Hg as (comm & Ec & _ & _ & C4).
  apply mat_seq_inv in H as (s5 & Hd & H). apply mat_lit in Hd as (_ & _ & C5).
  unfold R_pid in H. apply mat_seq_inv in H as (s6 & Hp & H). apply grp_digits in Hp as (pid & Hpid & C6).
  apply mat_seq_inv in H as (s7 & Ht & H). apply O_tgid_caps in Ht.
  unfold R_cpu in H. apply mat_seq_inv in H as (s8 & Hsp & H). apply mat_plus_cls in Hsp as (? & _ & _ & _ & _ & C8).
  apply mat_seq_inv in H as (s9 & Hd & H). apply mat_lit in Hd as (_ & _ & C9).
  apply mat_seq_inv in H as (s10 & Hc & H). apply grp_digits in Hc as (cpu & Hcpu & C10).
  apply mat_seq_inv in H as (s11 & Hd & H). apply mat_lit in Hd as (_ & _ & C11).
  unfold R_flags in H. apply mat_seq_inv in H as (s12 & Hf & H). apply O_flags_caps in Hf.
  unfold R_sp_ts in H. apply mat_seq_inv in H as (s13 & Hsp & H). apply mat_plus_cls in Hsp as (? & _ & _ & _ & _ & C13).
  unfold R_ts in H. apply mat_seq_inv in H as (s14 & Ht4 & H). apply G4_caps in Ht4 as (sec & us & Hsec & Hus & C14).
  apply mat_seq_inv in H as (s15 & Hd & H). apply mat_lit in Hd as (_ & _ & C15).
  unfold R_names in H. apply mat_seq_inv in H as (s16 & Hn & H).
  unfold RPlus in Hn. apply mat_seq_inv in Hn as (s17 & Hg & Hn). apply G6_caps in Hg as (t6 & C17).
  apply star6_caps in Hn as (c6 & H6 & C16).
  unfold R_data in H. apply mat_grp_inv in H as (s18 & H & ->). apply mat_plus_cls in H as (data & Ed & _ & _ & _ & C18).
  exists comm, pid, cpu, sec, us, (c6 ++ [(6, t6)]), data.
  repeat (split; [assumption|]). split.
  - apply Forall_app. split; [assumption|repeat constructor].
  - destruct (cap_add_text 7 s16 s18 data Ed) as [Q7 _]. rewrite Q7, C18, C16, C17, C15, C14, C13, Hf, C11, C10, C9, C8, Ht, C6, C5.
    destruct (cap_add_text 1 s2 s4 comm Ec) as [Q1 _]. rewrite Q1, C4, C2. cbn [s_caps].
    rewrite <- app_assoc. reflexivity.
Qed.

Lemma fdiv_nn t : nn t = true -> nn (fdiv t f1e9) = true.
Proof.
  intros H. destruct (div_1e9 t H) as [A B]. destruct (Flocq.IEEE754.BinarySingleNaN.is_finite t) eqn:F.
  - destruct (A eq_refl) as [A1 A2].
    destruct (Rlt_dec (round_double (Flocq.IEEE754.BinarySingleNaN.B2R t / 1000000000)%R) (Flocq.Core.Raux.bpow Flocq.Core.Zaux.radix2 1024)) as [L|L].
    + destruct (A1 L) as [F1 E1]. apply nn_of_pos; auto. rewrite E1.
      rewrite <- (Flocq.Core.Generic_fmt.round_0 Flocq.Core.Zaux.radix2 fexp64 (Flocq.IEEE754.BinarySingleNaN.round_mode Flocq.IEEE754.BinarySingleNaN.mode_NE)).
      apply Flocq.Core.Generic_fmt.round_le; auto with typeclass_instances.
      apply nn_pos in H. apply Rmult_le_pos; lra.
    + apply Rnot_lt_le in L. rewrite (A2 L). reflexivity.
  - rewrite (B eq_refl). reflexivity.
Qed.

Theorem parse_total raw : exists o, parse_fields raw = Ok o /\
  forall f, o = Some f -> nn (f_time f) = true /\ (0 <= f_pid f)%Z /\ (0 <= f_cpu f)%Z.
Proof.
  unfold parse_fields. destruct (re_match pat_special (rstrip raw)) as [m|] eqn:E.
  2:{ exists None. split; auto. discriminate. }
  unfold re_match in E. apply mt_sound in E as (s' & Hm & E). injection E as <-.
  apply special_caps in Hm as (comm & pid & cpu & sec & us & c6 & data & Hpid & Hcpu & Hsec & Hus & H6 & C).
  unfold group, mk_res. cbn [m_caps]. rewrite C. cbn [dget Nat.eqb]. rewrite !caps6 by (auto; discriminate).
  assert (Hv : forall n, (n = 1 \/ n = 2 \/ n = 3) ->
     dget Nat.eqb n ((4, time_str sec us) :: us_caps us [(3, cpu); (2, pid); (1, comm)]) =
     dget Nat.eqb n [(3, cpu); (2, pid); (1, comm)]).
  { intros n Hn. unfold us_caps. destruct us; destruct Hn as [->|[->| ->]]; reflexivity. }
  cbn [s_caps]. rewrite !Hv by auto. cbn [dget Nat.eqb].
  rewrite (py_int10_digits pid), (py_int10_digits cpu) by auto.
  destruct us as [u|].
  - unfold time_str. rewrite py_float_frac by (auto; now apply Hus). cbn [us_caps dget Nat.eqb].
    eexists. split; [reflexivity|]. intros f Ef. injection Ef as <-. cbn. split; [apply f_of_ratio_nn|]. split; apply N2Z.is_nonneg.
  - unfold time_str. rewrite app_nil_r, py_float_int by auto. cbn [us_caps dget Nat.eqb].
    eexists. split; [reflexivity|]. intros f Ef. injection Ef as <-. cbn [f_time f_pid f_cpu].
    split; [apply fdiv_nn, f_of_ratio_nn|]. split; apply N2Z.is_nonneg.
Qed.
