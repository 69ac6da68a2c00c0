(** Which lines SPECIAL_FIELDS_RE accepts, and what it takes from them. *)
From Coq Require Import List Ascii String ZArith NArith Bool Lia.
From Verif Require Import Lib.PyStr Lib.PyStrFacts Lib.Regex Lib.RegexFacts Lib.SearchFacts Lib.F64
  Model.Line Spec.Lines Proofs.ArraysP Proofs.LineP.
Import ListNotations.
Local Open Scope list_scope.

(** ** Texts a pattern can take *)
Definition eats (r : re) (u : str) : Prop := forall s v, s_rest s = u ++ v -> exists s', mat r s s' /\ s_rest s' = v.
Lemma eats_eps : eats REps [].
Proof. intros s v E. exists s. split; [constructor|exact E]. Qed.
Lemma eats_seq r1 r2 u1 u2 : eats r1 u1 -> eats r2 u2 -> eats (RSeq r1 r2) (u1 ++ u2).
Proof.
  intros H1 H2 s v E. rewrite <- app_assoc in E. destruct (H1 s _ E) as (s1 & M1 & E1).
  destruct (H2 s1 _ E1) as (s2 & M2 & E2). exists s2. split; auto. econstructor; eauto.
Qed.
Lemma eats_grp n r u : eats r u -> eats (RGrp n r) u.
Proof. intros H s v E. destruct (H s v E) as (s1 & M & E1). exists (cap_add n s s1). split; [now constructor|exact E1]. Qed.
Lemma eats_cls p c : p c = true -> eats (RCls p) [c].
Proof. intros H [pv r caps] v E. cbn in E. subst r. eexists. split; [constructor; exact H|reflexivity]. Qed.
Lemma eats_star r us : Forall (fun u => u <> [] /\ eats r u) us -> eats (RStar r) (List.concat us).
Proof.
  induction 1 as [|u us [Hu H] _ IH]; intros s v E.
  - exists s. split; [constructor|exact E].
  - cbn [List.concat] in E. rewrite <- app_assoc in E. destruct (H s _ E) as (s1 & M & E1). destruct (IH s1 v E1) as (s2 & M2 & E2).
    exists s2. split; auto. eapply mat_star1; eauto. rewrite E, E1, (app_length u). destruct u; [congruence|cbn; lia].
Qed.
Lemma eats_star_cls p u : Forall (fun c => p c = true) u -> eats (RStar (RCls p)) u.
Proof.
  intros H. replace u with (List.concat (map (fun c => [c]) u)).
  - apply eats_star. rewrite Forall_map. eapply Forall_impl; [|exact H]. intros c Hc. split; [discriminate|now apply eats_cls].
  - clear. induction u as [|c u IH]; cbn; congruence.
Qed.
Lemma eats_plus_cls p u : u <> [] -> Forall (fun c => p c = true) u -> eats (RPlus (RCls p)) u.
Proof.
  intros Hn H. destruct u as [|c u]; [congruence|]. inversion H; subst. apply (eats_seq _ _ [c] u); [now apply eats_cls|now apply eats_star_cls].
Qed.
Lemma eats_lit l : eats (RLit l) l.
Proof.
  induction l as [|c l IH]; [apply eats_eps|]. destruct l as [|d l].
  - apply eats_cls. now apply is_ch_eq.
  - apply (eats_seq (RCh c) (RLit (d :: l)) [c]); auto. apply eats_cls. now apply is_ch_eq.
Qed.
Lemma eats_some r u : eats r u -> eats (ROpt r) u.
Proof. intros H s v E. destruct (H s v E) as (s1 & M & E1). exists s1. split; auto. now constructor. Qed.
Lemma eats_none r : eats (ROpt r) [].
Proof. intros s v E. exists s. split; [apply mat_altr; constructor|exact E]. Qed.
Lemma eats_digits u : digits u -> eats (RPlus (RCls is_digit)) u.
Proof. intros [? ?]. now apply eats_plus_cls. Qed.
Lemma eats_blanks u : blanks u -> eats (RPlus (RCls is_space)) u.
Proof. intros [? ?]. now apply eats_plus_cls. Qed.

Lemma eats_name n : word (fst n) /\ blanks (snd n) -> eats G6 (fst n ++ $":" ++ snd n).
Proof.
  intros [[Hw Hw'] Hb]. apply eats_grp. cbn [RSeqs]. apply eats_seq; [now apply eats_plus_cls|].
  apply eats_seq; [apply eats_lit|now apply eats_blanks].
Qed.
Lemma eats_names ns : ns <> [] -> Forall (fun n => word (fst n) /\ blanks (snd n)) ns -> eats (RPlus G6) (names_str ns).
Proof.
  intros Hn H. destruct ns as [|n ns]; [congruence|]. inversion H; subst. unfold names_str. cbn [flat_map]. apply eats_seq; [now apply eats_name|].
  rewrite flat_map_concat_map. apply eats_star. rewrite Forall_map. eapply Forall_impl; [|eassumption].
  intros m Hm. split; [|now apply eats_name]. destruct (fst m), (snd m); discriminate.
Qed.
Definition after_comm (L : tline) : str :=
  $"-" ++ l_pid L ++ tgid_str (l_tgid L) ++ l_sp1 L ++ $"[" ++ l_cpu L ++ $"]" ++ tail_str L.
Lemma line_str_eq L : line_str L = l_lead L ++ l_comm L ++ after_comm L.
Proof. reflexivity. Qed.
Lemma eats_after L : line_read L -> eats (RSeq (RLit $"-") R_pid) (after_comm L).
Proof.
  intros H. unfold after_comm, R_pid, R_cpu, R_flags, R_sp_ts, R_ts, R_names, R_data, tail_str.
  apply eats_seq; [apply eats_lit|]. apply eats_seq; [apply eats_grp, eats_digits, H|].
  apply eats_seq.
  { destruct (l_tgid L) as [[sp t]|] eqn:E; [|apply eats_none]. destruct (rd_tgid L H sp t E) as [H1 H2].
    apply eats_some. unfold O_tgid, tgid_str. cbn [RSeqs]. apply eats_seq; [now apply eats_blanks|].
    apply eats_seq; [apply eats_lit|]. apply eats_seq; [apply eats_star_cls; now apply Forall_not_nl|apply eats_lit]. }
  apply eats_seq; [apply eats_blanks, H|]. apply eats_seq; [apply eats_lit|].
  apply eats_seq; [apply eats_grp, eats_digits, H|]. apply eats_seq; [apply eats_lit|].
  apply eats_seq.
  { destruct (l_flags L) as [[sp f]|] eqn:E; [|apply eats_none]. destruct (rd_flags L H sp f E) as (H1 & H2 & H3).
    apply Forall_not_nl in H3. destruct f as [|c1 [|c2 [|c3 [|c4 [|]]]]]; try discriminate.
    repeat match goal with X : Forall _ (_ :: _) |- _ => inversion X; subst; clear X end.
    apply eats_some. unfold O_flags, flags_str. cbn [RSeqs]. apply eats_seq; [now apply eats_blanks|].
    apply (eats_seq _ _ [c1] [c2; c3; c4]); [now apply eats_cls|].
    apply (eats_seq _ _ [c2] [c3; c4]); [now apply eats_cls|].
    apply (eats_seq _ _ [c3] [c4]); now apply eats_cls. }
  apply eats_seq; [apply eats_blanks, H|]. apply eats_seq.
  { apply eats_grp. apply eats_seq; [apply eats_digits, H|]. destruct (l_us L) as [u|] eqn:E; [|apply eats_none].
    apply eats_some, eats_grp. cbn [RSeqs]. apply eats_seq; [apply eats_lit|apply eats_digits, (rd_us L H u E)]. }
  apply eats_seq; [apply eats_lit|]. destruct (rd_names L H) as [N1 N2]. apply eats_seq; [now apply eats_names|].
  destruct (rd_data L H) as [D1 D2]. apply eats_grp, eats_plus_cls; auto. now apply Forall_not_nl.
Qed.
Definition R_comm : re := RSeq (RGrp 1 (RStar (RCls not_nl))) (RSeq (RLit $"-") R_pid).
Lemma eats_comm L comm : line_read L -> ~ In nl comm -> eats R_comm (comm ++ after_comm L).
Proof. intros H Hc. apply eats_seq; [apply eats_grp, eats_star_cls; now apply Forall_not_nl|now apply eats_after]. Qed.
Lemma read_matches {A} L rest (k : st -> option A) : line_read L -> (forall s, k s <> None) ->
  mt pat_special (St None (line_str L ++ rest) []) k <> None.
Proof.
  intros H Hk. rewrite line_str_eq, pat_special_eq.
  assert (E : eats (RSeq (RStar (RCls is_space)) R_comm) (l_lead L ++ l_comm L ++ after_comm L))
    by (apply eats_seq; [apply eats_star_cls, H|apply eats_comm; auto; apply H]).
  destruct (E (St None ((l_lead L ++ l_comm L ++ after_comm L) ++ rest) []) rest eq_refl) as (s' & M & _).
  apply (mt_complete _ _ s'); auto. econstructor; [constructor|exact M].
Qed.

(** ** What was taken *)
Lemma mat_seq_inv r1 r2 s s' : mat (RSeq r1 r2) s s' -> exists s1, mat r1 s s1 /\ mat r2 s1 s'.
Proof. intros H. inversion H; subst. eauto. Qed.
Lemma mat_grp_inv n r s s' : mat (RGrp n r) s s' -> exists s1 u, mat r s s1 /\ s_rest s = u ++ s_rest s1 /\
  s_rest s' = s_rest s1 /\ s_caps s' = (n, u) :: s_caps s1.
Proof.
  intros H. inversion H; subst. match goal with M : mat r s ?t |- _ => destruct (mat_suffix _ _ _ M) as [u E]; exists t, u end.
  repeat split; auto. cbn [cap_add s_caps]. rewrite E, app_length.
  replace (List.length u + List.length (s_rest s2) - List.length (s_rest s2)) with (List.length u) by lia.
  now rewrite firstn_app, firstn_all, Nat.sub_diag, firstn_O, app_nil_r.
Qed.
Lemma mat_opt_inv r s s' : mat (ROpt r) s s' -> mat r s s' \/ s' = s.
Proof. intros H. inversion H; subst; auto. match goal with M : mat REps _ _ |- _ => inversion M; auto end. Qed.
(** One character loops stop where the rest of the pattern first succeeds, from the right. *)
Lemma star_try_first {A} p caps (k : st -> option A) x rest : forall pv, star_try p pv rest caps k = Some x ->
  exists u v, rest = u ++ v /\ Forall (fun c => p c = true) u /\ k (St (last_or pv u) v caps) = Some x /\
    forall u' v', v = u' ++ v' -> u' <> [] -> Forall (fun c => p c = true) u' -> k (St (last_or pv (u ++ u')) v' caps) = None.
Proof.
  assert (N : forall rest pv, star_try p pv rest caps k = None -> forall u v, rest = u ++ v -> Forall (fun c => p c = true) u ->
              k (St (last_or pv u) v caps) = None).
  { induction rest0 as [|c r IH]; intros pv H u v E Hu.
    - destruct u; [|discriminate]. cbn in E. subst v. exact H.
    - cbn [star_try] in H. destruct u as [|d u].
      + cbn in E. subst v. destruct (p c); [|exact H]. destruct (star_try p (Some c) r caps k); [discriminate|exact H].
      + cbn in E. injection E as -> ->. inversion Hu; subst. rewrite H2 in H. destruct (star_try p (Some d) (u ++ v) caps k) eqn:Es; [discriminate|].
        rewrite last_or_cons. eapply IH; eauto. }
  induction rest as [|c r IH]; intros pv H; cbn [star_try] in H.
  - exists [], []. repeat split; auto. intros u' v' E. destruct u'; [congruence|discriminate].
  - destruct (p c) eqn:Ep.
    + destruct (star_try p (Some c) r caps k) eqn:Es.
      * injection H as ->. destruct (IH _ Es) as (u & v & -> & Hu & Hk & Hm). exists (c :: u), v. repeat split; auto.
        { now rewrite last_or_cons. }
        intros u' v' E Hn Hu'. cbn [app]. rewrite last_or_cons. eauto.
      * exists [], (c :: r). repeat split; auto. intros u' v' E Hn Hu'. destruct u' as [|d u']; [congruence|]. injection E as <- ->.
        inversion Hu'; subst. cbn [app]. rewrite last_or_cons. eapply N; eauto.
    + exists [], (c :: r). repeat split; auto. intros u' v' E Hn Hu'. destruct u' as [|d u']; [congruence|]. injection E as <- ->.
      inversion Hu'; subst. congruence.
Qed.

Lemma not_nl_forall u : Forall (fun c => not_nl c = true) u -> ~ In nl u.
Proof. intros H Hin. rewrite Forall_forall in H. apply H in Hin. now apply not_nl_true in Hin. Qed.
Lemma mat_name s s' : mat G6 s s' -> exists n c6, word (fst n) /\ blanks (snd n) /\ s_rest s = (fst n ++ $":" ++ snd n) ++ s_rest s' /\
  six c6 /\ s_caps s' = c6 ++ s_caps s.
Proof.
  intros H. apply mat_grp_inv in H as (s1 & u & H & _ & Er & Ec). cbn [RSeqs] in H.
  apply mat_seq_inv in H as (s2 & H1 & H). apply mat_seq_inv in H as (s3 & H2 & H3).
  apply mat_plus_cls in H1 as (w & E1 & Nw & Fw & _ & C1). apply mat_lit in H2 as (E2 & _ & C2).
  apply mat_plus_cls in H3 as (b & E3 & Nb & Fb & _ & C3). exists (w, b), [(6, u)]. cbn [fst snd].
  split; [split; auto|]. split; [split; auto|]. split; [rewrite Er, E1, E2, E3; now rewrite <- !app_assoc|].
  split; [repeat constructor|]. rewrite Ec, C3, C2, C1. reflexivity.
Qed.
Lemma six_app a b : six a -> six b -> six (a ++ b).
Proof. intros; apply Forall_app; auto. Qed.
Lemma mat_names_star s s' : mat (RStar G6) s s' -> exists ns c6, Forall (fun n => word (fst n) /\ blanks (snd n)) ns /\
  s_rest s = names_str ns ++ s_rest s' /\ six c6 /\ s_caps s' = c6 ++ s_caps s.
Proof.
  remember (RStar G6) as r eqn:Er. induction 1; try discriminate; injection Er as ->.
  - exists [], []. repeat split; auto; constructor.
  - destruct (mat_name _ _ H) as (n & c6 & Hw & Hb & E & S & C). destruct IHmat2 as (ns & d6 & F & E' & S' & C'); auto.
    exists (n :: ns), (d6 ++ c6). split; [constructor; auto|]. split.
    { rewrite E, E'. unfold names_str. cbn [flat_map]. now rewrite <- !app_assoc. }
    split; [now apply six_app|]. rewrite C', C. now rewrite app_assoc.
Qed.

(** The parts after the task name. *)
Definition taken (L : tline) (caps0 caps : list (nat * str)) : Prop :=
  forall n, n <> 6 -> dget Nat.eqb n caps = dget Nat.eqb n ([(7, l_data L); (4, time_str (l_sec L) (l_us L))] ++
    match l_us L with Some u => [(5, $"." ++ u)] | None => [] end ++ [(3, l_cpu L); (2, l_pid L)] ++ caps0).
Lemma mt_seq {A} r1 r2 s (k : st -> option A) x : mt (RSeq r1 r2) s k = Some x -> exists s', mat r1 s s' /\ mt r2 s' k = Some x.
Proof. intros H. cbn [mt] in H. exact (mt_sound _ _ _ _ H). Qed.
Lemma mt_after {A} s (k : st -> option A) x : mt (RSeq (RLit $"-") R_pid) s k = Some x -> (forall s, k s <> None) ->
  exists L rest s', (forall lead comm, all_space lead -> ~ In nl comm ->
      line_read (TLine lead comm (l_pid L) (l_tgid L) (l_sp1 L) (l_cpu L) (l_flags L) (l_sp2 L) (l_sec L) (l_us L) (l_names L) (l_data L))) /\
    s_rest s = after_comm L ++ rest /\ (forall c r, rest = c :: r -> c = nl) /\ taken L (s_caps s) (s_caps s') /\ k s' = Some x.
Proof.
  intros H Hk. unfold R_pid, R_cpu, R_flags, R_sp_ts, R_ts, R_names in H.
  apply mt_seq in H as (s1 & M1 & H). apply mat_lit in M1 as (E1 & _ & C1).
  apply mt_seq in H as (s2 & M2 & H). apply mat_grp_inv in M2 as (t2 & pid & M2 & E2 & R2 & C2).
  apply mat_plus_cls in M2 as (pid' & E2' & N2 & F2 & _ & C2'). assert (pid' = pid) by (eapply app_inv_tail; rewrite <- E2, <- E2'; reflexivity). subst pid'.
  apply mt_seq in H as (s3 & M3 & H).
  assert (T3 : exists tg, (forall sp t, tg = Some (sp, t) -> blanks sp /\ ~ In nl t) /\ s_rest s2 = tgid_str tg ++ s_rest s3 /\ s_caps s3 = s_caps s2).
  { apply mat_opt_inv in M3 as [M3| ->]; [|exists None; repeat split; congruence]. unfold O_tgid in M3. cbn [RSeqs] in M3.
    apply mat_seq_inv in M3 as (a1 & A1 & M3). apply mat_seq_inv in M3 as (a2 & A2 & M3). apply mat_seq_inv in M3 as (a3 & A3 & A4).
    apply mat_plus_cls in A1 as (sp & X1 & X2 & X3 & _ & X4). apply mat_lit in A2 as (Y1 & _ & Y2).
    apply mat_star_cls in A3 as (t & Z1 & Z2 & _ & Z3). apply mat_lit in A4 as (W1 & _ & W2).
    exists (Some (sp, t)). split; [|split].
    - intros ? ? [= <- <-]. split; [split; auto|now apply not_nl_forall].
    - rewrite X1, Y1, Z1, W1. unfold tgid_str. now rewrite <- !app_assoc.
    - congruence. }
  destruct T3 as (tg & Htg & E3 & C3).
  apply mt_seq in H as (s4 & M4 & H). apply mat_plus_cls in M4 as (sp1 & E4 & N4 & F4 & _ & C4).
  apply mt_seq in H as (s5 & M5 & H). apply mat_lit in M5 as (E5 & _ & C5).
  apply mt_seq in H as (s6 & M6 & H). apply mat_grp_inv in M6 as (t6 & cpu & M6 & E6 & R6 & C6).
  apply mat_plus_cls in M6 as (cpu' & E6' & N6 & F6 & _ & C6'). assert (cpu' = cpu) by (eapply app_inv_tail; rewrite <- E6, <- E6'; reflexivity). subst cpu'.
  apply mt_seq in H as (s7 & M7 & H). apply mat_lit in M7 as (E7 & _ & C7).
  apply mt_seq in H as (s8 & M8 & H).
  assert (T8 : exists fl, (forall sp f, fl = Some (sp, f) -> blanks sp /\ List.length f = 4 /\ ~ In nl f) /\ s_rest s7 = flags_str fl ++ s_rest s8 /\ s_caps s8 = s_caps s7).
  { apply mat_opt_inv in M8 as [M8| ->]; [|exists None; repeat split; congruence]. unfold O_flags in M8. cbn [RSeqs] in M8.
    apply mat_seq_inv in M8 as (a1 & A1 & M8). apply mat_seq_inv in M8 as (a2 & A2 & M8).
    apply mat_seq_inv in M8 as (a3 & A3 & M8). apply mat_seq_inv in M8 as (a4 & A4 & A5).
    apply mat_plus_cls in A1 as (sp & X1 & X2 & X3 & _ & X4).
    apply mat_cls_inv in A2 as (c1 & r1 & Y1 & P1 & ->). apply mat_cls_inv in A3 as (c2 & r2 & Y2 & P2 & ->).
    apply mat_cls_inv in A4 as (c3 & r3 & Y3 & P3 & ->). apply mat_cls_inv in A5 as (c4 & r4 & Y4 & P4 & ->). cbn [s_rest s_caps] in *. subst.
    exists (Some (sp, [c1; c2; c3; c4])). split; [|split].
    - intros ? ? [= <- <-]. split; [split; auto|]. split; [reflexivity|]. apply not_nl_forall. repeat constructor; auto.
    - rewrite X1, Y1. unfold flags_str. now rewrite <- app_assoc.
    - congruence. }
  destruct T8 as (fl & Hfl & E8 & C8).
  apply mt_seq in H as (s9 & M9 & H). apply mat_plus_cls in M9 as (sp2 & E9 & N9 & F9 & _ & C9).
  apply mt_seq in H as (s10 & M10 & H).
  assert (T10 : exists sec us, digits sec /\ (forall u, us = Some u -> digits u) /\ s_rest s9 = time_str sec us ++ s_rest s10 /\
     s_caps s10 = (4, time_str sec us) :: match us with Some u => [(5, $"." ++ u)] | None => [] end ++ s_caps s9).
  { apply mat_grp_inv in M10 as (a1 & ts & M10 & X1 & X2 & X3). apply mat_seq_inv in M10 as (a2 & A2 & M10).
    apply mat_plus_cls in A2 as (sec & Y1 & Y2 & Y3 & _ & Y4).
    apply mat_opt_inv in M10 as [M10| ->].
    - apply mat_grp_inv in M10 as (a3 & fr & M10 & Z1 & Z2 & Z3). cbn [RSeqs] in M10.
      apply mat_seq_inv in M10 as (a4 & A4 & A5). apply mat_lit in A4 as (W1 & _ & W2).
      apply mat_plus_cls in A5 as (u & V1 & V2 & V3 & _ & V4).
      assert (fr = $"." ++ u) by (apply (app_inv_tail (s_rest a3)); rewrite <- Z1, W1, V1; now rewrite app_assoc). subst fr.
      exists sec, (Some u). split; [split; auto|]. split; [intros ? [= <-]; split; auto|].
      assert (ts = time_str sec (Some u)).
      { apply (app_inv_tail (s_rest a1)). rewrite <- X1, Y1, Z1, Z2. unfold time_str. now rewrite <- !app_assoc. }
      subst ts. split; [rewrite X1; congruence|]. rewrite X3, Z3, V4, W2, Y4. reflexivity.
    - exists sec, None. split; [split; auto|]. split; [discriminate|]. unfold time_str. rewrite app_nil_r.
      assert (ts = sec) by (apply (app_inv_tail (s_rest a2)); congruence). subst ts. split; [rewrite X1; congruence|]. rewrite X3, Y4. reflexivity. }
  destruct T10 as (sec & us & Hsec & Hus & E10 & C10).
  apply mt_seq in H as (s11 & M11 & H). apply mat_lit in M11 as (E11 & _ & C11).
  apply mt_seq in H as (s12 & M12 & H).
  assert (T12 : exists ns c6, ns <> [] /\ Forall (fun n => word (fst n) /\ blanks (snd n)) ns /\ s_rest s11 = names_str ns ++ s_rest s12 /\
     six c6 /\ s_caps s12 = c6 ++ s_caps s11).
  { apply mat_seq_inv in M12 as (a1 & A1 & A2). destruct (mat_name _ _ A1) as (n & c6 & Hw & Hb & E & S & C).
    destruct (mat_names_star _ _ A2) as (ns & d6 & F & E' & S' & C'). exists (n :: ns), (d6 ++ c6). split; [discriminate|].
    split; [constructor; auto|]. split; [rewrite E, E'; unfold names_str; cbn [flat_map]; now rewrite <- !app_assoc|].
    split; [now apply six_app|]. rewrite C', C. now rewrite app_assoc. }
  destruct T12 as (ns & c6 & Nn & Fn & E12 & S6 & C12).
  unfold R_data in H. cbn [mt RPlus] in H. destruct s12 as [pv12 rest12 caps12]. cbn [s_rest s_caps s_prev] in *.
  destruct rest12 as [|c r]; [discriminate|]. destruct (not_nl c) eqn:Ec; [|discriminate].
  change (mt (RStar (RCls not_nl)) (St (Some c) r caps12) (fun s' => k (cap_add 7 (St pv12 (c :: r) caps12) s')) = Some x) in H.
  rewrite mt_star_cls in H. cbn [s_rest s_caps s_prev] in H.
  apply star_try_first in H as (u & v & Er & Fu & Hx & Hm).
  exists (TLine [] [] pid tg sp1 cpu fl sp2 sec us ns (c :: u)), v. eexists. split; [|split; [|split; [|split; [|exact Hx]]]].
  - intros lead comm Hl Hc. cbn. constructor; cbn [l_lead l_comm l_pid l_tgid l_sp1 l_cpu l_flags l_sp2 l_sec l_us l_names l_data]; auto; try (split; auto; fail).
    split; [discriminate|]. apply not_nl_forall. constructor; auto.
  - unfold after_comm, tail_str. cbn [l_pid l_tgid l_sp1 l_cpu l_flags l_sp2 l_sec l_us l_names l_data].
    rewrite E1, E2, <- R2, E3, E4, E5, E6, <- R6, E7, E8, E9, E10, E11, E12, Er. rewrite <- !app_assoc. reflexivity.
  - intros d w ->. destruct (not_nl d) eqn:Ed.
    + exfalso. apply (Hk (cap_add 7 (St pv12 (c :: r) caps12) (St (last_or (Some c) (u ++ [d])) w caps12))). apply (Hm [d] w); auto. discriminate.
    + destruct (Ascii.eqb_spec d nl); auto. rewrite (proj2 (not_nl_true d)) in Ed by auto. discriminate.
  - intros n Hn. unfold cap_add. cbn [s_caps s_rest s_prev]. rewrite Er, app_comm_cons, app_length.
    replace (List.length (c :: u) + List.length v - List.length v) with (List.length (c :: u)) by lia.
    rewrite firstn_app, firstn_all, Nat.sub_diag, firstn_O, app_nil_r. cbn [l_data l_sec l_us l_cpu l_pid app].
    cbn [dget]. destruct (Nat.eqb n 7); auto. rewrite C12, caps6 by auto. rewrite C11, C10. cbn [app dget]. destruct (Nat.eqb n 4); auto.
    replace (s_caps s9) with ((3, cpu) :: (2, pid) :: s_caps s) by congruence. reflexivity.
Qed.

(** ** The whole line *)
Lemma space_max L rest a b : line_str L ++ rest = a ++ b -> all_space a -> line_read L -> (forall c r, l_comm L = c :: r -> is_space c = false) ->
  exists w, l_lead L = a ++ w.
Proof.
  rewrite line_str_eq. revert a. generalize (l_lead L) as lead. induction lead as [|c lead IH]; intros a E Ha H Hc.
  - destruct a as [|d a]; [now exists []|]. inversion Ha; subst. cbn [app] in E. destruct (l_comm L) as [|e cm] eqn:Ec.
    + cbn in E. injection E as <- _. discriminate.
    + cbn in E. injection E as -> _. rewrite (Hc d cm eq_refl) in *. discriminate.
  - destruct a as [|d a]; [now exists (c :: lead)|]. inversion Ha; subst. cbn in E. injection E as <- E.
    destruct (IH a E) as [w ->]; auto. now exists w.
Qed.
Lemma longer (p q b d : str) : p ++ b = q ++ d -> List.length p < List.length q -> exists y, q = p ++ y /\ y <> [] /\ b = y ++ d.
Proof.
  revert q. induction p as [|c p IH]; intros q E Hl.
  - exists q. split; auto. split; auto. destruct q; [cbn in Hl; lia|discriminate].
  - destruct q as [|c' q]; [cbn in Hl; lia|]. cbn in E, Hl. injection E as <- E. destruct (IH q E) as (y & -> & Hy & Eb); [lia|]. exists y. auto.
Qed.
Definition fields_of (L : tline) (m : mres) : Prop :=
  group 1 m = Some (l_comm L) /\ group 2 m = Some (l_pid L) /\ group 3 m = Some (l_cpu L) /\ group 4 m = Some (time_str (l_sec L) (l_us L)) /\
  group 5 m = option_map (fun u => $"." ++ u) (l_us L) /\ group 7 m = Some (l_data L).
Lemma match_read s m : re_match pat_special s = Some m -> exists L rest, line_read L /\ s = line_str L ++ rest /\
  (forall c r, rest = c :: r -> c = nl) /\ (forall c r, l_comm L = c :: r -> is_space c = false) /\
  (forall L' rest', line_read L' -> s = line_str L' ++ rest' -> List.length (l_lead L' ++ l_comm L') <= List.length (l_lead L ++ l_comm L)) /\
  fields_of L m.
Proof.
  unfold re_match. rewrite pat_special_eq. intros H. set (k := fun s' => Some (mk_res [] s s')) in H.
  assert (Hk : forall t, k t <> None) by discriminate.
  apply mt_seq in H as (s1 & M1 & H). inversion M1; subst; clear M1.
  change (mt (RStar (RCls is_space)) (St None s []) (fun t => mt R_comm t k) = Some m) in H.
  rewrite mt_star_cls in H. cbn [s_rest s_caps s_prev] in H. apply star_try_first in H as (lead & v & -> & Hl & H & Hlm).
  change (mt (RStar (RCls not_nl)) (St (last_or None lead) v []) (fun t => mt (RSeq (RLit $"-") R_pid) (cap_add 1 (St (last_or None lead) v []) t) k) = Some m) in H.
  rewrite mt_star_cls in H. cbn [s_rest s_caps s_prev] in H. apply star_try_first in H as (comm & w & -> & Hc & H & Hcm).
  assert (Ecap : forall c' w', comm ++ w = c' ++ w' -> cap_add 1 (St (last_or None lead) (comm ++ w) []) (St (last_or (last_or None lead) c') w' []) =
     St (last_or (last_or None lead) c') w' [(1, c')]).
  { intros c' w' E. exact (cap_add_adv 1 (St (last_or None lead) (comm ++ w) []) (St (last_or None lead) (comm ++ w) []) c' w' E). }
  rewrite Ecap in H by reflexivity.
  apply mt_after in H as (L0 & rest & s' & HR & Er & Hrest & Ht & Hm); auto. cbn [s_rest s_caps] in *.
  apply not_nl_forall in Hc. set (L := TLine lead comm (l_pid L0) (l_tgid L0) (l_sp1 L0) (l_cpu L0) (l_flags L0) (l_sp2 L0) (l_sec L0) (l_us L0) (l_names L0) (l_data L0)).
  assert (HL : line_read L) by (apply HR; auto).
  assert (Hcs : forall c r, comm = c :: r -> is_space c = false).
  { intros c r ->. destruct (is_space c) eqn:Es; auto. exfalso.
    assert (EE : eats R_comm (r ++ after_comm L)) by (apply eats_comm; auto; intros X; apply Hc; now right).
    specialize (Hlm [c] (r ++ w)). cbn [app] in Hlm. specialize (Hlm eq_refl ltac:(discriminate) ltac:(repeat constructor; auto)).
    destruct (EE (St (last_or None (lead ++ [c])) (r ++ w) []) rest) as (t & Mt & _).
    { cbn [s_rest]. rewrite Er, <- app_assoc. reflexivity. }
    apply (mt_complete R_comm _ t k Mt (Hk t) Hlm). }
  exists L, rest. split; [exact HL|]. split; [rewrite line_str_eq; cbn [L l_lead l_comm]; rewrite Er, <- !app_assoc; reflexivity|].
  split; [exact Hrest|]. split; [exact Hcs|]. split.
  - intros L' rest' HL' E'. cbn [L l_lead l_comm]. destruct (Nat.le_gt_cases (List.length (l_lead L' ++ l_comm L')) (List.length (lead ++ comm))) as [|Hgt]; auto.
    exfalso. destruct (space_max L rest (l_lead L') (l_comm L' ++ after_comm L' ++ rest')) as [x Ex]; auto.
    { rewrite line_str_eq in E' |- *. cbn [L l_lead l_comm]. change (after_comm L) with (after_comm L0). rewrite <- !app_assoc, <- Er. rewrite E'. now rewrite <- !app_assoc. }
    { apply HL'. }
    cbn [L l_lead] in Ex. rewrite Ex in E', Hgt. rewrite line_str_eq, <- !app_assoc in E'. apply app_inv_head in E'. rewrite !app_length in Hgt.
    destruct (longer (x ++ comm) (l_comm L') w (after_comm L' ++ rest')) as (y & Ey & Ny & Ew).
    { rewrite <- app_assoc. exact E'. } { rewrite app_length. lia. }
    assert (Hy : ~ In nl y) by (intros X; apply (rd_comm L' HL'); rewrite Ey; apply in_or_app; now right).
    assert (K := Hcm y (after_comm L' ++ rest') Ew Ny (Forall_not_nl y Hy)). cbv beta in K.
    destruct (eats_after L' HL' (cap_add 1 (St (last_or None lead) (comm ++ w) []) (St (last_or (last_or None lead) (comm ++ y)) (after_comm L' ++ rest') [])) rest' eq_refl) as (t & Mt & _).
    apply (mt_complete _ _ t k Mt (Hk t) K).
  - assert (Em : m_caps m = s_caps s') by (unfold k in Hm; injection Hm as <-; reflexivity).
    unfold fields_of, group. rewrite Em. cbn [L l_comm l_pid l_cpu l_sec l_us l_data].
    repeat split; rewrite Ht by discriminate; cbn [app dget Nat.eqb]; destruct (l_us L0); reflexivity.
Qed.

Lemma is_trace_line_iff s : is_trace_line s = true <-> TraceLine s.
Proof.
  unfold is_trace_line, TraceLine. split.
  - destruct (re_match pat_special s) as [m|] eqn:E; [|discriminate]. intros _. apply match_read in E as (L & rest & H & E & _). eauto.
  - intros (L & rest & H & ->). destruct (re_match pat_special (line_str L ++ rest)) eqn:E; auto.
    exfalso. unfold re_match in E. eapply read_matches; [exact H| |exact E]. discriminate.
Qed.
Lemma read_time L : line_read L -> printed_time L (line_time L).
Proof. intros HL. apply line_time_gen. exact (rd_us L HL). Qed.
Theorem parse_read line : match parse_fields line with
  | Ok None => ~ TraceLine (rstrip line)
  | Ok (Some f) => exists L rest, line_read L /\ rstrip line = line_str L ++ rest /\
      (forall c r, rest = c :: r -> c = nl) /\ (forall c r, l_comm L = c :: r -> is_space c = false) /\
      (forall L' rest', line_read L' -> rstrip line = line_str L' ++ rest' -> List.length (l_lead L' ++ l_comm L') <= List.length (l_lead L ++ l_comm L)) /\
      f_comm f = l_comm L /\ f_pid f = Z.of_N (dec_val (l_pid L)) /\ f_cpu f = Z.of_N (dec_val (l_cpu L)) /\
      printed_time L (f_time f) /\ f_data f = l_data L
  | Err _ => False
  end.
Proof.
  unfold parse_fields. destruct (re_match pat_special (rstrip line)) as [m|] eqn:E.
  - destruct (match_read _ _ E) as (L & rest & HL & Es & H1 & H2 & H3 & G1 & G2 & G3 & G4 & G5 & G7).
    rewrite G1, G2, G3, G4, G5, G7. rewrite (py_int10_digits (l_pid L)) by apply HL. rewrite (py_int10_digits (l_cpu L)) by apply HL.
    pose proof (read_time L HL) as Ht. unfold line_time in Ht. unfold time_str. destruct (l_us L) as [u|] eqn:Eu.
    + rewrite py_float_frac; [|apply HL|exact (rd_us L HL u Eu)]. exists L, rest. repeat (split; [assumption || reflexivity|]). reflexivity.
    + rewrite app_nil_r, py_float_int by apply HL. exists L, rest. repeat (split; [assumption || reflexivity|]). reflexivity.
  - rewrite <- is_trace_line_iff. unfold is_trace_line. rewrite E. discriminate.
Qed.
