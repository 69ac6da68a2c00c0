(** systrace.py *)
From Coq Require Import List Ascii String ZArith NArith Bool Lia.
From Verif Require Import Lib.PyStr Lib.PyStrFacts Lib.Regex Lib.RegexFacts Lib.SearchFacts
  Model.Base Model.Line Model.Systrace Spec.Lines Proofs.LineP Spec.Marks.
From Verif Require Proofs.LineReadP.
Import ListNotations.
Local Open Scope list_scope.

(** ** The body of the file *)
Lemma begin_iff l : begin_marker l = true <-> is_begin l.
Proof. unfold begin_marker, is_begin, starts. rewrite orb_true_iff, !is_prefix_spec. tauto. Qed.
Lemma data_iff l : data_marker l = true <-> is_data l.
Proof. unfold data_marker, is_data, starts, quote. rewrite orb_true_iff, !is_prefix_spec. tauto. Qed.
Lemma end_iff l : is_suffix end_line l = true <-> is_end l.
Proof. unfold is_end, ends, end_line. apply is_suffix_spec. Qed.
Lemma not_true (b : bool) (P : Prop) : (b = true <-> P) -> b = false -> ~ P.
Proof. intros H E HP. apply H in HP. congruence. Qed.

Lemma take_end f : UpToEnd f (take_while (fun l => negb (is_suffix end_line l)) f).
Proof.
  induction f as [|l f IH]; [left; split; [constructor|reflexivity]|]. cbn [take_while]. destruct (is_suffix end_line l) eqn:E; cbn [negb].
  - right. exists l, f. split; [reflexivity|]. split; [constructor|now apply end_iff].
  - pose proof (not_true _ _ (end_iff l) E) as Hn. destruct IH as [[H1 H2]|(e & post & H1 & H2 & H3)].
    + left. split; [constructor; auto|congruence].
    + right. exists e, post. split; [cbn [app]; f_equal; exact H1|]. split; auto.
Qed.
Lemma drop_started f : (Never TraceLine f /\ drop_before false false f = []) \/
  exists h l rest, First TraceLine h l rest f /\ drop_before false false f = l :: rest.
Proof.
  induction f as [|l f IH]; [left; split; [constructor|reflexivity]|]. cbn [drop_before]. destruct (is_trace_line l) eqn:E.
  - right. exists [], l, f. split; [|reflexivity]. split; [reflexivity|]. split; [constructor|now apply LineReadP.is_trace_line_iff].
  - apply (not_true _ _ (LineReadP.is_trace_line_iff l)) in E. destruct IH as [[H1 H2]|(h & l' & rest & (H1 & H2 & H3) & H4)].
    + left. split; [constructor; auto|exact H2].
    + right. exists (l :: h), l', rest. split; auto. split; [cbn [app]; congruence|]. split; [constructor; auto|exact H3].
Qed.
Lemma drop_data f : (Never is_data f /\ drop_before false true f = []) \/
  exists c d g, First is_data c d g f /\ drop_before false true f = drop_before false false (d :: g).
Proof.
  induction f as [|l f IH]; [left; split; [constructor|reflexivity]|]. cbn [drop_before]. destruct (data_marker l) eqn:E; cbn [negb].
  - right. exists [], l, f. split; [|reflexivity]. split; [reflexivity|]. split; [constructor|now apply data_iff].
  - pose proof (not_true _ _ (data_iff l) E) as Hn. destruct IH as [[H1 H2]|(c & d & g & (H1 & H2 & H3) & H4)].
    + left. split; auto. constructor; auto.
    + right. exists (l :: c), d, g. split; auto. split; [cbn [app]; congruence|]. split; auto.
Qed.
Lemma drop_begin f : (Never is_begin f /\ drop_before true true f = []) \/
  exists a b g, First is_begin a b g f /\ drop_before true true f = drop_before false true g.
Proof.
  induction f as [|l f IH]; [left; split; [constructor|reflexivity]|]. cbn [drop_before]. destruct (begin_marker l) eqn:E; cbn [negb].
  - right. exists [], l, f. split; [|reflexivity]. split; [reflexivity|]. split; [constructor|now apply begin_iff].
  - pose proof (not_true _ _ (begin_iff l) E) as Hn. destruct IH as [[H1 H2]|(c & d & g & (H1 & H2 & H3) & H4)].
    + left. split; auto. constructor; auto.
    + right. exists (l :: c), d, g. split; auto. split; [cbn [app]; congruence|]. split; auto.
Qed.
Lemma systrace_body_spec file : SysBody file (systrace_body file).
Proof.
  unfold systrace_body. destruct (drop_begin file) as [[H ->]|(a & b & f & H & ->)]; [now constructor|].
  destruct (drop_data f) as [[H1 ->]|(c & d & g & H1 & ->)]; [eapply SB_no_data; eauto|].
  destruct (drop_started (d :: g)) as [[H2 ->]|(h & l & rest & H2 & ->)]; [eapply SB_no_line; eauto|].
  eapply SB_body; eauto. apply take_end.
Qed.

(** The specification determines the body. *)
Lemma First_unique {A} (P : A -> Prop) l : forall p1 x1 q1 p2 x2 q2,
  First P p1 x1 q1 l -> First P p2 x2 q2 l -> p1 = p2 /\ x1 = x2 /\ q1 = q2.
Proof.
  induction l as [|y l IH]; intros p1 x1 q1 p2 x2 q2 (E1 & N1 & X1) (E2 & N2 & X2).
  - destruct p1; discriminate.
  - destruct p1 as [|a p1], p2 as [|b p2]; cbn in E1, E2; injection E1 as Ea E1; injection E2 as Eb E2.
    + subst. auto.
    + subst. inversion N2; subst. tauto.
    + subst. inversion N1; subst. tauto.
    + inversion N1; inversion N2; subst. destruct (IH p1 x1 q1 p2 x2 q2) as (-> & -> & ->); auto; repeat split; auto.
Qed.
Lemma First_Never {A} (P : A -> Prop) p x q l : First P p x q l -> Never P l -> False.
Proof.
  intros (-> & _ & Hx) H. unfold Never in H. rewrite Forall_forall in H. apply (H x); auto. apply in_or_app. right. now left.
Qed.
Lemma UpToEnd_unique f b1 b2 : UpToEnd f b1 -> UpToEnd f b2 -> b1 = b2.
Proof.
  intros [[N1 E1]|(e1 & p1 & F1)] [[N2 E2]|(e2 & p2 & F2)].
  - congruence.
  - destruct (First_Never _ _ _ _ _ F2 N1).
  - destruct (First_Never _ _ _ _ _ F1 N2).
  - now destruct (First_unique _ _ _ _ _ _ _ _ F1 F2) as (-> & _).
Qed.
Ltac fu H1 H2 := let E1 := fresh in let E2 := fresh in let E3 := fresh in
  destruct (First_unique _ _ _ _ _ _ _ _ H1 H2) as (E1 & E2 & E3); subst.
Lemma SysBody_unique file b1 b2 : SysBody file b1 -> SysBody file b2 -> b1 = b2.
Proof.
  intros H1 H2. destruct H1 as [N1|a b f F N1|a b f c d g F G N1|a b f c d g h l rest body F G H U];
  destruct H2 as [N2|a2 b2 f2 F2 N2|a2 b2 f2 c2 d2 g2 F2 G2 N2|a2 b2 f2 c2 d2 g2 h2 l2 rest2 body2 F2 G2 H2 U2]; auto;
  try (destruct (First_Never _ _ _ _ _ F N2); fail); try (destruct (First_Never _ _ _ _ _ F2 N1); fail);
  fu F F2; try (destruct (First_Never _ _ _ _ _ G N2); fail); try (destruct (First_Never _ _ _ _ _ G2 N1); fail);
  fu G G2; try (destruct (First_Never _ _ _ _ _ H N2); fail); try (destruct (First_Never _ _ _ _ _ H2 N1); fail).
  fu H H2. eapply UpToEnd_unique; eauto.
Qed.
Lemma systrace_body_iff file body : systrace_body file = body <-> SysBody file body.
Proof. split; [intros <-; apply systrace_body_spec|]. intros H. eapply SysBody_unique; [apply systrace_body_spec|exact H]. Qed.

(** ** Markers *)
Lemma capital_iff c : is_upper c = true <-> capital c.
Proof. unfold is_upper, in_range, capital, code. rewrite andb_true_iff, !N.leb_le. tauto. Qed.
Lemma bar_not_digit : is_digit bar = false.
Proof. reflexivity. Qed.
Lemma not_bar_Forall f : ~ In bar f -> Forall (fun c => not_ch "|" c = true) f.
Proof.
  intros H. apply Forall_forall. intros c Hc. unfold not_ch. destruct (Ascii.eqb_spec "|" c); auto. subst. tauto.
Qed.
Lemma not_newline_Forall d : ~ In newline d -> Forall (fun c => not_nl c = true) d.
Proof.
  intros H. apply Forall_forall. intros c Hc. unfold not_nl, code. destruct (N.eqb_spec (N_of_ascii c) 10) as [E|]; auto.
  exfalso. apply H. replace newline with c; auto. rewrite <- (ascii_N_embedding c), E. reflexivity.
Qed.

(** What the match leaves. *)
Definition caps (r : option mres) : option (option str * option str * option str * option str) :=
  match r with None => None | Some m => Some (group 1 m, group 3 m, group 4 m, group 6 m) end.

Lemma match_text s : (forall x r, s = x :: r -> ~ capital x) -> re_match pat_mark s = None.
Proof.
  intros H. unfold re_match, pat_mark. cbn [RSeqs mt s_prev]. destruct s as [|x r]; auto.
  cbn [s_rest]. destruct (is_upper x) eqn:E; auto. apply capital_iff in E. destruct (H x r eq_refl E).
Qed.
Definition pat_opt2 : re := ROpt (RGrp 5 (RSeq (RLit $"|") (RGrp 6 (RStar (RCls not_nl))))).
Definition pat_body : re :=
  RSeqs [RLit $"|"; RGrp 3 (RPlus (RCls is_digit)); RLit $"|"; RGrp 4 (RStar (RCls (not_ch "|"))); pat_opt2].
Lemma match_head x r : capital x ->
  re_match pat_mark (x :: r) =
  mt (ROpt (RGrp 2 pat_body)) (St (Some x) r [(1, [x])]) (fun s' => Some (mk_res [] (x :: r) s')).
Proof.
  intros H. apply capital_iff in H. unfold re_match, pat_mark. fold pat_opt2. fold pat_body.
  change (RSeqs [RBos; RGrp 1 (RCls is_upper); ROpt (RGrp 2 pat_body)]) with
    (RSeq RBos (RSeq (RGrp 1 (RCls is_upper)) (ROpt (RGrp 2 pat_body)))).
  remember (ROpt (RGrp 2 pat_body)) as o. cbn [mt s_prev s_rest]. rewrite H. unfold cap_add. cbn [s_prev s_rest s_caps List.length].
  replace (S (List.length r) - List.length r)%nat with 1%nat by lia. reflexivity.
Qed.
Lemma match_bare x r : capital x -> (forall ds t, r = bar :: ds ++ bar :: t -> ~ digits ds) ->
  re_match pat_mark (x :: r) = Some (mk_res [] (x :: r) (St (Some x) r [(1, [x])])).
Proof.
  intros Hx Hr. rewrite match_head by auto. unfold ROpt.
  change (mt (RAlt (RGrp 2 pat_body) REps) ?s ?k) with (match mt (RGrp 2 pat_body) s k with Some y => Some y | None => mt REps s k end).
  rewrite mt_None; [reflexivity|]. intros s' Hm. exfalso. apply mat_grp_inv in Hm as (s1 & Hm & _).
  unfold pat_body in Hm. cbn [RSeqs] in Hm. apply mat_seq_inv in Hm as (s2 & H2 & Hm). apply mat_seq_inv in Hm as (s3 & H3 & Hm).
  apply mat_seq_inv in Hm as (s4 & H4 & _). apply mat_lit in H2 as (E2 & _). apply mat_grp_inv in H3 as (s3' & H3 & ->).
  apply mat_plus_cls in H3 as (u & E3 & Hne & Hd & _). apply mat_lit in H4 as (E4 & _).
  cbn [s_rest cap_add] in *. apply (Hr u (s_rest s4)); [|split; auto]. rewrite E2, E3, E4. reflexivity.
Qed.
Lemma body_step x ds t {A} (k : st -> option A) y : digits ds ->
  mt (RSeq (RGrp 4 (RStar (RCls (not_ch "|")))) pat_opt2)
     (St (Some bar) t [(3, ds); (1, [x])]) (fun s' => k (cap_add 2 (St (Some x) (bar :: ds ++ bar :: t) [(1, [x])]) s')) = Some y ->
  mt (ROpt (RGrp 2 pat_body)) (St (Some x) (bar :: ds ++ bar :: t) [(1, [x])]) k = Some y.
Proof.
  intros [Hne Hd] H. unfold ROpt.
  change (mt (RAlt (RGrp 2 pat_body) REps) ?s ?k) with (match mt (RGrp 2 pat_body) s k with Some y => Some y | None => mt REps s k end).
  enough (E : mt (RGrp 2 pat_body) (St (Some x) (bar :: ds ++ bar :: t) [(1, [x])]) k = Some y) by now rewrite E.
  set (s0 := St (Some x) (bar :: ds ++ bar :: t) [(1, [x])]).
  change (mt (RGrp 2 pat_body) s0 k) with (mt pat_body s0 (fun s' => k (cap_add 2 s0 s'))).
  unfold pat_body. cbn [RSeqs].
  change (mt (RSeq (RLit $"|") ?r) s0 ?k) with (mt (RLit $"|") s0 (fun s' => mt r s' k)).
  rewrite (lit_step $"|" s0 (ds ++ bar :: t)) by reflexivity.
  set (s1 := adv s0 $"|" (ds ++ bar :: t)).
  change (mt (RSeq (RGrp 3 ?r1) ?r2) s1 ?k) with (mt r1 s1 (fun s' => mt r2 (cap_add 3 s1 s') k)).
  apply (plus_max is_digit s1 ds (bar :: t)); [reflexivity|exact Hne|exact Hd|reflexivity|].
  rewrite cap_add_adv by reflexivity.
  change (mt (RSeq (RLit $"|") ?r) ?s ?k) with (mt (RLit $"|") s (fun s' => mt r s' k)).
  rewrite (lit_step $"|" _ t) by reflexivity. exact H.
Qed.
Lemma match_call x ds f : capital x -> digits ds -> ~ In bar f ->
  caps (re_match pat_mark (x :: bar :: ds ++ bar :: f)) = Some (Some [x], Some ds, Some f, None).
Proof.
  intros Hx Hd Hf. rewrite match_head by auto. erewrite body_step; [|exact Hd|].
  2:{ set (s1 := St (Some bar) f [(3, ds); (1, [x])]).
      change (mt (RSeq (RGrp 4 ?r1) ?r2) s1 ?k) with (mt r1 s1 (fun s' => mt r2 (cap_add 4 s1 s') k)).
      apply (star_max (not_ch "|") s1 f []); [cbn; now rewrite app_nil_r|now apply not_bar_Forall|exact I|].
      rewrite cap_add_adv by (cbn; now rewrite app_nil_r).
      unfold pat_opt2, ROpt. cbn [mt RLit RCh s_rest]. reflexivity. }
  reflexivity.
Qed.
Lemma match_value x ds f d e : capital x -> digits ds -> ~ In bar f -> ~ In newline d ->
  (forall c r, e = c :: r -> c = newline) ->
  caps (re_match pat_mark (x :: bar :: ds ++ bar :: f ++ bar :: d ++ e)) = Some (Some [x], Some ds, Some f, Some d).
Proof.
  intros Hx Hd Hf Hn He. rewrite match_head by auto. erewrite body_step; [|exact Hd|].
  2:{ set (s1 := St (Some bar) (f ++ bar :: d ++ e) [(3, ds); (1, [x])]).
      change (mt (RSeq (RGrp 4 ?r1) ?r2) s1 ?k) with (mt r1 s1 (fun s' => mt r2 (cap_add 4 s1 s') k)).
      apply (star_max (not_ch "|") s1 f (bar :: d ++ e)); [reflexivity|now apply not_bar_Forall|reflexivity|].
      rewrite cap_add_adv by reflexivity.
      unfold pat_opt2, ROpt.
      change (mt (RAlt ?r1 ?r2) ?s ?k) with (match mt r1 s k with Some y => Some y | None => mt r2 s k end).
      match goal with |- match ?t with _ => _ end = Some ?y => enough (E5 : t = Some y) by now rewrite E5 end.
      set (s2 := St (last_or (s_prev s1) f) (bar :: d ++ e) ((4, f) :: s_caps s1)).
      change (mt (RGrp 5 (RSeq (RLit $"|") ?r)) s2 ?k) with (mt (RLit $"|") s2 (fun s' => mt r s' (fun s' => k (cap_add 5 s2 s')))).
      rewrite (lit_step $"|" s2 (d ++ e)) by reflexivity.
      set (s3 := adv s2 $"|" (d ++ e)).
      change (mt (RGrp 6 ?r1) s3 ?k) with (mt r1 s3 (fun s' => k (cap_add 6 s3 s'))).
      apply (star_max not_nl s3 d e); [reflexivity|now apply not_newline_Forall| |].
      { destruct e as [|c e]; [exact I|]. now rewrite (He c e eq_refl). }
      rewrite cap_add_adv by reflexivity. reflexivity. }
  reflexivity.
Qed.
Lemma data_dict_caps s o1 p o4 o6 : digits p ->
  caps (re_match pat_mark s) = Some (Some o1, Some p, o4, o6) ->
  systrace_data_dict s = Ok (Some [($"event", CStr o1); ($"pid", CInt (Z.of_N (dec_val p))); ($"func", opt_str o4); ($"data", opt_str o6)]).
Proof.
  intros Hp H. unfold systrace_data_dict. destruct (re_match pat_mark s) as [m|]; [|discriminate]. cbn [caps] in H.
  injection H as H1 H3 H4 H6. rewrite H1, H3, H4, H6. destruct p as [|c p]; [destruct Hp; congruence|]. now rewrite py_int10_digits by auto.
Qed.
Lemma marker_ok s d : Marker s d -> fallback_data_dict systrace_data_dict s = Ok d.
Proof.
  intros [s' H|x r Hx Hr|x ds f Hx Hd Hf|x ds f d' e Hx Hd Hf Hn He]; unfold fallback_data_dict.
  - unfold systrace_data_dict. now rewrite match_text.
  - unfold systrace_data_dict. now rewrite match_bare.
  - now rewrite (data_dict_caps _ [x] ds (Some f) None) by (auto using match_call).
  - now rewrite (data_dict_caps _ [x] ds (Some f) (Some d')) by (auto using match_value).
Qed.

Lemma split_bar (t : str) : (~ In bar t) \/ exists f r, t = f ++ bar :: r /\ ~ In bar f.
Proof.
  destruct (split_once bar t) as [[f r]|] eqn:E; [apply split_once_Some in E as (-> & H); right; eauto|].
  left. now apply split_once_None.
Qed.
Lemma split_newline (t : str) : exists d e, t = d ++ e /\ ~ In newline d /\ (forall c r, e = c :: r -> c = newline).
Proof.
  destruct (split_once newline t) as [[f r]|] eqn:E.
  - apply split_once_Some in E as (-> & H). exists f, (newline :: r). split; auto. split; auto. intros c r' Hc. congruence.
  - exists t, []. rewrite app_nil_r. split; auto. split; [now apply split_once_None|discriminate].
Qed.
Lemma digits_dec s : {digits s} + {~ digits s}.
Proof.
  destruct s as [|c s]; [right; intros [H _]; congruence|].
  destruct (forallb is_digit (c :: s)) eqn:E; [left|right].
  - split; [discriminate|]. apply Forall_forall. now apply forallb_forall.
  - intros [_ H]. rewrite Forall_forall in H. assert (forallb is_digit (c :: s) = true) by now apply forallb_forall. congruence.
Qed.
Lemma digits_no_bar ds : digits ds -> ~ In bar ds.
Proof. intros [_ H] Hi. rewrite Forall_forall in H. apply H in Hi. discriminate. Qed.
Lemma marker_total s : exists d, Marker s d.
Proof.
  destruct s as [|x r]; [eexists; apply Mk_text; discriminate|].
  destruct (is_upper x) eqn:Ex.
  2:{ eexists. apply Mk_text. intros y r' E. injection E as <- <-. intros H. apply capital_iff in H. congruence. }
  apply capital_iff in Ex.
  assert (Hbare : (forall ds t, r = bar :: ds ++ bar :: t -> ~ digits ds) \/ exists ds t, r = bar :: ds ++ bar :: t /\ digits ds).
  { destruct r as [|c r]; [left; discriminate|]. destruct (ascii_dec c bar) as [->|Hc]; [|left; intros; congruence].
    destruct (split_bar r) as [Hn|(u & v & -> & Hn)].
    - left. intros ds t E. injection E as ->. exfalso. apply Hn. apply in_or_app. right. now left.
    - destruct (digits_dec u) as [Hu|Hu]; [right; eauto|]. left. intros ds t E Hd. injection E as E.
      assert (S1 : split_once bar (u ++ bar :: v) = Some (u, v)) by now apply split_once_Some.
      assert (S2 : split_once bar (u ++ bar :: v) = Some (ds, t)) by (apply split_once_Some; split; [exact E|now apply digits_no_bar]).
      rewrite S1 in S2. injection S2 as -> ->. tauto. }
  destruct Hbare as [Hb|(ds & t & -> & Hd)]; [eexists; now apply Mk_bare|].
  destruct (split_bar t) as [Hn|(f & u & -> & Hf)]; [eexists; now apply Mk_call|].
  destruct (split_newline u) as (d & e & -> & Hd1 & He). eexists. now apply (Mk_value x ds f d e).
Qed.
Lemma marker_iff s d : fallback_data_dict systrace_data_dict s = Ok d <-> Marker s d.
Proof.
  split; [|apply marker_ok]. intros H. destruct (marker_total s) as (d' & Hd). pose proof (marker_ok _ _ Hd) as E. rewrite H in E.
  injection E as ->. exact Hd.
Qed.
Lemma str_of_N_digits' n : digits (str_of_N n).
Proof. split; [apply str_of_N_nonnil|apply str_of_N_digits]. Qed.
Lemma dec_val_str n : dec_val (str_of_N n) = n.
Proof. pose proof (str_of_N_parse n) as H. rewrite (parse_digits_dec _ (str_of_N_digits' n)) in H. congruence. Qed.
Lemma marker_printed x n f d : capital x -> ~ In bar f -> ~ In newline d ->
  fallback_data_dict systrace_data_dict (x :: bar :: str_of_N n ++ bar :: f ++ bar :: d) =
  Ok (cells x (CInt (Z.of_N n)) (CStr f) (CStr d)).
Proof.
  intros Hx Hf Hd. apply marker_ok. rewrite <- (app_nil_r d) at 1. rewrite <- (dec_val_str n) at 2. apply Mk_value; auto.
  - apply str_of_N_digits'.
  - discriminate.
Qed.

(** The number of cpus. *)
Lemma maxz_spec l : forall z, In (maxz z l) (z :: l) /\ forall y, In y (z :: l) -> (y <= maxz z l)%Z.
Proof.
  induction l as [|x l IH]; intros z; cbn [maxz].
  - split; [now left|]. intros y [<-|[]]. lia.
  - destruct (IH (Z.max z x)) as [H1 H2]. split.
    + destruct H1 as [H1|H1]; [|now right; right]. rewrite <- H1. destruct (Z.max_spec z x) as [[_ ->]|[_ ->]]; cbn; auto.
    + intros y Hy. pose proof (H2 (Z.max z x) (or_introl eq_refl)). destruct Hy as [<-|[<-|Hy]]; [lia|lia|]. apply H2. now right.
Qed.
Lemma cpus_spec l n : systrace_cpus (Some l) = Ok (Some n) <-> (exists c, In c l /\ n = (c + 1)%Z) /\ forall c, In c l -> (c < n)%Z.
Proof.
  destruct l as [|z l]; cbn [systrace_cpus].
  - split; [discriminate|]. intros [(c & [] & _) _].
  - destruct (maxz_spec l z) as [H1 H2]. split.
    + intros E. assert (n = 1 + maxz z l)%Z as -> by congruence. split; [exists (maxz z l); split; [exact H1|lia]|]. intros c Hc. specialize (H2 c Hc). lia.
    + intros [(c & Hc & ->) Hm]. specialize (H2 c Hc). specialize (Hm _ H1). assert (c = maxz z l) by lia. subst c. now rewrite Z.add_comm.
Qed.
