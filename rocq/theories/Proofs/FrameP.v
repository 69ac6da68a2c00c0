(** End-to-end facts about create_dataframe (base.py:289-303). *)
From Coq Require Import List Ascii String ZArith NArith Bool Lia.
From Verif Require Import Lib.PyStr Lib.PyStrFacts Lib.F64 Model.Base Spec.Arrays Spec.Payload Spec.Parts
  Proofs.ArraysP Proofs.PayloadP Proofs.ScanP.
Import ListNotations.

Definition set_data (e : event) (d : str) : event :=
  Ev (ev_time e) (ev_comm e) (ev_pid e) (ev_cpu e) (ev_line e) d.

(** groups after explosion *)
Definition part_groups (L : str -> nat) (p : part) : list pgroup :=
  match p with
  | PF g => [g]
  | PA n vs => map (fun i => Grp (n ++ str_of_nat i) (nth i vs $"0") [])
                   (seq 0 (Nat.max (List.length vs) (L n)))
  end.

Lemma part_segs_ok p : part_ok p -> Forall seg_ok (part_segs p) /\ Forall seg_ident (part_segs p).
Proof.
  destruct p as [g|n vs]; cbn [part_ok part_segs].
  - intros (Hg & Hk & Hks & Hvs & Hm & Hb). split; apply Forall_forall; intros s Hs;
      apply in_map_iff in Hs as (w & <- & Hw); [|exact I].
    split.
    + assert (Hns : no_space w).
      { destruct Hw as [<-|Hw].
        - apply Forall_app. split; [auto|constructor; auto].
        - rewrite Forall_forall in Hm. apply Hm in Hw. apply Hw. }
      intros Hi. unfold no_space in Hns. rewrite Forall_forall in Hns. apply Hns in Hi. discriminate.
    + intros Hi. apply Hb. apply in_concat. eauto.
  - intros (H1 & H2 & H3). split; constructor; auto.
Qed.
Lemma parts_segs_ok ps : Forall part_ok ps ->
  Forall seg_ok (flat_map part_segs ps) /\ Forall seg_ident (flat_map part_segs ps).
Proof.
  induction 1 as [|p ps Hp Hps [IH1 IH2]]; [split; constructor|].
  destruct (part_segs_ok p Hp). cbn [flat_map]. split; apply Forall_app; auto.
Qed.
Lemma has_array_segs ps : existsb is_arr (flat_map part_segs ps) = has_array ps.
Proof.
  unfold has_array. induction ps as [|p ps IH]; auto. cbn [flat_map existsb]. rewrite existsb_app, IH.
  f_equal. destruct p as [g|n vs]; auto. cbn [part_segs]. induction (g_words g); auto.
Qed.

Lemma expand_parts L ps :
  flat_map (expand L) (flat_map part_segs ps) = flat_map g_words (flat_map (part_groups L) ps).
Proof.
  induction ps as [|p ps IH]; auto. cbn [flat_map]. rewrite !flat_map_app, IH. f_equal.
  destruct p as [g|n vs]; cbn [part_segs part_groups].
  - cbn [flat_map]. rewrite app_nil_r. induction (g_words g) as [|w ws IHw]; auto. cbn. now rewrite IHw.
  - cbn [flat_map expand]. rewrite app_nil_r. unfold cols. induction (seq 0 _) as [|i l IHl]; auto.
    cbn [map flat_map]. rewrite <- IHl. cbn [g_words g_key g_val g_more app].
    f_equal. now rewrite <- app_assoc.
Qed.
Lemma part_groups_ok L p : part_ok p ->
  Forall (fun g => group_ok g /\ g_key g <> [] /\ Forall word_ok (g_words g)) (part_groups L p).
Proof.
  destruct p as [g|n vs]; cbn [part_ok part_groups].
  - intros (Hg & Hk & Hks & Hvs & Hm & Hb). constructor; [|constructor]. repeat split; auto; try apply Hg.
    constructor; auto. split.
    + destruct (g_key g); discriminate.
    + apply Forall_app. split; [auto|constructor; auto].
  - intros ((H1 & H2 & H3 & H4 & H5 & H6 & H7) & Hid & Hns). apply Forall_forall. intros g Hg.
    apply in_map_iff in Hg as (i & <- & Hi). cbn [g_key g_words g_val g_more].
    assert (D : Forall (fun c => is_digit c = true) (str_of_nat i)) by apply str_of_N_digits.
    assert (Heq : ~ In "="%char (n ++ str_of_nat i)).
    { intros H. apply in_app_or in H as [H|H]; auto. rewrite Forall_forall in D. apply D in H. discriminate. }
    split; [split; [exact Heq|constructor]|]. split; [destruct n; [congruence|discriminate]|].
    constructor; [|constructor]. split; [destruct n; [congruence|discriminate]|].
    apply Forall_app. split.
    + apply Forall_app. split; [|apply str_of_N_nospace].
      eapply Forall_impl; [|exact Hid]. intros c [Hc|[Hc|[Hc| ->]]]; [| | |reflexivity]; revert Hc; ascii_enum c.
    + constructor; [reflexivity|]. destruct (Nat.lt_ge_cases i (List.length vs)) as [L1|L1].
      * assert (Hn : In (nth i vs $"0") vs) by now apply nth_In.
        rewrite Forall_forall in Hns. now apply Hns.
      * rewrite nth_overflow by auto. repeat constructor.
Qed.
Lemma parts_groups_ok L ps : Forall part_ok ps ->
  Forall (fun g => group_ok g /\ g_key g <> [] /\ Forall word_ok (g_words g)) (flat_map (part_groups L) ps).
Proof.
  induction 1; [constructor|]. cbn [flat_map]. apply Forall_app. split; auto. now apply part_groups_ok.
Qed.

Lemma g_cell_spec g : group_ok g -> g_key g <> [] -> Forall word_ok (g_words g) ->
  col_cell (g_val g) (g_more g) (snd (g_cell g)).
Proof.
  intros Hg Hk Hw. assert (Hns : no_space (g_val g)).
  { inversion Hw; subst. match goal with H : word_ok (_ ++ _) |- _ => destruct H as [_ H]; apply Forall_app in H as [_ H];
      now inversion H end. }
  unfold g_cell, col_cell. cbn [snd]. destruct (py_int0 (g_val g)) as [z|] eqn:E.
  - left. exists z. split; auto. now apply py_int0_iff.
  - right. split.
    + intros z Hz. apply py_int0_iff in Hz; auto. congruence.
    + destruct (g_key g); [congruence|reflexivity].
Qed.

Lemma payload_dict L ps : Forall part_ok ps ->
  NoDup (map fst (flat_map (part_cells L) ps)) ->
  exists d, generate_data_dict (join $" " (flat_map (expand L) (flat_map part_segs ps))) = Ok d /\
    Forall2 (fun kv kc => fst kc = fst kv /\ col_cell (fst (snd kv)) (snd (snd kv)) (snd kc))
      (flat_map (part_cells L) ps) d.
Proof.
  intros Hps Hnd. set (gs := flat_map (part_groups L) ps).
  assert (Hgs := parts_groups_ok L ps Hps). fold gs in Hgs.
  assert (EK : flat_map (part_cells L) ps = map (fun g => (g_key g, (g_val g, g_more g))) gs).
  { unfold gs. clear. induction ps as [|p ps IH]; auto. cbn [flat_map]. rewrite map_app, IH. f_equal.
    destruct p; auto. cbn [part_cells part_groups]. now rewrite map_map. }
  exists (map g_cell gs). split.
  - apply gdd_roundtrip.
    + apply Words_iff. rewrite expand_parts. fold gs. apply split_ws_join.
      clear -Hgs. induction gs as [|g gs IH]; [constructor|]. inversion Hgs; subst. cbn [flat_map].
      apply Forall_app. split; [|now apply IH]. match goal with H : _ /\ _ |- _ => apply H end.
    + eapply Forall_impl; [|exact Hgs]. cbv beta. tauto.
    + rewrite EK, map_map in Hnd. exact Hnd.
    + eapply Forall_impl; [|exact Hgs]. cbv beta. tauto.
  - rewrite EK. clear -Hgs. induction gs as [|g gs IH]; [constructor|]. inversion Hgs; subst.
    cbn [map]. constructor; [|now apply IH]. cbn [fst snd]. split; [reflexivity|].
    match goal with H : group_ok _ /\ _ |- _ => destruct H as (? & ? & ?) end. now apply g_cell_spec.
Qed.

(** array explosion of a whole trace *)
Lemma explode_all_first fuel ps pss evs :
  Forall (Forall part_ok) (ps :: pss) ->
  map ev_data evs = map payload (ps :: pss) ->
  (forall q, In q (ps :: pss) -> List.length (filter is_arr (flat_map part_segs q)) < fuel) ->
  explode_all fuel evs =
  Ok (if has_array ps
      then map (fun ep => set_data (fst ep) (join $" " (flat_map (expand (trace_len (ps :: pss)))
                                                          (flat_map part_segs (snd ep)))))
               (combine evs (ps :: pss))
      else evs).
Proof.
  intros Hok Hev Hf. unfold explode_all. rewrite Hev.
  set (lines := map (flat_map part_segs) pss).
  assert (EL : map payload (ps :: pss) = map render (flat_map part_segs ps :: lines)).
  { unfold lines. cbn [map]. rewrite map_map. reflexivity. }
  assert (Hso : Forall (Forall seg_ok) (flat_map part_segs ps :: lines) /\
                Forall (Forall seg_ident) (flat_map part_segs ps :: lines)).
  { change (flat_map part_segs ps :: lines) with (map (flat_map part_segs) (ps :: pss)).
    split; apply Forall_map; (eapply Forall_impl; [|exact Hok]); intros q Hq; now apply parts_segs_ok. }
  destruct Hso as [Hso Hsi].
  assert (F := lengths_first _ _ Hso Hsi).
  assert (M := fun n => lengths_max _ _ n Hso Hsi). rewrite has_array_segs in *. rewrite EL in *.
  set (lens := trace_array_lengths [] (map render (flat_map part_segs ps :: lines))) in *.
  destruct (has_array ps) eqn:Ea.
  2:{ now rewrite F. }
  assert (Hne : lens <> []).
  { rewrite F. apply upd_arr. cbn [List.concat]. rewrite existsb_app, has_array_segs, Ea. reflexivity. }
  clearbody lens. destruct lens as [|x lens]; [congruence|].
  apply mapM_Ok.
  assert (G : forall evs pss', map ev_data evs = map payload pss' ->
     (forall q, In q pss' -> List.length (filter is_arr (flat_map part_segs q)) < fuel) ->
     Forall (Forall part_ok) pss' ->
     Forall2 (fun e y => (do d <- explode_array fuel (default_len (x :: lens)) (ev_data e);;
                          Ok (Ev (ev_time e) (ev_comm e) (ev_pid e) (ev_cpu e) (ev_line e) d)) = Ok y) evs
       (map (fun ep => set_data (fst ep) (join $" " (flat_map (expand (trace_len (ps :: pss)))
                                                          (flat_map part_segs (snd ep)))))
               (combine evs pss'))).
  { clear evs Hev Hok Hf. induction evs as [|e evs IH]; intros [|q pss'] E Hf Hok; try discriminate; [constructor|].
    injection E as E1 E2. inversion Hok; subst. cbn [combine map]. constructor.
    - rewrite E1. unfold payload. rewrite (explode_render _ (trace_len (ps :: pss))); [reflexivity|exact M| |].
      + now apply parts_segs_ok.
      + apply Hf. now left.
    - apply IH; auto. intros q' Hq'. apply Hf. now right. }
  apply G; auto. now rewrite Hev, EL.
Qed.

Lemma Forall2_impl {A B} (P Q : A -> B -> Prop) : (forall a b, P a b -> Q a b) ->
  forall l l', Forall2 P l l' -> Forall2 Q l l'.
Proof. induction 2; auto. Qed.

(** Rows. *)
Lemma frame_rows fuel gdd evs fr : create_dataframe fuel gdd evs = Ok fr ->
  exists evs', explode_all fuel evs = Ok evs' /\
  Forall2 (fun e r => fst r = ev_time e /\ row_dict gdd e = Ok (snd r)) evs' fr.
Proof.
  unfold create_dataframe. destruct (explode_all fuel evs) as [evs'|] eqn:E; [|discriminate].
  cbn [bind]. intros H. exists evs'. split; auto. apply mapM_Ok in H.
  eapply Forall2_impl; [|exact H]. intros e [t d] He. cbv beta in He.
  destruct (row_dict gdd e); [|discriminate]. cbn [bind] in He. injection He as <- <-. auto.
Qed.
Lemma explode_all_len fuel evs evs' : explode_all fuel evs = Ok evs' ->
  Forall2 (fun e e' => exists d, e' = set_data e d /\
     (trace_array_lengths [] (map ev_data evs) = [] -> d = ev_data e) /\
     (trace_array_lengths [] (map ev_data evs) <> [] ->
      explode_array fuel (default_len (trace_array_lengths [] (map ev_data evs))) (ev_data e) = Ok d)) evs evs'.
Proof.
  unfold explode_all. set (lens := trace_array_lengths [] (map ev_data evs)). clearbody lens.
  destruct lens as [|x lens].
  - injection 1 as <-. induction evs as [|e evs IH]; constructor; auto.
    exists (ev_data e). split; [now destruct e|]. split; congruence.
  - intros H. apply mapM_Ok in H. eapply Forall2_impl; [|exact H]. intros e e' He. cbv beta in He.
    destruct (explode_array fuel (default_len (x :: lens)) (ev_data e)) as [d|] eqn:Ed; [|discriminate].
    cbn [bind] in He. injection He as <-. exists d. split; [reflexivity|]. split; congruence.
Qed.

(** ** Statements used by Props/P_Base.v *)
Lemma g_cell_spec' g : group_ok g -> g_key g <> [] -> no_space (g_val g) ->
  col_cell (g_val g) (g_more g) (snd (g_cell g)).
Proof.
  intros Hg Hk Hns. unfold g_cell, col_cell. cbn [snd]. destruct (py_int0 (g_val g)) as [z|] eqn:E.
  - left. exists z. split; auto. now apply py_int0_iff.
  - right. split.
    + intros z Hz. apply py_int0_iff in Hz; auto. congruence.
    + destruct (g_key g); [congruence|reflexivity].
Qed.
Lemma Words_word_ok s ws : Words s ws -> Forall word_ok ws.
Proof. induction 1; auto. Qed.
Lemma g_words_val g : Forall word_ok (g_words g) -> no_space (g_val g).
Proof.
  intros Hw. inversion Hw; subst.
  match goal with H : word_ok (_ ++ _) |- _ => destruct H as [_ H]; apply Forall_app in H as [_ H]; now inversion H end.
Qed.
Lemma flat_words_val gs : Forall word_ok (flat_map g_words gs) -> Forall (fun g => no_space (g_val g)) gs.
Proof.
  induction gs as [|g gs IH]; [constructor|]. cbn [flat_map]. intros H. apply Forall_app in H as [H1 H2].
  constructor; auto. now apply g_words_val.
Qed.
Lemma gdd_round_trip_spec s gs :
  Words s (flat_map g_words gs) ->
  Forall group_ok gs -> NoDup (map g_key gs) -> Forall (fun g => g_key g <> []) gs ->
  exists d, generate_data_dict s = Ok d /\
    Forall2 (fun g kc => fst kc = g_key g /\ col_cell (g_val g) (g_more g) (snd kc)) gs d.
Proof.
  intros Hw Hg Hnd Hk. exists (map g_cell gs). split; [now apply gdd_roundtrip|].
  assert (Hv := flat_words_val gs (Words_word_ok _ _ Hw)). clear Hw Hnd.
  induction gs as [|g gs IH]; [constructor|]. inversion Hg; inversion Hk; inversion Hv; subst.
  cbn [map]. constructor; auto. split; [reflexivity|]. now apply g_cell_spec'.
Qed.
Lemma render_words gs : Forall (fun g => Forall word_ok (g_words g)) gs ->
  Words (join $" " (flat_map g_words gs)) (flat_map g_words gs).
Proof.
  intros H. apply Words_iff. apply split_ws_join. induction H; [constructor|]. cbn [flat_map].
  apply Forall_app. auto.
Qed.
Lemma payload_decompose s : exists pre gs,
  Words s (pre ++ flat_map g_words gs) /\
  Forall (fun w => ~ In "="%char w) pre /\ Forall group_ok gs.
Proof.
  destruct (words_decompose (split_ws s)) as (pre & gs & E & Hp & Hg). exists pre, gs.
  repeat split; auto. apply Words_iff. auto.
Qed.
Lemma gdd_error_iff s pre gs :
  Words s (pre ++ flat_map g_words gs) ->
  Forall (fun w => ~ In "="%char w) pre -> Forall group_ok gs ->
  ((exists e, generate_data_dict s = Err e) <->
   (~ (exists a b, s = a ++ $"FAILED TO PARSE" ++ b) /\
    (pre <> [] \/ exists g, In g gs /\ g_key g = [] /\ g_more g <> []))) /\
  (forall e, generate_data_dict s = Err e -> e = EParse).
Proof.
  intros Hw Hp Hg.
  assert (Ex : (exists g, In g gs /\ g_key g = [] /\ g_more g <> []) <-> Exists bad_group gs).
  { rewrite Exists_exists. reflexivity. }
  assert (Hc : contains $"FAILED TO PARSE" s = false <-> ~ (exists a b, s = a ++ $"FAILED TO PARSE" ++ b)).
  { rewrite <- (contains_spec $"FAILED TO PARSE" s). destruct (contains _ s); split; congruence || tauto. }
  destruct (contains $"FAILED TO PARSE" s) eqn:Ef.
  - rewrite (gdd_ok s pre gs); auto. split; [|discriminate].
    split; [intros [e H]; discriminate|]. intros [H _]. apply Hc in H. discriminate.
  - destruct pre as [|p pre].
    + destruct (Exists_dec bad_group gs) as [D|D].
      { intros g. unfold bad_group. destruct (g_key g); [|right; intros []; discriminate].
        destruct (g_more g); [right; intros []; congruence|left; split; [auto|discriminate]]. }
      * rewrite (gdd_err s [] gs); auto. split; [|congruence].
        split; [|eauto]. intros _. split; [now apply Hc|]. right. now apply Ex.
      * rewrite (gdd_ok s [] gs); auto.
        2:{ right. split; auto. now apply Forall_Exists_neg. }
        split; [|discriminate]. split; [intros [e H]; discriminate|].
        intros [_ [H|H]]; [congruence|]. apply Ex in H. contradiction.
    + rewrite (gdd_err s (p :: pre) gs); auto; [|left; discriminate]. split; [|congruence].
      split; [|eauto]. intros _. split; [now apply Hc|]. left. discriminate.
Qed.

Lemma gdd_ok_keys s pre gs d :
  Words s (pre ++ flat_map g_words gs) ->
  Forall (fun w => ~ In "="%char w) pre -> Forall group_ok gs ->
  generate_data_dict s = Ok d ->
  NoDup (map fst d) /\
  (forall k, (exists c, dlookup k d = Some c) <-> exists g, In g gs /\ g_key g = k) /\
  (forall g1 g g2, gs = g1 ++ g :: g2 -> g_key g <> [] -> (forall g', In g' g2 -> g_key g' <> g_key g) ->
     exists c, dlookup (g_key g) d = Some c /\ col_cell (g_val g) (g_more g) c).
Proof.
  intros Hw Hp Hg Hd. split; [now apply gdd_NoDup in Hd|].
  assert (E : d = dupdate eqs [] (map g_cell gs)).
  { assert (H : generate_data_dict s = Ok (dupdate eqs [] (map g_cell gs))).
    { apply (gdd_ok s pre gs); auto.
      destruct (contains $"FAILED TO PARSE" s) eqn:Ef; [now left|]. right.
      assert (K := gdd_err s pre gs Hw Hp Hg Ef).
      destruct pre; [|rewrite K in Hd by (left; discriminate); discriminate]. split; auto.
      apply Forall_Exists_neg. intros Hx. rewrite K in Hd by auto. discriminate. }
    congruence. }
  assert (L : forall k, dlookup k d = dget eqs k (rev (map g_cell gs))).
  { intros k. rewrite E. unfold dlookup. rewrite (dget_dupdate eqs eqs_eq).
    now destruct (dget eqs k (rev (map g_cell gs))). }
  split.
  - intros k. rewrite L. split.
    + intros [c Hc]. apply (dget_In eqs eqs_eq) in Hc. rewrite <- in_rev in Hc.
      apply in_map_iff in Hc as (g & Eg & Hi). exists g. split; auto. unfold g_cell in Eg. congruence.
    + intros (g & Hi & <-). destruct (dget eqs (g_key g) (rev (map g_cell gs))) as [c|] eqn:Eg; [eauto|].
      apply (dget_None eqs eqs_eq) in Eg. exfalso. apply Eg. rewrite map_rev, <- in_rev, map_map.
      apply in_map_iff. exists g. auto.
  - intros g1 g g2 -> Hk Hlast. rewrite L. rewrite map_app. cbn [map].
    rewrite rev_app_distr. cbn [rev]. rewrite !dget_app.
    assert (N : dget eqs (g_key g) (rev (map g_cell g2)) = None).
    { apply (dget_None eqs eqs_eq). rewrite map_rev, <- in_rev, map_map. intros Hi.
      apply in_map_iff in Hi as (g' & Eg & Hi). now apply Hlast in Hi. }
    rewrite N. cbn [dget]. unfold g_cell at 1. rewrite eqs_refl.
    exists (snd (g_cell g)). split; [reflexivity|].
    assert (Hv := Words_word_ok _ _ Hw). apply Forall_app in Hv as [_ Hv]. apply flat_words_val in Hv.
    rewrite Forall_forall in Hv, Hg. apply g_cell_spec'; auto; [apply Hg|apply Hv]; apply in_or_app; right; now left.
Qed.

Lemma gdd_int_tail k n ws : word_ok k -> ~ In "="%char k -> Forall word_ok ws ->
  Forall (fun w => ~ In "="%char w) ws ->
  generate_data_dict (join $" " ((k ++ $"=" ++ str_of_Z n) :: ws)) = Ok [(k, CInt n)].
Proof.
  intros [Hk1 Hk2] He Hw Hws.
  assert (W : word_ok (k ++ $"=" ++ str_of_Z n)).
  { split; [destruct k; [congruence|discriminate]|]. apply Forall_app. split; auto.
    constructor; [reflexivity|]. apply str_of_Z_word. }
  rewrite (gdd_roundtrip _ [Grp k (str_of_Z n) ws]).
  - cbn [map]. unfold g_cell. cbn [g_key g_val]. now rewrite py_int0_dec.
  - apply Words_iff. cbn [flat_map]. rewrite app_nil_r. unfold g_words. cbn [g_key g_val g_more].
    apply split_ws_join. constructor; auto.
  - constructor; [split; auto|constructor].
  - constructor; [intros []|constructor].
  - constructor; [exact Hk1|constructor].
Qed.

Lemma cast_dec z : string_cast_int (str_of_Z z) = CInt z.
Proof. unfold string_cast_int. now rewrite py_int0_dec. Qed.
Lemma fmt_no_space b n : (2 <= b)%N -> (b <= 36)%N -> no_space (fmt_base b n).
Proof. intros. eapply digs_chars. now apply fmt_digs. Qed.
Lemma cast_prefixed n :
  string_cast_int ($"0x" ++ fmt_base 16 n) = CInt (Z.of_N n) /\
  string_cast_int ($"0o" ++ fmt_base 8 n) = CInt (Z.of_N n) /\
  string_cast_int ($"0b" ++ fmt_base 2 n) = CInt (Z.of_N n).
Proof.
  split; [|split]; apply cast_int_iff;
    try (constructor; [reflexivity|constructor; [reflexivity|apply fmt_no_space; lia]]);
    apply il_plain.
  - apply (ulit_hex "x"%char []); auto. apply fmt_digs; lia.
  - apply (ulit_oct "o"%char []); auto. apply fmt_digs; lia.
  - apply (ulit_bin "b"%char []); auto. apply fmt_digs; lia.
Qed.
Lemma cast_zeros k : string_cast_int (repeat "0"%char (S k)) = CInt 0.
Proof.
  apply cast_int_iff.
  - apply Forall_forall. intros c Hc. apply repeat_spec in Hc as ->. reflexivity.
  - apply (il_plain _ 0%N). apply ulit_zero. apply digs_zeros.
Qed.
Lemma literal_unique s z z' : no_space s -> int_literal s z -> int_literal s z' -> z = z'.
Proof. intros Hs H1 H2. apply py_int0_iff in H1, H2; auto. congruence. Qed.

Lemma explode_all_array fuel ps pss evs :
  Forall (Forall part_ok) (ps :: pss) ->
  map ev_data evs = map payload (ps :: pss) ->
  (forall q, In q (ps :: pss) -> (List.length (filter is_arr (flat_map part_segs q)) < fuel)%nat) ->
  has_array ps = true ->
  explode_all fuel evs =
  Ok (map (fun ep => set_data (fst ep)
             (join $" " (flat_map (expand (trace_len (ps :: pss))) (flat_map part_segs (snd ep)))))
          (combine evs (ps :: pss))).
Proof. intros H1 H2 H3 H4. rewrite (explode_all_first fuel ps pss); auto. now rewrite H4. Qed.
Lemma explode_all_noarray fuel ps pss evs :
  Forall (Forall part_ok) (ps :: pss) ->
  map ev_data evs = map payload (ps :: pss) ->
  has_array ps = false ->
  explode_all fuel evs = Ok evs.
Proof.
  intros Hok Hev Ha. unfold explode_all. rewrite Hev.
  assert (EL : map payload (ps :: pss) = map render (map (flat_map part_segs) (ps :: pss))).
  { rewrite map_map. reflexivity. }
  rewrite EL. cbn [map]. change (render (flat_map part_segs ps) :: map render (map (flat_map part_segs) pss))
    with (map render (flat_map part_segs ps :: map (flat_map part_segs) pss)).
  rewrite lengths_first, has_array_segs, Ha; auto.
  - change (Forall (Forall seg_ok) (map (flat_map part_segs) (ps :: pss))).
    apply Forall_map. eapply Forall_impl; [|exact Hok]. intros q Hq. now apply parts_segs_ok.
  - change (Forall (Forall seg_ident) (map (flat_map part_segs) (ps :: pss))).
    apply Forall_map. eapply Forall_impl; [|exact Hok]. intros q Hq. now apply parts_segs_ok.
Qed.
(** boolean checkers used only for concrete examples *)
Definition seg_okb (g : seg) : bool :=
  match g with
  | SText w => negb (has_char " " w) && negb (has_char "{" w)
  | SArr n vs =>
      negb (match n with [] => true | _ => false end) && negb (has_char " " n) && negb (has_char "=" n) &&
      negb (has_char "{" n) && negb (match vs with [] => true | _ => false end) &&
      negb (match join $" " vs with [] => true | _ => false end) &&
      forallb (fun v => negb (has_char " " v) && negb (has_char "{" v) && negb (has_char "}" v) &&
                        negb (has_char nl v)) vs
  end.
Lemma has_char_false c s : negb (has_char c s) = true -> ~ In c s.
Proof. rewrite negb_true_iff. intros H Hi. apply has_char_In in Hi. congruence. Qed.
Lemma seg_okb_ok g : seg_okb g = true -> seg_ok g.
Proof.
  destruct g as [w|n vs]; cbn [seg_okb seg_ok]; rewrite ?andb_true_iff; intros H.
  - split; apply has_char_false; apply H.
  - decompose [and] H. repeat split; try (apply has_char_false; assumption);
      try (destruct n; discriminate); try (destruct vs; discriminate);
      try (destruct (join $" " vs); discriminate).
    match goal with H : forallb _ vs = true |- _ => rewrite forallb_forall in H; rename H into F end.
    apply Forall_forall. intros v Hv. apply F in Hv. rewrite !andb_true_iff in Hv.
    decompose [and] Hv. repeat split; apply has_char_false; assumption.
Qed.
Lemma segs_okb_ok l : forallb seg_okb l = true -> Forall seg_ok l.
Proof. intros H. apply Forall_forall. intros g Hg. apply seg_okb_ok. rewrite forallb_forall in H. auto. Qed.
Definition seg_identb (g : seg) : bool :=
  match g with SText _ => true | SArr n _ => forallb is_ident n end.
Lemma segs_identb_ok l : forallb seg_identb l = true -> Forall seg_ident l.
Proof.
  intros H. apply Forall_forall. intros g Hg. rewrite forallb_forall in H. apply H in Hg.
  destruct g as [w|n vs]; [exact I|]. cbn in *. rewrite forallb_forall in Hg.
  apply Forall_forall. intros c Hc. apply is_ident_iff. auto.
Qed.
Lemma lengths_refuted : exists l lines,
  Forall (Forall seg_ok) (l :: lines) /\ Forall (Forall seg_ident) (l :: lines) /\
  max_len $"l" (l :: lines) = 2%nat /\
  default_len (trace_array_lengths [] (map render (l :: lines))) $"l" = Some 0%nat.
Proof.
  exists [SText $"x=1"], [[SArr $"l" [$"1"; $"2"]]]. split; [|split; [|vm_compute; auto]].
  - constructor; [|constructor; [|constructor]]; apply segs_okb_ok; vm_compute; reflexivity.
  - constructor; [|constructor; [|constructor]]; apply segs_identb_ok; vm_compute; reflexivity.
Qed.

Lemma frame_rows_spec fuel evs fr :
  create_dataframe fuel generate_data_dict evs = Ok fr ->
  List.length fr = List.length evs /\ map fst fr = map ev_time evs /\
  Forall2 (fun e r => exists data d,
      generate_data_dict data = Ok d /\
      (trace_array_lengths [] (map ev_data evs) = [] -> data = ev_data e) /\
      (trace_array_lengths [] (map ev_data evs) <> [] ->
       explode_array fuel (default_len (trace_array_lengths [] (map ev_data evs))) (ev_data e) = Ok data) /\
      forall k, dlookup k (snd r) = match dlookup k d with Some c => Some c | None => meta_cell e k end)
    evs fr.
Proof.
  intros H. apply frame_rows in H as (evs' & He & Hr). apply explode_all_len in He.
  revert He. generalize (trace_array_lengths [] (map ev_data evs)) as lens. intros lens He.
  revert fr Hr. induction He as [|e e' evs evs' (d & -> & H1 & H2) He IH]; intros fr Hr; inversion Hr; subst.
  - repeat split; constructor.
  - match goal with H : _ /\ _ |- _ => destruct H as [Ht Hd] end.
    destruct (IH _ ltac:(eassumption)) as (I1 & I2 & I3). cbn [List.length map].
    split; [congruence|]. split; [f_equal; auto|]. constructor; auto.
    destruct (generate_data_dict d) as [dd|] eqn:Ed.
    2:{ unfold row_dict in Hd. cbn [ev_data set_data] in Hd. rewrite Ed in Hd. discriminate. }
    exists d, dd. repeat split; auto. intros k.
    rewrite (row_dict_lookup generate_data_dict (set_data e d) dd (snd y)); auto.
    now apply gdd_NoDup in Ed.
Qed.
Lemma frame_total fuel evs :
  trace_array_lengths [] (map ev_data evs) = [] ->
  Forall (fun e => exists d, generate_data_dict (ev_data e) = Ok d) evs ->
  exists fr, create_dataframe fuel generate_data_dict evs = Ok fr.
Proof.
  intros Hl H. unfold create_dataframe, explode_all. rewrite Hl. cbn [bind].
  induction H as [|e evs [d Hd] H IH]; [eexists; reflexivity|].
  cbn [mapM]. unfold row_dict at 1. rewrite Hd. cbn [bind].
  assert (IH' : exists fr, mapM (fun e0 => do d0 <- row_dict generate_data_dict e0;; Ok (ev_time e0, d0)) evs = Ok fr).
  { clear -H. induction H as [|e evs [d Hd] H IH]; [eexists; reflexivity|].
    destruct IH as [fr E]. cbn [mapM]. unfold row_dict at 1. rewrite Hd. cbn [bind]. rewrite E. eexists. reflexivity. }
  destruct IH' as [fr E]. rewrite E. eexists. reflexivity.
Qed.
Lemma meta_refuted : exists e fr,
  create_dataframe 1 generate_data_dict [e] = Ok fr /\
  ev_pid e = 7%Z /\ map (fun r => dlookup $"__pid" (snd r)) fr = [Some (CInt 99)].
Proof. exists (Ev fzero $"c" 7 0 0 $"__pid=99"). eexists. split; [vm_compute; reflexivity|]. split; reflexivity. Qed.
