From Coq Require Import List Ascii String ZArith NArith Bool Sorted Lia.
From Verif Require Import Lib.PyStr Lib.PyStrFacts Lib.TotalOrder Model.Power Spec.Power Proofs.PivotP Proofs.LoadP Proofs.PowerP
  Model.AllFreqs Spec.AllFreqs Proofs.AllFreqsP Model.Temperature Model.Loads Spec.Loads.
Import ListNotations.
Local Open Scope list_scope.

Section Join.
  Context {T V : Type} (leb : T -> T -> bool).
  Hypothesis TOT : total_order leb.
  Notation lt := (lt leb). Notation le := (fun x y => leb x y = true).
  Notation series := (list (T * option V)).

  Lemma pad_series (s : series) idx : StronglySorted lt (map fst s) -> StronglySorted lt idx -> incl (map fst s) idx ->
    Forall2 (fun t c => CellOf le (one_key s) tt t c) idx (pad None (map (at_time leb s) idx)).
  Proof.
    intros Hss Hs Hin. replace (at_time leb s) with (at_time leb (select ueq (one_key s) tt)) by now rewrite select_one.
    apply (pad_known leb ueq TOT ueq_eq (one_key s) tt (one_key_sorted leb TOT s Hss) idx (fun _ => False)); auto; try easy.
    intros t v Hv. right. apply Hin. apply (proj1 (one_key_In s t v)) in Hv. apply (in_map fst) in Hv. exact Hv.
  Qed.
  Lemma at_time_id (s : series) : StronglySorted lt (map fst s) -> map (at_time leb s) (map fst s) = map snd s.
  Proof.
    intros Hs. rewrite map_map. apply map_ext_in. intros [t v] H. cbn. apply (at_time_In leb TOT); auto. eapply sorted_nodup; eauto.
  Qed.
  Lemma combine_snd (idx : list T) (col : list (option V)) : List.length col = List.length idx -> map snd (combine idx col) = col.
  Proof. revert col. induction idx as [|t idx IH]; intros [|c col] H; cbn in *; try discriminate; auto. f_equal. auto. Qed.
  Lemma pad_cells {K} (rows : list (T * K * option V)) k idx0 col0 idx : StronglySorted lt idx0 -> StronglySorted lt idx -> incl idx0 idx ->
    (forall t v, In (t, k, v) rows -> In t idx0) -> Forall2 (fun t c => CellOf le rows k t c) idx0 col0 ->
    Forall2 (fun t c => CellOf le rows k t c) idx (pad None (map (at_time leb (combine idx0 col0)) idx)).
  Proof.
    intros S0 S Hin Hr H0. pose proof (eq_sym (Forall2_length _ _ _ H0)) as Hl.
    assert (Hf : map fst (combine idx0 col0) = idx0) by now apply combine_fst.
    apply (Forall2_impl (fun t c => CellOf le (one_key (combine idx0 col0)) tt t c)).
    - intros t c Hc. eapply (cell_compose leb TOT rows k idx0 col0); eauto.
    - apply pad_series; auto; now rewrite Hf.
  Qed.

  Lemma join_ok {K} (Of : K -> list (T * K * option V) -> Prop) (label : K -> option str) cols (times : T -> Prop) idx0 tab0 l (s : option series) :
    StronglySorted lt idx0 -> (forall t, In t idx0 <-> times t) -> map (fun lc => Some (fst lc)) tab0 = map label cols ->
    (forall k l col rows, In (l, col) tab0 -> label k = Some l -> In k cols -> Of k rows -> Forall2 (fun t c => CellOf le rows k t c) idx0 col) ->
    (forall k rows t v, In k cols -> Of k rows -> In (t, k, v) rows -> times t) ->
    (forall s', s = Some s' -> StronglySorted lt (map fst s')) ->
    exists j, concat_opt leb true (idx0, tab0) l s = Ok j /\ Joined leb times Of label cols (option_map (pair l) s) (filled j).
  Proof.
    intros S0 Hi Hm Hc Hr Hs.
    assert (G : exists idx, StronglySorted lt idx /\
      (forall t, In t idx <-> times t \/ match option_map (pair l) s with Some (_, s') => In t (map fst s') | None => False end) /\
      exists ctab gcol, concat_opt leb true (idx0, tab0) l s = Ok (idx, ctab ++ match s with Some _ => [(l, gcol)] | None => [] end) /\
        map fst ctab = map fst tab0 /\
        (forall l col, In (l, col) ctab -> exists col0, In (l, col0) tab0 /\
           (List.length col0 = List.length idx0 -> col = map (at_time leb (combine idx0 col0)) idx)) /\
        (forall s', s = Some s' -> gcol = map (at_time leb s') idx)).
    { assert (Self : forall l col, In (l, col) tab0 -> exists col0, In (l, col0) tab0 /\
        (List.length col0 = List.length idx0 -> col = map (at_time leb (combine idx0 col0)) idx0)).
      { intros l1 col H. exists col. split; auto. intros Hl.
        transitivity (map (at_time leb (combine idx0 col)) (map fst (combine idx0 col))); [|now rewrite combine_fst].
        rewrite at_time_id; [now rewrite combine_snd|]. now rewrite combine_fst. }
      destruct s as [s|]; cbn [concat_opt option_map].
      - specialize (Hs s eq_refl). unfold concat1. destruct (eq_list leb (map fst s) idx0) eqn:E.
        + apply eq_list_eq in E; auto. exists idx0. split; auto. split; [intros t; rewrite Hi, E, <- Hi; tauto|].
          exists tab0, (map snd s). split; [reflexivity|]. split; auto. split; auto. intros s' [= <-]. rewrite <- E. now rewrite at_time_id.
        + replace (nodup_b leb idx0 && nodup_b leb (map fst s)) with true.
          2:{ symmetry. apply andb_true_iff. split; apply nodup_b_spec; auto; eapply sorted_nodup; eauto. }
          cbn [union]. exists (sort_u leb (idx0 ++ map fst s)). split; [now apply sort_u_sorted|].
          split; [intros t; rewrite sort_u_In, in_app_iff, Hi by auto; tauto|].
          eexists _, _. split; [reflexivity|]. split; [now rewrite map_map|]. split; [|now intros s' [= <-]].
          intros l1 col H. apply in_map_iff in H as ([l2 col0] & [= <- <-] & H). exists col0. auto.
      - exists idx0. split; auto. split; [intros t; rewrite Hi; tauto|]. exists tab0, []. rewrite app_nil_r.
        split; [reflexivity|]. split; auto. split; auto. discriminate. }
    destruct G as (idx & S & Hidx & ctab & gcol & E & Hf & Hcol & Hg). eexists. split; [exact E|].
    unfold filled, Joined. cbn [fst snd]. rewrite map_app. split; auto. split; auto.
    assert (Hin0 : incl idx0 idx) by (intros t Ht; apply Hidx; left; now apply Hi).
    eexists _, _. split; [reflexivity|]. split; [|split].
    - rewrite map_map. cbn [fst]. rewrite <- Hm. transitivity (map Some (map fst ctab)); [now rewrite map_map|]. rewrite Hf. now rewrite map_map.
    - intros k l1 col rows H Hl Hk HO. apply in_map_iff in H as ([l2 col1] & [= <- <-] & H). cbn [snd fst].
      apply Hcol in H as (col0 & H0 & Hlen). specialize (Hc k l2 col0 rows H0 Hl Hk HO).
      rewrite Hlen by (symmetry; eapply Forall2_length; exact Hc). apply pad_cells; auto. intros t v Hv. apply Hi. eapply Hr; eauto.
    - destruct s as [s|]; cbn [option_map map]; [|reflexivity]. eexists. split; [reflexivity|]. cbn [snd]. rewrite (Hg s eq_refl).
      apply pad_series; auto. intros t Ht. apply Hidx. right. exact Ht.
  Qed.
  Lemma join_repeat sorted idx0 tab0 l (s : series) : map fst s <> idx0 -> ~ NoDup (map fst s) -> concat1 leb sorted (idx0, tab0) l s = Err EValue.
  Proof.
    intros Hne Hd. unfold concat1. destruct (eq_list leb (map fst s) idx0) eqn:E; [apply eq_list_eq in E; auto; congruence|].
    destruct (nodup_b leb (map fst s)) eqn:E1; [apply nodup_b_spec in E1; auto; tauto|]. now rewrite andb_false_r.
  Qed.
End Join.

Section Loads.
  Context {T F : Type} (leb : T -> T -> bool) (div : Z -> Z -> F) (of_int : Z -> F).
  Hypothesis TOT : total_order leb.
  Notation lt := (lt leb). Notation le := (fun x y => leb x y = true).

  Lemma times_rows {V} (f : @irow T -> V) rows t : time_in (map (fun r => (i_time r, i_cpus r, f r)) rows) t <-> exists r, In r rows /\ i_time r = t.
  Proof.
    split.
    - intros (k & v & H). apply in_map_iff in H as (r & [= <- _ _] & H). eauto.
    - intros (r & H & <-). exists (i_cpus r), (f r). apply in_map_iff. eauto.
  Qed.
  Theorem plot_load_ok cols (label : str -> option str) (rows : list (@irow T)) gpu title :
    rows <> [] -> (forall r, In r rows -> load_values (i_cols r) <> []) ->
    irows_by_time leb rows -> keys_of cols (map key_row rows) -> (forall k, In k cols -> label k <> None) ->
    (forall k k', In k cols -> In k' cols -> label k = label k' -> k = k') ->
    (forall g, gpu = Some g -> StronglySorted lt (map fst g)) ->
    exists f, plot_load leb true cols label rows gpu title = Ok (normalize_title $"Utilization" title, f) /\
      Joined leb (time_in (load_rows rows)) (fun _ rs => rs = load_rows rows) label cols (option_map (pair $"GPU") gpu) f.
  Proof.
    intros H1 H2 H3 H4 H5 H6 H7.
    destruct (load_table leb eqs TOT eqs_eq cols label rows) as (idx & tab & E & S & Hi & Hm & Hc); auto.
    destruct (join_ok leb TOT (fun _ rs => rs = load_rows rows) label cols (time_in (load_rows rows)) idx tab $"GPU" gpu) as (j & Ej & Hj); auto.
    - intros k l col rs Hl Hk Hik ->. eapply Hc; eauto.
    - intros k rs t v _ -> H. exists k, v. exact H.
    - exists (filled j). split; auto. unfold plot_load. rewrite E. cbn [bind]. rewrite Ej. reflexivity.
  Qed.

  Lemma gpu_load_ok (g : list (T * Z * option Z)) m : is_max m (map (fun r => snd (fst r)) g) ->
    gpu_load div g = Ok (map (fun r => (fst (fst r), option_map (fun l => div (l * snd (fst r)) m) (snd r))) g).
  Proof.
    intros H. unfold gpu_load. destruct (map (fun r => snd (fst r)) g) as [|f fs] eqn:E; [destruct H as [[] _]|].
    pose proof (max_list_spec fs f) as Hx. now rewrite (is_max_unique _ _ _ Hx H).
  Qed.
  Lemma is_max_ex l : l <> [] -> exists m, is_max m l.
  Proof. destruct l as [|x l]; [congruence|]. intros _. exists (max_list x l). apply max_list_spec. Qed.
  Theorem plot_norm_ok cols (mapping : list (str * str)) (rows : list (@irow T)) gpu title :
    rows <> [] -> (forall r, In r rows -> load_values (i_cols r) <> []) ->
    irows_by_time leb rows -> keys_of cols (map key_row rows) ->
    (forall m, In m (map fst mapping) -> valid_mask m /\ In m cols) -> (forall k, In k cols -> In k (map fst mapping)) ->
    (forall k k', In k cols -> In k' cols -> dget eqs k mapping = dget eqs k' mapping -> k = k') ->
    (forall g, gpu = Some g -> g <> [] /\ StronglySorted lt (map (fun r => fst (fst r)) g)) ->
    exists f, plot_normalized_load leb div of_int true cols mapping rows gpu title = Ok (normalize_title $"Normalized Utilization" title, f) /\
      exists extra, Joined leb (fun t => exists r, In r rows /\ i_time r = t) (norm_rows div rows) (fun k => dget eqs k mapping) cols extra f /\
        match gpu with
        | None => extra = None
        | Some g => exists m, is_max m (map (fun r => snd (fst r)) g) /\
            extra = Some ($"GPU", map (fun r => (fst (fst r), option_map (fun l => div (l * snd (fst r)) m) (snd r))) g)
        end.
  Proof.
    intros H1 H2 H3 H4 H5 H6 H7 H8.
    destruct (norm_table leb eqs TOT eqs_eq div of_int cols mapping rows) as (idx & tab & E & S & Hi & Hm & Hc); auto.
    set (g' := match gpu with Some g => match gpu_load div g with Ok s => Some s | Err _ => None end | None => None end).
    assert (Hg : match gpu with
        | None => g' = None
        | Some g => exists m, is_max m (map (fun r => snd (fst r)) g) /\ gpu_load div g =
            Ok (map (fun r => (fst (fst r), option_map (fun l => div (l * snd (fst r)) m) (snd r))) g) /\
            g' = Some (map (fun r => (fst (fst r), option_map (fun l => div (l * snd (fst r)) m) (snd r))) g)
        end).
    { subst g'. destruct gpu as [g|]; auto. destruct (H8 g eq_refl) as [Hne _].
      destruct (is_max_ex (map (fun r => snd (fst r)) g)) as [m Hx]; [destruct g; cbn; congruence|]. exists m. split; auto.
      rewrite (gpu_load_ok g m Hx). auto. }
    destruct (join_ok leb TOT (norm_rows div rows) (fun k => dget eqs k mapping) cols (fun t => exists r, In r rows /\ i_time r = t) idx tab $"GPU" g') as (j & Ej & Hj); auto.
    - intros k l col rs Hl Hk Hik (bits & m & Hb & Hx & ->). exact (Hc k l col bits m Hl Hk Hik Hb Hx).
    - intros k rs t v _ (bits & m & Hb & Hx & ->) H. apply in_map_iff in H as (r & [= <- _ _] & H). eauto.
    - intros s' Es. destruct gpu as [g|]; [|congruence]. destruct Hg as (m & _ & _ & Hg). rewrite Es in Hg. injection Hg as ->.
      rewrite map_map. cbn [fst]. apply (H8 g eq_refl).
    - exists (filled j). split.
      + unfold plot_normalized_load. rewrite E. cbn [bind]. destruct gpu as [g|].
        * destruct Hg as (m & _ & Eg & Hg). rewrite Eg. cbn [bind]. rewrite <- Hg. rewrite Ej. reflexivity.
        * cbn [bind]. rewrite <- Hg, Ej. reflexivity.
      + eexists. split; [exact Hj|]. destruct gpu as [g|].
        * destruct Hg as (m & Hx & _ & Hg). exists m. split; auto. now rewrite Hg.
        * now rewrite Hg.
  Qed.

  Context {A : Type} (fleb : F -> F -> bool) (mean std : list (option F) -> str).
  Hypothesis FTOT : total_order fleb.
  Lemma top_spec l : forall m, match top fleb m l with
    | Some x => (m = Some x \/ In (Some x) l) /\ (forall y, m = Some y \/ In (Some y) l -> fleb y x = true)
    | None => m = None /\ forall y, ~ In (Some y) l
    end.
  Proof.
    induction l as [|[v|] l IH]; intros m; cbn [top].
    - destruct m; [|auto]. split; auto. intros y [[= <-]|[]]. now apply le_refl.
    - destruct m as [w|].
      + destruct (fleb w v) eqn:E.
        * specialize (IH (Some v)). destruct (top fleb (Some v) l) as [x|]; [|destruct IH; discriminate]. destruct IH as [I1 I2]. split.
          -- right. destruct I1 as [[= ->]|I1]; cbn; auto.
          -- intros y [[= <-]|[[= <-]|H]]; auto. apply (to_trans _ FTOT) with v; auto.
        * specialize (IH (Some w)). destruct (top fleb (Some w) l) as [x|]; [|destruct IH; discriminate]. destruct IH as [I1 I2]. split.
          -- destruct I1 as [I1|I1]; cbn; auto.
          -- intros y [[= <-]|[[= <-]|H]]; auto. apply (to_trans _ FTOT) with w; auto. destruct (to_total _ FTOT w v); congruence.
      + specialize (IH (Some v)). destruct (top fleb (Some v) l) as [x|]; [|destruct IH; discriminate]. destruct IH as [I1 I2]. split.
        * right. destruct I1 as [[= ->]|I1]; cbn; auto.
        * intros y [|[[= <-]|H]]; auto. discriminate.
    - specialize (IH m). destruct (top fleb m l) as [x|].
      + destruct IH as [I1 I2]. split; [destruct I1; cbn; auto|]. intros y [H|[H|H]]; auto. discriminate.
      + destruct IH as [I1 I2]. split; auto. intros y [H|H]; [discriminate|]. now apply (I2 y).
  Qed.
  Lemma top_greatest l : greatest fleb l (top fleb None l).
  Proof.
    pose proof (top_spec l None) as H. destruct (top fleb None l) as [x|]; cbn.
    - destruct H as [[|H1] H2]; [discriminate|]. split; auto.
    - apply H.
  Qed.
  Lemma cpu_join cols m (rows : list (T * str * option Z)) (g : option (list (T * option Z))) : good_rows leb cols m rows -> rows <> [] ->
    (forall k k', In k cols -> In k' cols -> dget eqs k m = dget eqs k' m -> k = k') ->
    (forall s, g = Some s -> StronglySorted lt (map fst s)) ->
    exists c j, cpu_freqs leb div cols (fun k => dget eqs k m) rows = Ok c /\ concat_opt leb true c $"freq" (option_map (gpu_freqs div) g) = Ok j /\
      Joined leb (time_in rows) (fun _ rs => rs = scaled div 1000 rows) (fun k => dget eqs k m) cols
        (option_map (fun s => ($"freq", map (fun r => (fst r, option_map (fun v => div v 1000000) (snd r))) s)) g) (filled j).
  Proof.
    intros (Hb & Hk & Hl) Hne Hinj Hg.
    destruct (freqs_table leb eqs TOT eqs_eq div cols (fun k => dget eqs k m) rows) as (idx & tab & (Hs & Hi & Hm & Hc) & E); auto.
    { intros k Hik H. apply dget_None in H. apply H. auto. }
    unfold cpu_freqs. destruct rows as [|r rows']; [congruence|]. set (rows := r :: rows') in *. rewrite E. eexists.
    destruct (join_ok leb TOT (fun (_ : str) rs => rs = scaled div 1000 rows) (fun k => dget eqs k m) cols (time_in rows) idx
      (map (fun lc => (fst lc, map (option_map (fun v => div v 1000%Z)) (snd lc))) tab) $"freq" (option_map (gpu_freqs div) g)) as (j & Ej & Hj); auto.
    - rewrite map_map. exact Hm.
    - intros k l col rs H Hd Hik ->. apply in_map_iff in H as ([l' c] & [= <- <-] & H). specialize (Hc k l' c H Hd Hik).
      cbn [snd]. clear - Hc. induction Hc; cbn [map]; constructor; auto. now apply scaled_cell.
    - intros k rs t v _ -> H. apply scaled_In in H as (w & H & _). exists k, w. exact H.
    - intros s' Es. destruct g as [g|]; [|discriminate]. injection Es as <-. unfold gpu_freqs. rewrite map_map. cbn [fst]. auto.
    - exists j. split; [reflexivity|]. split; [exact Ej|]. destruct g; exact Hj.
  Qed.
  Lemma freq_hists_ok tab what (axis : list A) name : Forall2 (drawn_as fleb mean std what name) (combine axis tab) (freq_hists fleb mean std tab what axis name).
  Proof.
    unfold freq_hists. induction (combine axis tab) as [|[ax [l col]] ps IH]; cbn [map]; constructor; auto.
    unfold drawn_as, plot_hist. cbn [h_axis h_data h_top h_bins h_xlabel h_title fst snd]. repeat split; [apply top_greatest|].
    destruct name as [|x name]; cbn [normalize_title]; rewrite <- ?app_assoc; reflexivity.
  Qed.
  Theorem plot_freq_hists_ok out_cols in_cols m (out_rows in_rows : list (T * str * option Z)) dev_out dev_in name (ax : list A) :
    good_rows leb out_cols m out_rows -> good_rows leb in_cols m in_rows -> out_rows <> [] -> in_rows <> [] ->
    (forall k k', In k (out_cols ++ in_cols) -> In k' (out_cols ++ in_cols) -> dget eqs k m = dget eqs k' m -> k = k') ->
    (forall s, dev_out = Some s \/ dev_in = Some s -> StronglySorted lt (map fst s)) ->
    exists fo fi ho hi, plot_freq_hists leb div fleb mean std true out_cols in_cols m out_rows in_rows dev_out dev_in name ax = Ok (ho ++ hi) /\
      (let both := match dev_out, dev_in with Some _, Some _ => true | _, _ => false end in
       let gpu d := if both then option_map (fun s => ($"freq", map (fun r => (fst r, option_map (fun v => div v 1000000) (snd r))) s)) d else None in
       Joined leb (time_in out_rows) (fun _ rs => rs = scaled div 1000 out_rows) (fun k => dget eqs k m) out_cols (gpu dev_out) fo /\
       Joined leb (time_in in_rows) (fun _ rs => rs = scaled div 1000 in_rows) (fun k => dget eqs k m) in_cols (gpu dev_in) fi) /\
      Forall2 (drawn_as fleb mean std $"out" name) (combine (firstn (Nat.div (List.length ax) 2) ax) (snd fo)) ho /\
      Forall2 (drawn_as fleb mean std $"out" name) (combine (skipn (Nat.div (List.length ax) 2) ax) (snd fi)) hi.
  Proof.
    intros G1 G2 N1 N2 Hinj Hd.
    set (b := match dev_out, dev_in with Some _, Some _ => true | _, _ => false end).
    destruct (cpu_join out_cols m out_rows (if b then dev_out else None)) as (co & jo & E1 & E2 & J1); auto.
    { intros k k' H H'. apply Hinj; apply in_or_app; auto. }
    { intros s Es. apply Hd. destruct b; [auto|discriminate]. }
    destruct (cpu_join in_cols m in_rows (if b then dev_in else None)) as (ci & ji & E3 & E4 & J2); auto.
    { intros k k' H H'. apply Hinj; apply in_or_app; auto. }
    { intros s Es. apply Hd. destruct b; [auto|discriminate]. }
    exists (filled jo), (filled ji). eexists _, _. split; [|split; [|split]].
    - unfold plot_freq_hists. rewrite E1, E3. destruct dev_out as [o|], dev_in as [i|]; cbn [b option_map] in E2, E4 |- *;
        cbn [bind]; rewrite E2, E4; reflexivity.
    - cbv zeta. destruct dev_out as [o|], dev_in as [i|]; cbn [b option_map] in J1, J2 |- *; auto.
    - apply freq_hists_ok.
    - apply freq_hists_ok.
  Qed.
  Theorem plot_load_repeat cols label (rows : list (@irow T)) g title f sorted :
    plot_load leb sorted cols label rows None title = Ok f -> map fst g <> fst (snd f) -> ~ NoDup (map fst g) ->
    plot_load leb sorted cols label rows (Some g) title = Err EValue.
  Proof.
    unfold plot_load. destruct (get_load_data leb eqs cols label rows) as [[idx tab]|e]; [|discriminate]. cbn [bind concat_opt].
    intros [= <-]. cbn [fst snd filled]. intros H1 H2. now rewrite join_repeat.
  Qed.
  Theorem temperature_hist_ok rows (ax : A) title : rows <> [] ->
    exists h, plot_temperature_hist div fleb mean std rows ax title = Ok h /\ h_axis h = ax /\ h_bins h = 30 /\ h_xlabel h = $"Temperature (C)" /\
      h_data h = map (option_map (fun v => div v 1000)) rows /\ greatest fleb (h_data h) (h_top h) /\
      h_title h = (match title with [] => [] | _ => title ++ $" - " end) ++ $"Temperature (mean = " ++ mean (h_data h) ++ $"C, std = " ++ std (h_data h) ++ $")".
  Proof.
    intros Hn. destruct rows as [|r rows]; [congruence|]. eexists. split; [reflexivity|].
    unfold plot_hist. cbn [h_axis h_bins h_xlabel h_data h_top h_title]. repeat split; [apply top_greatest|].
    destruct title; cbn [normalize_title]; rewrite <- ?app_assoc; reflexivity.
  Qed.
End Loads.
