(** Tables after a history of accessors. *)
From Coq Require Import List Ascii String ZArith NArith Bool Sorted Lia.
From Verif Require Import Lib.PyStr Lib.PyStrFacts Lib.TotalOrder Model.Power Spec.Power Proofs.PivotP Model.Stats Model.Grammar Model.Accessor Spec.Accessor Proofs.AccessorP.
Import ListNotations.
Local Open Scope list_scope.

Section Q.
  Context {T V : Type} (leb : T -> T -> bool) (vleb : V -> V -> bool).
  Hypothesis TOT : total_order leb.
  Hypothesis VTOT : total_order vleb.
  Context (w : world T V).
  Hypothesis PR : Proper leb w.
  Notation lt := (lt leb). Notation le := (le leb).
  Notation row := (T * list (str * option V))%type.
  Notation prow := (T * option V * option V)%type.
  Notation before := (before leb).
  Notation usable := (usable leb vleb w).
  Notation first_rows := (first_rows leb vleb w).
  Notation GoodS := (GoodS leb).
  Notation oeq := (oeq vleb).

  Lemma only_sorted P (l l' : list row) : Only P l l' -> StronglySorted lt (map fst l) -> StronglySorted lt (map fst l').
  Proof.
    induction 1 as [|x l l' Hx H IH|x l l' Hx H IH]; intros S; auto; apply StronglySorted_inv in S as [S1 S2]; auto.
    cbn [map]. constructor; auto. rewrite Forall_forall in *. intros y Hy. apply in_map_iff in Hy as (z & <- & Hz). apply S2. apply in_map.
    now apply (only_sub _ _ _ H).
  Qed.
  Lemma usable_facts ev c rows : usable ev c = Some rows -> exists k f,
    resolve w ev = Ok k /\ w_frames w (k_name k) = Some f /\ cols_ok k f c = true /\ get_rows leb vleb w f <> [] /\
    rows = srows k c (get_rows leb vleb w f) /\ keys_of (keys vleb k (get_rows leb vleb w f)) rows /\ StronglySorted before rows /\
    map fst (get_rows leb vleb w f) = map p_time rows.
  Proof.
    destruct PR as [P1 P2]. unfold usable. destruct (resolve w ev) as [k|] eqn:E1; [|discriminate]. destruct (w_frames w (k_name k)) as [f|] eqn:E2; [|discriminate].
    destruct (cols_ok k f c) eqn:E3; [|discriminate]. pose proof (get_rows_only leb vleb TOT VTOT w f (P1 _ _ E2)) as O.
    destruct (get_rows leb vleb w f) as [|r sel] eqn:E4; [discriminate|]. intros [= <-]. exists k, f. rewrite E4.
    assert (NE : r :: sel <> []) by discriminate. change ((fst r, pk k r, gcell c r) :: map _ sel) with (srows k c (r :: sel)).
    split; [auto|]. split; [auto|]. split; [auto|]. split; [auto|]. split; [auto|]. split; [|split].
    - apply (keys_ok vleb VTOT k c (r :: sel)); auto. intros p r' Hp Hr. apply (P2 ev k f p r'); auto; [now apply class_resolve|now apply (proj2 (proj1 (cols_ok_spec k f c) E3))|]. now apply (only_sub _ _ _ O).
    - apply (srows_before leb TOT k c (r :: sel)). eapply only_sorted; eauto.
    - change (map fst (r :: sel) = map p_time (srows k c (r :: sel))). unfold srows. now rewrite map_map.
  Qed.
  Lemma usable_none ev c agg : usable ev c = None -> exists e, (do k <- match resolve w ev with Err EKey => Err EValue | r => r end ;; pivot_frame leb vleb w agg k c) = Err e.
  Proof.
    unfold usable. destruct (resolve w ev) as [k|x] eqn:E1.
    - intros H. cbn [bind]. apply pivot_frame_err. intros f Hf Hn Hc. rewrite Hf, Hc in H. destruct (get_rows leb vleb w f); easy.
    - intros _. destruct x; eexists; reflexivity.
  Qed.

  (** What the table is after [h]. *)
  Definition Inv (h : list (str * str)) (tab : table T V) : Prop :=
    StronglySorted lt (t_idx tab) /\
    Forall (fun kc => List.length (snd kc) = List.length (t_idx tab)) (t_cols tab) /\
    (forall t, In t (t_idx tab) <-> exists c rows k v, first_rows h c = Some rows /\ In (t, k, v) rows) /\
    (forall c, first_rows h c = None -> has_column c tab = false) /\
    (forall c rows, first_rows h c = Some rows -> StronglySorted before rows /\ rows <> [] /\ keys_of (map fst (columns tab c)) rows /\
       forall k cells, In (k, cells) (columns tab c) ->
         GoodS rows k (combine (t_idx tab) cells) /\ (w_fill w = true -> Forall2 (fun t x => CellOf le rows k t x) (t_idx tab) cells)).

  Lemma inv_nil : Inv [] empty_table.
  Proof.
    split; [constructor|]. split; [constructor|]. split; [|split; [auto|discriminate]].
    intros t. split; [easy|]. now intros (c & rows & k & v & H & _).
  Qed.
  Lemma has_columns c (tab : table T V) : has_column c tab = false <-> columns tab c = [].
  Proof.
    unfold has_column, columns. induction (t_cols tab) as [|kc l IH]; cbn [existsb filter map]; [tauto|].
    destruct (eqs (fst (fst kc)) c); cbn [orb map]; [split; discriminate|auto].
  Qed.
  Lemma inv_has h tab c rows : Inv h tab -> first_rows h c = Some rows -> has_column c tab = true.
  Proof.
    intros (_ & _ & _ & _ & H) E. destruct (H c rows E) as (_ & Hn & (_ & Hk) & _). destruct (has_column c tab) eqn:Eh; auto.
    apply has_columns in Eh. rewrite Eh in Hk. destruct rows as [|[[t k] v] rows]; [easy|]. elim (proj2 (Hk k)). exists t, v. now left.
  Qed.

  (** The columns of the new table. *)
  Definition bring (d : list ((str * option V) * list (T * option V))) (c : str) : list (option V * list (T * option V)) :=
    map (fun ls => (snd (fst ls), snd ls)) (filter (fun ls => eqs (fst (fst ls)) c) d).
  Lemma bring_map (F : list (T * option V) -> list (option V)) d (idx : list T) c :
    columns (T:=T) (Tab idx (map (fun ls => (fst ls, F (snd ls))) d)) c = map (fun ks => (fst ks, F (snd ks))) (bring d c).
  Proof.
    unfold columns, bring. cbn [t_cols]. induction d as [|ls d IH]; auto. cbn [map filter fst]. destruct (eqs (fst (fst ls)) c); cbn [map fst snd]; [f_equal|]; auto.
  Qed.
  Lemma bring_app d d' c : bring (d ++ d') c = bring d c ++ bring d' c.
  Proof. unfold bring. now rewrite filter_app, map_app. Qed.
  Lemma bring_old (tab : table T V) c : bring (map (fun kc => (fst kc, combine (t_idx tab) (snd kc))) (t_cols tab)) c =
    map (fun kc => (fst kc, combine (t_idx tab) (snd kc))) (columns tab c).
  Proof.
    unfold bring, columns. induction (t_cols tab) as [|kc l IH]; auto. cbn [map filter fst]. destruct (eqs (fst (fst kc)) c); cbn [map fst snd]; [f_equal|]; auto.
  Qed.
  Lemma bring_new (c c' : str) (l : list (option V * list (option V))) (idx : list T) :
    bring (map (fun pc => ((c, fst pc), combine idx (snd pc))) l) c' = if eqs c c' then map (fun pc => (fst pc, combine idx (snd pc))) l else [].
  Proof.
    unfold bring. induction l as [|pc l IH]; [now destruct (eqs c c')|]. cbn [map filter fst snd]. destruct (eqs c c'); cbn [map fst snd]; [f_equal|]; auto.
  Qed.
  Lemma combine_fst {A B} (a : list A) (b : list B) : List.length b = List.length a -> map fst (combine a b) = a.
  Proof. revert b. induction a as [|x a IH]; intros [|y b]; cbn; intros H; auto; try discriminate. f_equal. auto. Qed.
  Lemma frame_good_new (agg : table T V) times (rows : list prow) keys : StronglySorted before rows -> StronglySorted lt times ->
    good leb (map (fun key => (key, fit leb agg times (select oeq rows key))) keys).
  Proof.
    intros Hs Ht. apply Forall_forall. intros x Hx. apply in_map_iff in Hx as (key & <- & _). cbn [snd]. unfold fit.
    pose proof (select_sorted leb oeq (oeq_eq vleb VTOT) rows key Hs) as S1. destruct (t_idx agg); auto. unfold pad_to, reindex_pad.
    rewrite combine_fst by now rewrite map_length. now apply sort_u_sorted.
  Qed.
  Definition settle (idx : list T) (s : list (T * option V)) : list (option V) :=
    if w_fill w then pad None (map (at_time leb s) idx) else map (at_time leb s) idx.
  Lemma settle_length idx s : List.length (settle idx s) = List.length idx.
  Proof. unfold settle. destruct (w_fill w); [rewrite pad_length|]; apply map_length. Qed.
  Lemma settle_good (rows : list prow) k s idx : StronglySorted before rows -> StronglySorted lt idx -> NoDup (map fst s) ->
    (forall t v, In (t, v) s -> In t idx) -> (forall t v, In (t, k, v) rows -> In t idx) -> GoodS rows k s ->
    GoodS rows k (combine idx (settle idx s)) /\ (w_fill w = true -> Forall2 (fun t x => CellOf le rows k t x) idx (settle idx s)).
  Proof.
    intros H1 H2 H3 H4 H5 H6. pose proof (reread_good leb TOT rows k s idx H3 H4 H6) as G. unfold settle. destruct (w_fill w); [|split; [auto|discriminate]].
    assert (F : Forall2 (fun t x => CellOf le rows k t x) idx (pad None (map (at_time leb s) idx))).
    { apply (fill_cells leb TOT rows k); auto. now rewrite map_length. }
    split; auto. apply (cells_good leb TOT rows k); auto. now apply (sorted_nodup leb TOT).
  Qed.
  Lemma inv_ext h h' tab : (forall c, first_rows h' c = first_rows h c) -> Inv h tab -> Inv h' tab.
  Proof.
    intros E (I1 & I2 & I3 & I4 & I5). split; auto. split; auto. split; [|split].
    - intros t. rewrite I3. split; intros (c & rows & k & v & H & H'); exists c, rows, k, v; [rewrite E|rewrite <- E]; auto.
    - intros c. rewrite E. auto.
    - intros c rows. rewrite E. auto.
  Qed.
  Lemma fit_good agg times (rows : list prow) k : StronglySorted before rows -> (forall t v, In (t, k, v) rows -> In t times) ->
    GoodS rows k (fit leb agg times (select oeq rows k)).
  Proof.
    intros H1 H2. unfold fit. destruct (t_idx agg) as [|t0 l] eqn:E; [now apply (select_good leb vleb TOT VTOT)|].
    apply (pad_to_good leb vleb TOT VTOT); auto. intros t v H. apply (sort_u_In leb TOT). apply in_or_app. right. eauto.
  Qed.
  Lemma fit_times agg times (rows : list prow) k t v : In (t, v) (fit leb agg times (select oeq rows k)) ->
    In t (t_idx agg) \/ In t times \/ In (t, k, v) rows.
  Proof.
    unfold fit. destruct (t_idx agg) as [|t0 l] eqn:E.
    - intros H. apply (select_In oeq (oeq_eq vleb VTOT)) in H. auto.
    - intros H. unfold pad_to, reindex_pad in H. apply in_combine_map in H as [H _]. rewrite (sort_u_In leb TOT) in H. apply in_app_or in H as []; auto.
  Qed.
  Lemma fit_has agg times (rows : list prow) k t v : In (t, k, v) rows -> In t times -> exists v', In (t, v') (fit leb agg times (select oeq rows k)).
  Proof.
    intros H Ht. unfold fit. destruct (t_idx agg) as [|t0 l] eqn:E.
    - exists v. now apply (select_In oeq (oeq_eq vleb VTOT)).
    - unfold pad_to, reindex_pad. eexists. apply in_combine_map. split; [|reflexivity]. apply (sort_u_In leb TOT). apply in_or_app. auto.
  Qed.
  Lemma rows_times (rows : list prow) t : In t (map p_time rows) <-> exists k v, In (t, k, v) rows.
  Proof.
    rewrite in_map_iff. split; [intros ([[t' k] v] & <- & H); eauto|intros (k & v & H); exists (t, k, v); auto].
  Qed.

  Lemma step_new h tab ev c rows : Inv h tab -> first_rows h c = None -> usable ev c = Some rows ->
    exists tab', pre_process leb vleb w tab (ev, c) = Ok tab' /\ Inv (h ++ [(ev, c)]) tab'.
  Proof.
    intros Hi Hf Hu. pose proof Hi as (I1 & I2 & I3 & I4 & I5). cbn [pre_process]. rewrite (I4 c Hf).
    destruct (usable_facts ev c rows Hu) as (k & f & R1 & R2 & R3 & R4 & R5 & R6 & R7 & R8). rewrite R1. cbn [bind].
    rewrite (pivot_frame_ok leb vleb w tab k f c R2 R4 R3). rewrite <- R5, R8. set (keys := AccessorP.keys vleb k (get_rows leb vleb w f)) in *.
    assert (Rt : StronglySorted lt (map p_time rows)).
    { rewrite <- R8. eapply only_sorted; [apply (get_rows_only leb vleb TOT VTOT w f)|]; apply PR in R2; auto. }
    assert (Rn : rows <> []) by (rewrite R5; destruct (get_rows leb vleb w f); easy). clear R1 R2 R3 R4 R5 R8.
    set (d1 := map (fun key => (key, fit leb tab (map p_time rows) (select oeq rows key))) keys).
    assert (G1 : good leb d1) by now apply frame_good_new.
    destruct (frame_ok leb TOT d1 G1) as (idx1 & E1 & S1 & M1). rewrite E1. cbn [bind fst snd].
    set (d2 := map (fun kc => (fst kc, combine (t_idx tab) (snd kc))) (t_cols tab) ++
               map (fun pc => ((c, fst pc), combine idx1 (snd pc))) (map (fun ls => (fst ls, map (at_time leb (snd ls)) idx1)) d1)).
    assert (L2 : forall ls, In ls d2 -> map fst (snd ls) = t_idx tab \/ map fst (snd ls) = idx1).
    { intros ls H. apply in_app_or in H as [H|H]; apply in_map_iff in H as (x & <- & Hx); cbn [snd].
      - left. apply combine_fst. rewrite Forall_forall in I2. now apply I2.
      - right. apply combine_fst. apply in_map_iff in Hx as (y & <- & _). cbn [snd]. apply map_length. }
    assert (G2 : good leb d2).
    { apply Forall_forall. intros ls H. destruct (L2 ls H) as [E|E]; now rewrite E. }
    destruct (frame_ok leb TOT d2 G2) as (idx2 & E2 & S2 & M2). rewrite E2. cbn [bind fst snd]. eexists. split; [reflexivity|].
    (* the two indices *)
    assert (N1 : forall t, In t idx1 -> In t (t_idx tab) \/ In t (map p_time rows)).
    { intros t H. apply M1 in H as (ls & v & Hl & Hv). unfold d1 in Hl. apply in_map_iff in Hl as (key & <- & _). cbn [snd] in Hv.
      apply fit_times in Hv as [|[|]]; auto. right. apply rows_times. eauto. }
    assert (N1' : forall t, In t (map p_time rows) -> In t idx1).
    { intros t H. pose proof H as H'. apply rows_times in H' as (key & v & H'). destruct (fit_has tab _ rows key t v H' H) as (v' & Hv).
      apply M1. exists (key, fit leb tab (map p_time rows) (select oeq rows key)), v'. split; auto. unfold d1. apply in_map_iff. exists key. split; auto. apply R6. eauto. }
    assert (N2 : forall t, In t idx2 <-> In t (t_idx tab) \/ In t (map p_time rows)).
    { intros t. rewrite M2. split.
      - intros (ls & v & Hl & Hv). apply (in_map fst) in Hv. cbn [fst] in Hv. destruct (L2 ls Hl) as [E|E]; rewrite E in Hv; auto.
      - intros [H|H].
        + pose proof H as H'. apply I3 in H' as (c' & rows' & k' & v' & F' & H'). pose proof (inv_has h tab c' rows' Hi F') as Hc.
          unfold has_column in Hc. apply existsb_exists in Hc as (kc & Hkc & _). rewrite Forall_forall in I2. pose proof (combine_fst (t_idx tab) (snd kc) (I2 _ Hkc)) as E.
          rewrite <- E in H. apply in_map_iff in H as ([t' v] & <- & H). exists (fst kc, combine (t_idx tab) (snd kc)), v. split; auto.
          apply in_or_app. left. apply in_map_iff. eauto.
        + pose proof H as H'. apply rows_times in H' as (key & v & H'). apply N1' in H.
          set (s1 := fit leb tab (map p_time rows) (select oeq rows key)).
          exists ((c, key), combine idx1 (map (at_time leb s1) idx1)), (at_time leb s1 t). split; [|now apply in_combine_map].
          apply in_or_app. right. apply in_map_iff. exists (key, map (at_time leb s1) idx1). split; auto. apply in_map_iff. exists (key, s1). split; auto.
          unfold d1. apply in_map_iff. exists key. split; auto. apply R6. eauto. }
    set (tab' := Tab idx2 _).
    assert (TE : tab' = Tab idx2 (map (fun ls => (fst ls, settle idx2 (snd ls))) d2)).
    { unfold tab'. f_equal. unfold settle. destruct (w_fill w); auto. unfold fill_columns. rewrite map_map. reflexivity. }
    clearbody tab'. subst tab'.
    assert (CO : forall c', columns (Tab idx2 (map (fun ls => (fst ls, settle idx2 (snd ls))) d2)) c' =
      map (fun kc => (fst kc, settle idx2 (combine (t_idx tab) (snd kc)))) (columns tab c') ++
      (if eqs c c' then map (fun key => (key, settle idx2 (combine idx1 (map (at_time leb (fit leb tab (map p_time rows) (select oeq rows key))) idx1)))) keys else [])).
    { intros c'. rewrite (bring_map (settle idx2)). unfold d2. rewrite bring_app, map_app, bring_old, bring_new, map_map. f_equal. destruct (eqs c c'); auto.
      unfold d1. rewrite !map_map. reflexivity. }
    split; [exact S2|]. split; [|split; [|split]].
    - cbn [t_idx t_cols]. apply Forall_forall. intros x Hx. apply in_map_iff in Hx as (ls & <- & _). cbn [snd]. apply settle_length.
    - cbn [t_idx]. intros t. rewrite N2, I3, rows_times. split.
      + intros [(c' & rows' & k' & v' & F' & H')|(k' & v' & H')].
        * exists c', rows', k', v'. now rewrite first_app, F'.
        * exists c, rows, k', v'. now rewrite first_app, Hf, eqs_refl.
      + intros (c' & rows' & k' & v' & F' & H'). rewrite first_app in F'. destruct (first_rows h c') as [r0|] eqn:E0.
        * injection F' as ->. left. exists c', rows', k', v'. auto.
        * destruct (eqs c c') eqn:Ec; [|discriminate]. apply eqs_eq in Ec as <-. rewrite Hu in F'. injection F' as <-. right. eauto.
    - intros c' F'. rewrite first_app in F'. destruct (first_rows h c') as [r0|] eqn:E0; [discriminate|]. apply has_columns. rewrite CO.
      apply I4, has_columns in E0. rewrite E0. destruct (eqs c c') eqn:Ec; auto. apply eqs_eq in Ec as <-. congruence.
    - intros c' rows' F'. rewrite first_app in F'. rewrite CO. cbn [t_idx]. destruct (first_rows h c') as [r0|] eqn:E0.
      + injection F' as ->. destruct (I5 c' rows' E0) as (J1 & J2 & J3 & J4). split; auto. split; auto.
        replace (eqs c c') with false by (destruct (eqs c c') eqn:Ec; auto; apply eqs_eq in Ec as <-; congruence).
        rewrite app_nil_r. split; [now rewrite map_map|]. intros k' cells H. apply in_map_iff in H as ([k0 cells0] & [= <- <-] & H). cbn [snd].
        assert (Hl : List.length cells0 = List.length (t_idx tab)).
        { unfold columns in H. apply in_map_iff in H as (kc & [= <- <-] & H). apply filter_In in H as [H _]. rewrite Forall_forall in I2. now apply I2. }
        apply settle_good; auto.
        * rewrite combine_fst by auto. now apply (sorted_nodup leb TOT).
        * intros t v Ht. apply N2. left. now apply in_combine_l in Ht.
        * intros t v Ht. apply N2. left. apply I3. exists c', rows', k0, v. auto.
        * apply (J4 k0 cells0 H).
      + destruct (eqs c c') eqn:Ec; [|discriminate]. apply eqs_eq in Ec as <-. rewrite Hu in F'. injection F' as <-. split; auto. split; auto.
        apply I4, has_columns in E0. rewrite E0. cbn [map app]. split; [rewrite map_map; cbn [fst]; now rewrite map_id|].
        intros k' cells H. apply in_map_iff in H as (key & [= <- <-] & H).
        set (s1 := fit leb tab (map p_time rows) (select oeq rows key)).
        assert (Hs1 : StronglySorted lt (map fst s1)).
        { unfold good in G1. rewrite Forall_forall in G1. apply (G1 (key, s1)). unfold d1. apply in_map_iff. exists key. auto. }
        apply settle_good; auto.
        * rewrite combine_fst by now rewrite map_length. now apply (sorted_nodup leb TOT).
        * intros t v Ht. apply N2. apply in_combine_l in Ht. auto.
        * intros t v Ht. apply N2. right. apply rows_times. eauto.
        * apply (reread_good leb TOT); [now apply (sorted_nodup leb TOT)| |].
          -- intros t v Ht. apply M1. exists (key, s1), v. split; auto. unfold d1. apply in_map_iff. exists key. auto.
          -- apply fit_good; auto. intros t v Ht. apply rows_times. eauto.
  Qed.
  (** One accessor more. *)
  Definition attempt (tab : table T V) (a : str * str) : table T V := match pre_process leb vleb w tab a with Ok tab' => tab' | Err _ => tab end.
  Lemma step h tab ev c : Inv h tab ->
    Inv (h ++ [(ev, c)]) (attempt tab (ev, c)) /\
    ((exists x, pre_process leb vleb w tab (ev, c) = Err x) <-> first_rows (h ++ [(ev, c)]) c = None).
  Proof.
    intros Hi. unfold attempt. rewrite (first_app leb vleb w). destruct (first_rows h c) as [r0|] eqn:E0.
    - pose proof (inv_has h tab c r0 Hi E0) as Hc. cbn [pre_process]. rewrite Hc. split; [|split; [now intros (x & H)|discriminate]].
      revert Hi. apply inv_ext. intros c'. rewrite first_app. destruct (first_rows h c') eqn:E; auto. destruct (eqs c c') eqn:Ec; auto. apply eqs_eq in Ec as <-. congruence.
    - rewrite eqs_refl. destruct (usable ev c) as [rows|] eqn:Eu.
      + destruct (step_new h tab ev c rows Hi E0 Eu) as (tab' & Et & Hi'). rewrite Et. split; auto. split; [now intros (x & H)|discriminate].
      + destruct (usable_none ev c tab Eu) as (x & Ex). cbn [pre_process]. pose proof Hi as (_ & _ & _ & I4 & _). rewrite (I4 c E0).
        set (r := match resolve w ev with Err EKey => Err EValue | r => r end) in *.
        assert (E : exists x, (do k <- r ;; do fr <- pivot_frame leb vleb w tab k c ;;
          do res <- frame_of leb (map (fun kc => (fst kc, combine (t_idx tab) (snd kc))) (t_cols tab) ++
                              map (fun pc => ((c, fst pc), combine (fst fr) (snd pc))) (snd fr)) ;;
          Ok (Tab (fst res) (if w_fill w then fill_columns (snd res) else snd res))) = Err x).
        { destruct r as [k|x0]; cbn [bind] in *; [rewrite Ex|]; eexists; reflexivity. }
        destruct E as (x' & E). rewrite E. split; [|split; eauto]. revert Hi. apply inv_ext. intros c'. rewrite first_app.
        destruct (first_rows h c') eqn:E'; auto. destruct (eqs c c') eqn:Ec; auto. apply eqs_eq in Ec as <-. auto.
  Qed.
  Lemma inv_after h : Inv h (fold_left attempt h empty_table).
  Proof.
    induction h as [|[ev c] h IH] using rev_ind; [apply inv_nil|]. rewrite fold_left_app. cbn [fold_left]. now apply step.
  Qed.

  (** Sessions. *)
  Lemma readable_iff h c : Readable leb w h c <-> exists rows, first_rows h c = Some rows.
  Proof. split; intros (rows & H); exists rows; now apply (first_iff leb vleb TOT VTOT w PR). Qed.
  Lemma load_tried h tab l : Inv h tab -> exists h', Tried leb w h l h' /\ Inv h' (snd (load_all leb vleb w tab l)) /\
    (fst (load_all leb vleb w tab l) = Ok tt <-> h' = h ++ l /\ forall ev c, In (ev, c) l -> Readable leb w h' c).
  Proof.
    revert h tab. induction l as [|[ev c] l IH]; intros h tab Hi.
    - exists h. split; [constructor|]. split; auto. split; [|auto]. intros _. rewrite app_nil_r. split; auto. easy.
    - destruct (step h tab ev c Hi) as [Hi' Hr]. unfold attempt in Hi'. cbn [load_all]. destruct (pre_process leb vleb w tab (ev, c)) as [tab'|x] eqn:E.
      + assert (R : Readable leb w (h ++ [(ev, c)]) c).
        { apply readable_iff. destruct (first_rows (h ++ [(ev, c)]) c) as [rows|] eqn:Ef; [eauto|]. destruct (proj2 Hr eq_refl) as (x & H). discriminate. }
        destruct (IH _ _ Hi') as (h' & T1 & I1 & F1). exists h'. split; [now constructor|]. split; auto. rewrite F1. rewrite <- app_assoc. cbn [app]. split.
        * intros [-> H]. split; auto. intros ev' c' [[= <- <-]|Hin]; [|eauto]. destruct R as (rows & pre & ev0 & post & Eq & Hs & Hn).
          exists rows, pre, ev0, (post ++ l). split; auto. change (h ++ (ev, c) :: l) with (h ++ [(ev, c)] ++ l). rewrite app_assoc, Eq, <- app_assoc. reflexivity.
        * intros [-> H]. split; auto. intros ev' c' Hin. apply (H ev'). now right.
      + assert (R : ~ Readable leb w (h ++ [(ev, c)]) c).
        { intros R. apply readable_iff in R as (rows & R). destruct Hr as [Hr _]. rewrite Hr in R by eauto. discriminate. }
        exists (h ++ [(ev, c)]). split; [now apply Tr_stop|]. split; auto. cbn [fst]. split; [discriminate|]. intros [_ H]. elim R. apply (H ev). now left.
  Qed.
  Lemma tried_fun h l a : Tried leb w h l a -> forall b, Tried leb w h l b -> a = b.
  Proof. induction 1; intros b Hb; inversion Hb; subst; auto; easy. Qed.
  Context {W : Type} (lib : library T V W).
  Lemma session_inv ss h : Session leb w ss h -> Inv h (after leb vleb w lib ss).
  Proof.
    induction 1 as [|ss h s l h' Hs IH Ha Ht]; [apply inv_nil|]. unfold after in *. rewrite fold_left_app. cbn [fold_left]. unfold parser_solve at 1. rewrite Ha.
    destruct (load_tried h _ l IH) as (h2 & T2 & I2 & _). rewrite (tried_fun _ _ _ Ht _ T2). destruct (load_all leb vleb w _ l) as [[u|x] tab']; exact I2.
  Qed.
  Lemma session_ex (AT : forall s, exists l, accessors s = Some l) ss : exists h, Session leb w ss h.
  Proof.
    induction ss as [|s ss IH] using rev_ind; [exists []; constructor|]. destruct IH as (h & Hs). destruct (AT s) as (l & Hl).
    destruct (load_tried h _ l (session_inv ss h Hs)) as (h' & Ht & _). exists h'. econstructor; eauto.
  Qed.
  Lemma session_fun ss a : Session leb w ss a -> forall b, Session leb w ss b -> a = b.
  Proof.
    induction 1 as [|ss h s l h' Hs IH Ha Ht]; intros b Hb.
    - inversion Hb as [E|ss0 h0 s0 l0 h0' Hs0 Ha0 Ht0 E]; auto. now destruct ss0.
    - inversion Hb as [E|ss0 h0 s0 l0 h0' Hs0 Ha0 Ht0 E]; [now destruct ss|]. apply app_inj_tail in E as [-> ->]. rewrite Ha0 in Ha. injection Ha as ->.
      rewrite (IH _ Hs0) in *. now apply (tried_fun _ _ _ Ht).
  Qed.
  Lemma session_shows ss h c rows : w_fill w = true -> Session leb w ss h -> First leb w h c rows -> Shows leb (after leb vleb w lib ss) c rows.
  Proof.
    intros Hf Hs F. apply (first_iff leb vleb TOT VTOT w PR) in F. destruct (session_inv ss h Hs) as (_ & _ & _ & _ & I5).
    destruct (I5 c rows F) as (_ & _ & J3 & J4). split; auto. intros k cells H. now apply J4.
  Qed.
  Lemma session_sketches ss h c rows : Session leb w ss h -> First leb w h c rows -> Sketches leb (after leb vleb w lib ss) c rows.
  Proof.
    intros Hs F. apply (first_iff leb vleb TOT VTOT w PR) in F. destruct (session_inv ss h Hs) as (I1 & I2 & I3 & _ & I5).
    destruct (I5 c rows F) as (_ & _ & J3 & J4). split; auto. intros k cells H. destruct (J4 k cells H) as [[A B] _].
    set (tab := after leb vleb w lib ss) in *. assert (Hl : List.length cells = List.length (t_idx tab)).
    { unfold columns in H. apply in_map_iff in H as (kc & [= <- <-] & H). apply filter_In in H as [H _]. rewrite Forall_forall in I2. now apply I2. }
    assert (G : forall t x, In (t, x) (combine (t_idx tab) cells) -> forall v, (x = Some v -> Known le rows k t v) /\ (In (t, k, Some v) rows -> x = Some v)).
    { intros t x Hin v. split; [intros ->; now apply A|]. intros Hr. apply B in Hr.
      assert (N : NoDup (map fst (combine (t_idx tab) cells))) by (rewrite combine_fst by auto; now apply (sorted_nodup leb TOT)).
      pose proof (at_time_In leb TOT _ _ _ N Hin) as E1. pose proof (at_time_In leb TOT _ _ _ N Hr) as E2. congruence. }
    clear - Hl G. revert cells Hl G. induction (t_idx tab) as [|t idx IH]; intros [|x cells] Hl G; try discriminate; constructor.
    - apply G. now left.
    - apply IH; [now injection Hl|]. intros t' x' Hin. apply G. now right.
  Qed.
  Lemma session_times ss h : Session leb w ss h -> Times leb w (after leb vleb w lib ss) h.
  Proof.
    intros Hs. destruct (session_inv ss h Hs) as (I1 & _ & I3 & _ & _). split; auto. intros t. rewrite I3.
    split; intros (c & rows & k & v & F & H); exists c, rows, k, v; split; auto; now apply (first_iff leb vleb TOT VTOT w PR).
  Qed.
  Lemma session_absent ss h c : Session leb w ss h -> (columns (after leb vleb w lib ss) c = [] <-> ~ Readable leb w h c).
  Proof.
    intros Hs. pose proof (session_inv ss h Hs) as Hi. rewrite <- has_columns, readable_iff. split.
    - intros E (rows & F). rewrite (inv_has h _ c rows Hi F) in E. discriminate.
    - intros N. destruct Hi as (_ & _ & _ & I4 & _). apply I4. destruct (first_rows h c) as [rows|]; auto. elim N. eauto.
  Qed.
End Q.
