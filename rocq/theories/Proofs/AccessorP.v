(** Tables of accessors. *)
From Coq Require Import List Ascii String ZArith NArith Bool Sorted Lia FinFun.
From Verif Require Import Lib.PyStr Lib.PyStrFacts Lib.TotalOrder Model.Power Spec.Power Proofs.PivotP Model.Stats Model.Grammar Model.Accessor Spec.Accessor.
Import ListNotations.
Local Open Scope list_scope.

(** ** Selections *)
Lemma only_fun {A} (P : A -> Prop) l a : Only P l a -> forall b, Only P l b -> a = b.
Proof. induction 1 as [|x l a Hx H IH|x l a Hx H IH]; intros b Hb; inversion Hb; subst; auto; try easy. f_equal. auto. Qed.
Lemma only_filter {A} (P : A -> Prop) (p : A -> bool) l : (forall x, In x l -> (p x = true <-> P x)) -> Only P l (filter p l).
Proof.
  induction l as [|x l IH]; intros H; [constructor|]. cbn [filter]. destruct (p x) eqn:E.
  - constructor; [apply H; auto; now left|]. apply IH. intros y Hy. apply H. now right.
  - constructor; [intros Hp; apply H in Hp; [congruence|now left]|]. apply IH. intros y Hy. apply H. now right.
Qed.
Lemma only_sub {A} (P : A -> Prop) l l' : Only P l l' -> forall x, In x l' <-> In x l /\ P x.
Proof.
  induction 1 as [|a l l' Ha H IH|a l l' Ha H IH]; intros x; cbn [In].
  - tauto.
  - rewrite IH. split; [intros [<-|[]]; auto|intros [[<-|] ]; auto].
  - rewrite IH. split; [intros []; auto|intros [[<-|] ]; auto; easy].
Qed.

Section P.
  Context {T V : Type} (leb : T -> T -> bool) (vleb : V -> V -> bool).
  Hypothesis TOT : total_order leb.
  Hypothesis VTOT : total_order vleb.
  Notation lt := (lt leb). Notation le := (le leb).
  Notation row := (T * list (str * option V))%type.
  Notation prow := (T * option V * option V)%type.

  Lemma drop_filter t (rows : list row) : StronglySorted lt (map fst rows) -> drop_before leb t rows = filter (fun r => leb t (fst r)) rows.
  Proof.
    induction rows as [|r rows IH]; intros H; cbn [drop_before filter]; auto. apply StronglySorted_inv in H as [H1 H2].
    destruct (leb t (fst r)) eqn:E; auto. f_equal. symmetry. rewrite <- (map_id rows) at 2. clear IH H1.
    induction rows as [|r' rows IH]; auto. cbn [filter map]. inversion H2; subst.
    replace (leb t (fst r')) with true by (symmetry; eapply (to_trans _ TOT); [exact E|now apply (lt_le leb TOT)]). f_equal. now apply IH.
  Qed.
  Lemma take_filter t (rows : list row) : StronglySorted lt (map fst rows) -> take_until leb t rows = filter (fun r => leb (fst r) t) rows.
  Proof.
    induction rows as [|r rows IH]; intros H; cbn [take_until filter]; auto. apply StronglySorted_inv in H as [H1 H2].
    destruct (leb (fst r) t) eqn:E; [f_equal; auto|]. clear IH H1. induction rows as [|r' rows IH]; auto. cbn [filter]. inversion H2; subst.
    destruct (leb (fst r') t) eqn:E'; [|now apply IH]. exfalso. apply (lt_le leb TOT) in H1. rewrite (to_trans _ TOT _ _ _ H1 E') in E. discriminate.
  Qed.
  Lemma filter_sorted (p : row -> bool) rows : StronglySorted lt (map fst rows) -> StronglySorted lt (map fst (filter p rows)).
  Proof.
    induction rows as [|r rows IH]; intros H; cbn [filter]; auto. apply StronglySorted_inv in H as [H1 H2].
    destruct (p r); auto. cbn [map]. constructor; auto. rewrite Forall_forall in *. intros x Hx. apply H2. apply in_map_iff in Hx as (y & <- & Hy).
    apply filter_In in Hy as [Hy _]. now apply in_map.
  Qed.
  Lemma filter_filter {A} (p q : A -> bool) l : filter q (filter p l) = filter (fun x => p x && q x) l.
  Proof. induction l as [|x l IH]; auto. cbn [filter]. destruct (p x); cbn [filter andb]; [destruct (q x); congruence|auto]. Qed.
  Lemma keep_map {A} (p : A -> bool) (l : list A) : keep (map p l) l = filter p l.
  Proof.
    induction l as [|x l IH]; auto. unfold keep in *. cbn [map combine filter fst]. destruct (p x); cbn [map snd]; congruence.
  Qed.
  Definition passes (cols : list str) (filters : list (str * list V)) (r : row) : bool :=
    forallb (fun cf => negb (has_col (fst cf) cols) || isin vleb (snd cf) (gcell (fst cf) r)) filters.
  Lemma criterion_map cols rows filters : forall p, criterion vleb cols rows (map p rows) filters = map (fun r => p r && passes cols filters r) rows.
  Proof.
    induction filters as [|[c wanted] filters IH]; intros p; cbn [criterion].
    - apply map_ext. intros r. now rewrite andb_true_r.
    - replace (if has_col c cols then map (fun mr => fst mr && isin vleb wanted (gcell c (snd mr))) (combine (map p rows) rows) else map p rows)
        with (map (fun r => p r && (negb (has_col c cols) || isin vleb wanted (gcell c r))) rows).
      + rewrite IH. apply map_ext. intros r. cbn [passes forallb fst snd]. now rewrite andb_assoc.
      + destruct (has_col c cols); cbn [negb orb].
        * clear IH. induction rows as [|r rows IH]; auto. cbn [map combine fst snd]. f_equal. exact IH.
        * apply map_ext. intros r. now rewrite andb_true_r.
  Qed.
  Lemma repeat_map {A} (l : list A) : repeat true (List.length l) = map (fun _ => true) l.
  Proof. induction l; cbn; congruence. Qed.
  Lemma isin_In vs c : isin vleb vs c = true <-> exists v, c = Some v /\ In v vs.
  Proof.
    destruct c as [v|]; cbn [isin].
    - rewrite existsb_exists. split.
      + intros (x & Hx & E). apply (teq_eq vleb VTOT) in E. subst. eauto.
      + intros (x & [= <-] & Hx). exists v. split; auto. now apply teq_refl.
    - split; [discriminate|]. now intros (v & E & _).
  Qed.
  Lemma has_col_In c cols : has_col c cols = true <-> In c cols.
  Proof.
    unfold has_col. rewrite existsb_exists. split.
    - intros (x & Hx & E). apply eqs_eq in E. now subst.
    - intros H. exists c. split; auto. now apply eqs_eq.
  Qed.

  Context (w : world T V).
  Lemma get_rows_only f : StronglySorted lt (map fst (g_rows f)) -> Only (Chosen leb w (g_cols f)) (g_rows f) (get_rows leb vleb w f).
  Proof.
    intros Hs. unfold get_rows.
    set (p1 := fun r : row => match w_from w with Some t => leb t (fst r) | None => true end).
    set (p2 := fun r : row => match w_to w with Some t => leb (fst r) t | None => true end).
    assert (E1 : (match w_from w with Some t => drop_before leb t (g_rows f) | None => g_rows f end) = filter p1 (g_rows f)).
    { unfold p1. destruct (w_from w) as [t|]; [now apply drop_filter|]. symmetry. clear. induction (g_rows f); cbn [filter]; congruence. }
    rewrite E1. assert (S1 : StronglySorted lt (map fst (filter p1 (g_rows f)))) by now apply filter_sorted.
    assert (E2 : (match w_to w with Some t => take_until leb t (filter p1 (g_rows f)) | None => filter p1 (g_rows f) end) = filter p2 (filter p1 (g_rows f))).
    { unfold p2. destruct (w_to w) as [t|]; [now apply take_filter|]. symmetry. generalize (filter p1 (g_rows f)). clear. intros l. induction l; cbn [filter]; congruence. }
    rewrite E2, repeat_map, criterion_map, keep_map, !filter_filter.
    apply only_filter. intros r Hr. rewrite !andb_true_iff. unfold Chosen, passes. rewrite forallb_forall. split.
    - intros [H1 [H2 [_ H3]]]. repeat split.
      + intros t E. unfold p1 in H1. now rewrite E in H1.
      + intros t E. unfold p2 in H2. now rewrite E in H2.
      + intros c wanted Hi Hc. apply H3 in Hi. cbn [fst snd] in Hi. apply has_col_In in Hc. rewrite Hc in Hi. now apply isin_In.
    - intros (H1 & H2 & H3). repeat split.
      + unfold p1. destruct (w_from w); auto.
      + unfold p2. destruct (w_to w); auto.
      + intros [c wanted] Hi. cbn [fst snd]. destruct (has_col c (g_cols f)) eqn:E; auto. apply has_col_In in E. cbn. apply isin_In. eauto.
  Qed.

  (** ** Series *)
  Definition oeq (a b : option V) : bool :=
    match a, b with Some x, Some y => teq vleb x y | None, None => true | _, _ => false end.
  Lemma oeq_eq a b : oeq a b = true <-> a = b.
  Proof.
    destruct a, b; cbn; try (split; congruence). rewrite (teq_eq vleb VTOT). split; congruence.
  Qed.
  Notation before := (before leb).
  (** A series with the values of a key: each of its values is the last known one, and
      all values of the key are in it. *)
  Definition GoodS (rows : list prow) (k : option V) (s : list (T * option V)) : Prop :=
    (forall t v, In (t, Some v) s -> Known le rows k t v) /\ (forall t v, In (t, k, Some v) rows -> In (t, Some v) s).
  Lemma known_row (rows : list prow) k t v : StronglySorted before rows -> In (t, k, Some v) rows -> Known le rows k t v.
  Proof.
    intros Hs Hi. apply in_split in Hi as (pre & post & ->). exists pre, t, post. split; auto. split; [now apply le_refl|].
    intros t'' x Hi. assert (Ht : lt t t'').
    { clear - Hs Hi. induction pre as [|r pre IH]; cbn [app] in Hs; apply StronglySorted_inv in Hs as [H1 H2]; auto.
      rewrite Forall_forall in H2. apply H2 in Hi as [_ Hi]. now apply Hi. }
    now apply lt_not_le in Ht.
  Qed.
  Lemma select_good (rows : list prow) k : StronglySorted before rows -> GoodS rows k (select oeq rows k).
  Proof.
    intros Hs. split; intros t v H.
    - apply (select_In oeq oeq_eq) in H. now apply known_row.
    - now apply (select_In oeq oeq_eq).
  Qed.
  (** Padding. *)
  Lemma pad_at_spec (s : list (T * option V)) t : StronglySorted lt (map fst s) -> forall acc,
    (exists pre t' post, s = pre ++ (t', pad_at leb acc s t) :: post /\ le t' t /\ forall x y, In (x, y) post -> lt t x) \/
    (pad_at leb acc s t = acc /\ forall x y, In (x, y) s -> lt t x).
  Proof.
    induction s as [|[t' v] s IH]; intros Hs acc; cbn [pad_at]; [right; split; auto; easy|].
    cbn [map fst] in Hs. apply StronglySorted_inv in Hs as [H1 H2]. rewrite Forall_forall in H2.
    destruct (leb t' t) eqn:E.
    - left. destruct (IH H1 v) as [(pre & u & post & E1 & E2 & E3)|[E1 E2]].
      + exists ((t', v) :: pre), u, post. split; [cbn [app]; now rewrite <- E1|auto].
      + exists [], t', s. rewrite E1. auto.
    - right. split; auto. assert (L : lt t t') by (unfold TotalOrder.lt, ltb; now rewrite E). intros x y [H|H]; [congruence|].
      eapply (lt_trans leb TOT); [exact L|]. apply H2. apply in_map_iff. now exists (x, y).
  Qed.
  Lemma in_combine_map {A B} (f : A -> B) l a b : In (a, b) (combine l (map f l)) <-> In a l /\ b = f a.
  Proof.
    induction l as [|x l IH]; cbn [map combine In]; [tauto|]. rewrite IH. split.
    - intros [[= <- <-]|[]]; auto.
    - intros [[<-|] ]; auto. left. congruence.
  Qed.
  Lemma pad_to_good (rows : list prow) k grid : StronglySorted before rows -> (forall t v, In (t, k, v) rows -> In t grid) ->
    GoodS rows k (pad_to leb (select oeq rows k) grid).
  Proof.
    intros Hs Hg. assert (Hsel := select_sorted leb oeq oeq_eq rows k Hs). unfold pad_to, reindex_pad. split; intros t v H.
    - apply in_combine_map in H as [Ht Hv]. destruct (pad_at_spec _ t Hsel None) as [(pre & t' & post & E & L & N)|[E _]]; [|congruence].
      rewrite <- Hv in E. assert (Hi : In (t', k, Some v) rows) by (apply (select_In oeq oeq_eq); rewrite E; apply in_elt).
      apply in_split in Hi as (a & b & Er). exists a, t', b. split; auto. split; auto. intros t'' x Hx Hle.
      assert (Hlt : lt t' t'').
      { subst rows. clear - Hs Hx. induction a as [|r a IH]; cbn [app] in Hs; apply StronglySorted_inv in Hs as [H1 H2]; auto.
        rewrite Forall_forall in H2. apply H2 in Hx as [_ Hx]. now apply Hx. }
      assert (Hi : In (t'', Some x) (select oeq rows k)) by (apply (select_In oeq oeq_eq); rewrite Er; apply in_or_app; right; now right).
      rewrite E in Hi, Hsel. apply in_app_or in Hi as [Hi|[Hi|Hi]].
      + clear - Hsel Hi Hlt TOT. rewrite map_app in Hsel. apply in_split in Hi as (p & q & ->). rewrite map_app, <- app_assoc in Hsel.
        induction (map fst p) as [|z l IH]; cbn [app] in Hsel; apply StronglySorted_inv in Hsel as [H1 H2]; auto.
        cbn [map fst app] in *. rewrite Forall_forall in H2. assert (H : lt t'' t') by (apply H2; apply in_or_app; right; now left).
        apply (lt_irrefl leb TOT t'). eapply (lt_trans leb TOT); eauto.
      + injection Hi as -> ->. now apply (lt_irrefl leb TOT) in Hlt.
      + apply N in Hi. now apply (lt_not_le leb) in Hi.
    - apply in_combine_map. split; [eapply Hg; eauto|]. apply (select_In oeq oeq_eq) in H.
      destruct (pad_at_spec _ t Hsel None) as [(pre & t' & post & E & L & N)|[_ N]]; [|apply N in H; now apply (lt_irrefl leb TOT) in H].
      remember (pad_at leb None (select oeq rows k) t) as c eqn:Ec. rewrite E in H. apply in_app_or in H as [H|[H|H]].
      + exfalso. rewrite E, map_app in Hsel. apply in_split in H as (p & q & ->). rewrite map_app, <- app_assoc in Hsel.
        clear - Hsel L TOT. induction (map fst p) as [|z l IH]; cbn [app] in Hsel; apply StronglySorted_inv in Hsel as [H1 H2]; auto.
        cbn [map fst app] in *. rewrite Forall_forall in H2. assert (H : lt t t') by (apply H2; apply in_or_app; right; now left).
        now apply (lt_not_le leb) in H.
      + congruence.
      + apply N in H. now apply (lt_irrefl leb TOT) in H.
  Qed.
  (** Reading a series at more times. *)
  Lemma reread_good (rows : list prow) k s idx : NoDup (map fst s) -> (forall t v, In (t, v) s -> In t idx) ->
    GoodS rows k s -> GoodS rows k (combine idx (map (at_time leb s) idx)).
  Proof.
    intros Hn Hs [A B]. split; intros t v H.
    - apply in_combine_map in H as [Ht Hv]. apply A. now apply (at_time_Some leb TOT).
    - apply in_combine_map. apply B in H. split; [eauto|]. symmetry. now apply (at_time_In leb TOT).
  Qed.
  (** Filling. *)
  Lemma fill_known (rows : list prow) k : StronglySorted before rows ->
    forall idx cells (P : T -> Prop) last, List.length cells = List.length idx -> StronglySorted lt idx -> (forall x y, P x -> In y idx -> lt x y) ->
    (forall t v, In (t, k, Some v) rows -> P t \/ In t idx) ->
    (forall t v, In (t, Some v) (combine idx cells) -> Known le rows k t v) ->
    (forall t v, In (t, k, Some v) rows -> In t idx -> In (t, Some v) (combine idx cells)) ->
    KnownP rows k P last -> Forall2 (fun t c => CellOf le rows k t c) idx (pad last cells).
  Proof.
    intros Hrows. induction idx as [|t idx IH]; intros cells P last Hl Hs HP Hall HA HB HK; destruct cells as [|x cells]; try discriminate; [constructor|].
    apply StronglySorted_inv in Hs as [Hs Hf]. rewrite Forall_forall in Hf.
    assert (Eq : forall u z, In (u, k, Some z) rows -> (P u \/ u = t <-> le u t)).
    { intros u z Hi. split.
      - intros [Hp | ->]; [apply lt_le; auto; apply HP; auto; now left|now apply le_refl].
      - intros Hle. destruct (Hall u _ Hi) as [Hp|[Hp|Hp]]; auto. apply Hf in Hp.
        exfalso. apply (lt_not_le leb) in Hp; auto. }
    assert (Hcell : CellOf le rows k t (match x with Some v => Some v | None => last end)).
    { destruct x as [v|]; [apply HA; now left|].
      assert (Hno : forall z, ~ In (t, k, Some z) rows).
      { intros z Hz. assert (Hi := HB t z Hz (or_introl eq_refl)). cbn [combine] in Hi. destruct Hi as [Hi|Hi]; [discriminate|].
        apply in_combine_l in Hi. apply Hf in Hi. now apply (lt_irrefl leb TOT) in Hi. }
      apply (KnownP_ext rows k P (fun u => le u t)) in HK; [destruct last; exact HK|].
      intros u z Hi. rewrite <- (Eq u z Hi). split; auto. intros [Hp | ->]; auto. now apply Hno in Hi. }
    assert (Hnext : forall l', CellOf le rows k t l' -> Forall2 (fun t0 c => CellOf le rows k t0 c) idx (pad l' cells)).
    { intros l' Hc. apply (IH cells (fun u => le u t)).
      - cbn in Hl. lia.
      - auto.
      - intros u y Hu Hy. eapply (le_lt_trans leb TOT); eauto.
      - intros u v Hu. destruct (Hall u v Hu) as [Hp|[Hp|Hp]]; auto.
        + left. apply lt_le; auto. apply HP; auto. now left.
        + left. subst. now apply le_refl.
      - intros u v Hu. apply HA. now right.
      - intros u v Hu Hi. destruct (HB u v Hu (or_intror Hi)) as [E|E]; auto. injection E as -> _. apply Hf in Hi. now apply (lt_irrefl leb TOT) in Hi.
      - destruct l'; exact Hc. }
    cbn [pad]. destruct x as [v|]; constructor; auto.
  Qed.
  Lemma fill_cells (rows : list prow) k idx cells : StronglySorted before rows -> List.length cells = List.length idx -> StronglySorted lt idx ->
    (forall t v, In (t, k, v) rows -> In t idx) -> GoodS rows k (combine idx cells) -> Forall2 (fun t c => CellOf le rows k t c) idx (pad None cells).
  Proof.
    intros Hrows Hl Hs Hi [A B]. apply (fill_known rows k Hrows idx cells (fun _ => False)); auto; try easy.
    - intros t v H. right. eauto.
  Qed.
  Lemma cells_good (rows : list prow) k idx cells : StronglySorted before rows -> NoDup idx -> (forall t v, In (t, k, v) rows -> In t idx) ->
    Forall2 (fun t c => CellOf le rows k t c) idx cells -> GoodS rows k (combine idx cells).
  Proof.
    intros Hrows Hn Hi F. split; intros t v H.
    - clear Hi Hn. induction F as [|t' c idx cells Hc F IH]; [easy|]. destruct H as [[= -> ->]|H]; auto.
    - assert (Ht := Hi _ _ H). clear Hi. induction F as [|t' c idx cells Hc F IH]; [easy|]. inversion Hn; subst. destruct Ht as [->|Ht]; [|right; auto].
      left. f_equal. destruct c as [v'|]; cbn in Hc.
      + destruct Hc as (pre & u & post & E & L & N). subst rows. apply in_app_or in H as [H|[H|H]].
        * exfalso. assert (Hlt : lt t u). { apply in_split in H as (a & b & ->). rewrite <- app_assoc in Hrows. clear - Hrows.
            induction a as [|r a IH]; cbn [app] in Hrows; apply StronglySorted_inv in Hrows as [H1 H2]; auto.
            rewrite Forall_forall in H2. assert (Hx := H2 (u, k, Some v') ltac:(apply in_or_app; right; now left)). now apply Hx. }
          now apply (lt_not_le leb) in Hlt.
        * congruence.
        * apply N in H. elim H. now apply le_refl.
      + apply Hc in H. elim H. now apply le_refl.
  Qed.
  Lemma pad_length last (l : list (option V)) : List.length (pad last l) = List.length l.
  Proof. revert last. induction l as [|[v|] l IH]; intros last; cbn; auto. Qed.

  (** ** Sources *)
  Definition pk (k : kls) (r : row) : option V := match k_pivot k with Some p => gcell p r | None => None end.
  Definition srows (k : kls) (c : str) (sel : list row) : list prow := map (fun r => (fst r, pk k r, gcell c r)) sel.
  Definition keys (k : kls) (sel : list row) : list (option V) :=
    match k_pivot k with Some p => map Some (unique_values vleb p sel) | None => [None] end.
  Definition cols_ok (k : kls) (f : gframe T V) (c : str) : bool :=
    match k_pivot k with Some p => has_col p (g_cols f) | None => true end && has_col c (g_cols f).
  Definition usable (ev c : str) : option (list prow) :=
    match resolve w ev with
    | Err _ => None
    | Ok k =>
        match w_frames w (k_name k) with
        | None => None
        | Some f => if cols_ok k f c then match get_rows leb vleb w f with [] => None | sel => Some (srows k c sel) end else None
        end
    end.
  Lemma class_resolve ev k : Class w ev k <-> resolve w ev = Ok k.
  Proof.
    unfold Class, resolve. destruct (w_pvars w ev) as [k1|].
    - split; [intros [[= ->]|[E _]]; [auto|discriminate]|intros [= ->]; auto].
    - destruct (w_defs w ev) as [k2|].
      + split; [intros [E|[_ [[= ->]|[E _]]]]; auto; discriminate|intros [= ->]; auto].
      + split; [intros [E|[_ [E|[_ E]]]]; auto; discriminate|intros E; auto].
  Qed.
  Lemma cols_ok_spec k f c : cols_ok k f c = true <-> In c (g_cols f) /\ forall p, k_pivot k = Some p -> In p (g_cols f).
  Proof.
    unfold cols_ok. rewrite andb_true_iff, has_col_In. destruct (k_pivot k) as [p|].
    - rewrite has_col_In. split; [intros [H1 H2]; split; auto; intros ? [= <-]; auto|intros [H1 H2]; auto].
    - split; [intros [H1 H2]; split; auto; discriminate|intros [H1 H2]; auto].
  Qed.
  Hypothesis PR : Proper leb w.
  Lemma source_usable ev c rows : Source leb w ev c rows <-> usable ev c = Some rows.
  Proof.
    destruct PR as [P1 P2]. unfold usable. split.
    - intros (k & f & sel & H1 & H2 & H3 & H4 & H5 & H6 & ->). apply class_resolve in H1. rewrite H1, H2.
      rewrite (proj2 (cols_ok_spec k f c)) by auto. pose proof (get_rows_only f (P1 _ _ H2)) as O. rewrite <- (only_fun _ _ _ H5 _ O).
      destruct sel; [easy|reflexivity].
    - destruct (resolve w ev) as [k|] eqn:E1; [|discriminate]. destruct (w_frames w (k_name k)) as [f|] eqn:E2; [|discriminate].
      destruct (cols_ok k f c) eqn:E3; [|discriminate]. pose proof (get_rows_only f (P1 _ _ E2)) as O.
      destruct (get_rows leb vleb w f) as [|r sel] eqn:E4; [discriminate|]. intros [= <-]. apply cols_ok_spec in E3 as [E3 E3'].
      exists k, f, (r :: sel). apply class_resolve in E1. repeat split; auto. discriminate.
  Qed.
  Fixpoint first_rows (h : list (str * str)) (c : str) : option (list prow) :=
    match h with
    | [] => None
    | (ev, c') :: h' => if eqs c' c then match usable ev c with Some r => Some r | None => first_rows h' c end else first_rows h' c
    end.
  Lemma first_none h c : first_rows h c = None <-> forall ev, In (ev, c) h -> usable ev c = None.
  Proof.
    induction h as [|[ev c'] h IH]; cbn [first_rows In]; [split; auto; easy|]. destruct (eqs c' c) eqn:E.
    - apply eqs_eq in E as ->. destruct (usable ev c) as [r|] eqn:Eu.
      + split; [discriminate|]. intros H. rewrite <- Eu. apply H. now left.
      + rewrite IH. split; [intros H ev' [[= <-]|Hi]; auto|auto].
    - rewrite IH. split; [|auto]. intros H ev' [[= <- <-]|Hi]; auto. now rewrite eqs_refl in E.
  Qed.
  Lemma first_iff h c rows : First leb w h c rows <-> first_rows h c = Some rows.
  Proof.
    split.
    - intros (pre & ev & post & -> & Hs & Hn). apply source_usable in Hs. induction pre as [|[e c'] pre IH]; cbn [app first_rows].
      + now rewrite eqs_refl, Hs.
      + destruct (eqs c' c) eqn:E.
        * apply eqs_eq in E as ->. destruct (usable e c) as [r|] eqn:Eu; [|apply IH; intros ev' r' H; apply Hn; now right].
          apply source_usable in Eu. elim (Hn e r); auto. now left.
        * apply IH. intros ev' r' H. apply Hn. now right.
    - induction h as [|[e c'] h IH]; cbn [first_rows]; [discriminate|].
      assert (Later : (c' = c -> usable e c = None) -> first_rows h c = Some rows -> First leb w ((e, c') :: h) c rows).
      { intros Hn H. apply IH in H as (pre & ev & post & -> & Hs & Hp). exists ((e, c') :: pre), ev, post. split; auto. split; auto.
        intros ev' r' [[= <- <-]|Hi]; [|now apply Hp]. intros Hs'. apply source_usable in Hs'. rewrite Hn in Hs'; [discriminate|auto]. }
      destruct (eqs c' c) eqn:E.
      + apply eqs_eq in E as ->. destruct (usable e c) as [r|] eqn:Eu; [|now apply Later].
        intros [= ->]. exists [], e, h. split; auto. split; [now apply source_usable|easy].
      + apply Later. intros ->. now rewrite eqs_refl in E.
  Qed.
  Lemma first_app h ev c c' : first_rows (h ++ [(ev, c)]) c' = match first_rows h c' with Some r => Some r | None => if eqs c c' then usable ev c' else None end.
  Proof.
    induction h as [|[e d] h IH]; cbn [app first_rows].
    - destruct (eqs c c'); auto. now destruct (usable ev c').
    - destruct (eqs d c'); auto. destruct (usable e c'); auto.
  Qed.

  (** What is usable. *)
  Lemma unique_In p (sel : list row) v : In v (unique_values vleb p sel) <-> exists r, In r sel /\ gcell p r = Some v.
  Proof.
    unfold unique_values. rewrite (sort_u_In vleb VTOT). unfold present. rewrite in_flat_map. split.
    - intros (x & Hx & Hv). apply in_map_iff in Hx as (r & <- & Hr). exists r. split; auto. destruct (gcell p r); [|easy]. destruct Hv as [->|[]]. auto.
    - intros (r & Hr & E). exists (Some v). split; [|now left]. apply in_map_iff. eauto.
  Qed.
  Lemma keys_ok k c (sel : list row) : sel <> [] -> (forall p r, k_pivot k = Some p -> In r sel -> gcell p r <> None) -> keys_of (keys k sel) (srows k c sel).
  Proof.
    intros Hn Hp. unfold keys, srows, pk. split.
    - destruct (k_pivot k) as [p|]; [|repeat constructor; auto]. apply FinFun.Injective_map_NoDup; [congruence|]. apply (sorted_nodup vleb VTOT). apply sort_u_sorted; auto.
    - intros x. destruct (k_pivot k) as [p|].
      + rewrite in_map_iff. split.
        * intros (v & <- & Hv). apply unique_In in Hv as (r & Hr & E). exists (fst r), (gcell c r). apply in_map_iff. exists r. now rewrite E.
        * intros (t & v & Hi). apply in_map_iff in Hi as (r & [= <- <- <-] & Hr). destruct (gcell p r) as [v'|] eqn:E; [|now apply (Hp p) in E].
          exists v'. split; auto. apply unique_In. eauto.
      + split.
        * intros [<-|[]]. destruct sel as [|r sel]; [easy|]. exists (fst r), (gcell c r). now left.
        * intros (t & v & Hi). apply in_map_iff in Hi as (r & [= <- <- <-] & Hr). now left.
  Qed.
  Lemma srows_before k c (sel : list row) : StronglySorted lt (map fst sel) -> StronglySorted before (srows k c sel).
  Proof.
    unfold srows. induction sel as [|r sel IH]; intros H; [constructor|]. cbn [map] in *. apply StronglySorted_inv in H as [H1 H2]. constructor; auto.
    rewrite Forall_forall in *. intros x Hx. apply in_map_iff in Hx as (r' & <- & Hr). assert (L : lt (fst r) (fst r')) by (apply H2; now apply in_map).
    split; cbn; auto. now apply (lt_le leb TOT).
  Qed.
  Lemma select_pivot k p c (sel : list row) v : k_pivot k = Some p -> column_of c (filter (fun r => isin vleb [v] (gcell p r)) sel) = select oeq (srows k c sel) (Some v).
  Proof.
    intros Hk. unfold column_of, select, srows, pk. rewrite Hk. induction sel as [|r sel IH]; auto. cbn [filter map].
    change (p_key (fst r, gcell p r, gcell c r)) with (gcell p r). replace (isin vleb [v] (gcell p r)) with (oeq (gcell p r) (Some v)).
    - destruct (oeq (gcell p r) (Some v)); cbn [map]; [f_equal; auto|auto].
    - destruct (gcell p r) as [x|]; cbn; auto. now rewrite orb_false_r.
  Qed.
  Lemma select_plain k c (sel : list row) : k_pivot k = None -> column_of c sel = select oeq (srows k c sel) None.
  Proof.
    intros Hk. unfold column_of, select, srows, pk. rewrite Hk. induction sel as [|r sel IH]; auto. cbn [filter map]. cbn. f_equal. auto.
  Qed.
  Definition fit (agg : table T V) (times : list T) (s : list (T * option V)) : list (T * option V) :=
    match t_idx agg with [] => s | _ => pad_to leb s (sort_u leb (t_idx agg ++ times)) end.
  Lemma pivot_frame_ok agg k f c : w_frames w (k_name k) = Some f -> get_rows leb vleb w f <> [] -> cols_ok k f c = true ->
    pivot_frame leb vleb w agg k c =
      frame_of leb (map (fun key => (key, fit agg (map fst (get_rows leb vleb w f)) (select oeq (srows k c (get_rows leb vleb w f)) key))) (keys k (get_rows leb vleb w f))).
  Proof.
    intros H1 H2 H3. unfold pivot_frame, get_data_frame. rewrite H1. cbn [bind g_rows g_cols]. destruct (get_rows leb vleb w f) as [|r sel] eqn:E; [easy|]. rewrite <- E. clear H2.
    unfold cols_ok in H3. unfold keys. destruct (k_pivot k) as [p|] eqn:Ek.
    - rewrite H3. f_equal. rewrite map_map. apply map_ext. intros v. f_equal. rewrite (select_pivot k p c _ v Ek). reflexivity.
    - cbn [andb] in H3. rewrite H3. cbn [map]. unfold fit. rewrite (select_plain k c _ Ek). reflexivity.
  Qed.
  Lemma pivot_frame_err agg k c : (forall f, w_frames w (k_name k) = Some f -> get_rows leb vleb w f <> [] -> cols_ok k f c = true -> False) ->
    exists e, pivot_frame leb vleb w agg k c = Err e.
  Proof.
    intros H. unfold pivot_frame, get_data_frame. destruct (w_frames w (k_name k)) as [f|]; [|eexists; reflexivity]. cbn [bind g_rows g_cols].
    specialize (H f eq_refl). destruct (get_rows leb vleb w f) as [|r sel]; [eexists; reflexivity|]. specialize (H ltac:(discriminate)).
    unfold cols_ok in H. destruct (k_pivot k) as [p|].
    - destruct (_ && _); [now elim H|eexists; reflexivity].
    - cbn [andb] in H. destruct (has_col c (g_cols f)); [now elim H|eexists; reflexivity].
  Qed.
End P.
