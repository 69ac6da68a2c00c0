(** Expressions over added events. *)
From Coq Require Import List Ascii String Bool Arith Sorted Lia.
From Verif Require Import Lib.PyStr Lib.PyStrFacts Lib.Regex Lib.TotalOrder Model.Power Model.Stats Model.Grammar Model.Accessor Model.Bare Model.Added
  Spec.Power Spec.Grammar Spec.Accessor Spec.Bare Spec.Added
  Proofs.BareP Proofs.BareQ Proofs.AccessorS Proofs.AccessorP Proofs.AccessorQ Proofs.AccessorR.
Import ListNotations.
Local Open Scope list_scope.

Lemma only_incl {A} (P : A -> Prop) l l' : Only P l l' -> forall x, In x l' -> In x l.
Proof. induction 1; cbn; intros y; [auto|intros [->|H']; auto|auto]. Qed.
Lemma only_sorted {A B} (P : A -> Prop) (f : A -> B) (R : B -> B -> Prop) l l' : Only P l l' -> StronglySorted R (map f l) -> StronglySorted R (map f l').
Proof.
  induction 1 as [|a l l' Ha H IH|a l l' Ha H IH]; cbn [map]; auto; intros S; inversion S as [|? ? S1 F]; subst; auto. constructor; auto.
  rewrite Forall_forall in *. intros y I. apply F. apply in_map_iff in I as (x & <- & I). apply in_map. now apply (only_incl _ _ _ H).
Qed.

(** ** The first expression of a parser, an accessor of a class without a pivot *)
Section Plain.
  Context {T V W : Type} (leb : T -> T -> bool) (vleb : V -> V -> bool) (TOT : total_order leb) (VTOT : total_order vleb).
  Context (w : world T V) (PR : Proper leb w) (lib : library T V W).
  Lemma first_text ev c s : Text 6 (EAcc ev c) s -> accessors s = Some [(ev, c)].
  Proof.
    intros Ht. assert (E0 : Ends []) by (split; exact Logic.I).
    assert (HA := accessors_ok _ _ [] [] Ht E0 eq_refl). now rewrite !app_nil_r in HA.
  Qed.
  Lemma first_solve ev c s : Text 6 (EAcc ev c) s -> parser_solve leb vleb w lib empty_table s =
    match pre_process leb vleb w empty_table (ev, c) with Ok agg' => (solve (env_of lib agg') s, agg') | Err x => (Err x, empty_table) end.
  Proof. intros Ht. unfold parser_solve. rewrite (first_text _ _ _ Ht). cbn [load_all]. now destruct (pre_process _ _ _ _ _). Qed.
  Lemma plain_solve ev c s k f sel : Text 6 (EAcc ev c) s -> Class w ev k -> k_pivot k = None -> w_frames w (k_name k) = Some f -> In c (g_cols f) ->
    Only (Chosen leb w (g_cols f)) (g_rows f) sel -> sel <> [] -> (forall r, In r sel -> gcell c r <> None) ->
    fst (parser_solve leb vleb w lib empty_table s) = Ok (l_frame lib (map fst sel, [(None, map (gcell c) sel)])).
  Proof.
    intros Ht Hk Hp Hf Hc O Hs Hn.
    set (rows := map (fun r : T * list (str * option V) => (fst r, None : option V, gcell c r)) sel).
    assert (Hsrc : Source leb w ev c rows).
    { exists k, f, sel. rewrite Hp. do 3 (split; [assumption|]). split; [discriminate|]. now split. }
    assert (E0 : Ends []) by (split; exact Logic.I).
    assert (HF : First leb w ([] ++ [(ev, c)]) c rows).
    { exists [], ev, []. split; [reflexivity|]. split; auto. }
    destruct (solve_session leb vleb TOT VTOT w PR lib [] [] (EAcc ev c) s [] [] (Se_nil _ _) Ht E0 eq_refl)
      as (h' & HS & HH). cbv zeta in HH. rewrite !app_nil_r in HH. cbn [app] in HS. rewrite app_nil_r in HS.
    cbn [app accs] in HH.
    set (tab := after leb vleb w lib [s]) in *.
    assert (Hh : h' = [(ev, c)] /\ (forall v, value (env_of lib tab) (EAcc ev c) = Ok v ->
       fst (parser_solve leb vleb w lib (after leb vleb w lib []) s) = Ok v)).
    { destruct HH as [(-> & _ & H & _)|(ev' & c' & x & [[= <- <-]|[]] & N & _)]; [auto|]. exfalso.
      assert (h' = [(ev, c)]) as ->; [|apply N; now exists rows].
      inversion HS as [|ss h0 s0 l h1 HS0 HA HT E1 E2]. apply (app_inj_tail ss [] s0 s) in E1 as [-> ->].
      assert (h0 = []) as -> by (inversion HS0 as [|ss' ? ? ? ? ? ? ? E3]; [reflexivity|now destruct ss']).
      rewrite (first_text _ _ _ Ht) in HA. injection HA as <-.
      inversion HT as [|? ? ? ? ? R1 T1|]; subst; [|reflexivity]. now inversion T1. }
    destruct Hh as [-> Hv]. cbn [app] in HF.
    destruct (session_sketches leb vleb TOT VTOT w PR lib [s] [(ev, c)] c rows HS HF) as [[K0 K1] K2].
    destruct (session_times leb vleb TOT VTOT w PR lib [s] [(ev, c)] HS) as [T1 T2]. fold tab in K0, K1, K2, T1, T2.
    assert (Er : map (fun r => fst (fst r)) rows = map fst sel) by (unfold rows; now rewrite map_map).
    assert (Ei : t_idx tab = map fst sel).
    { apply (sorted_ext leb TOT); auto.
      - apply (only_sorted _ _ _ _ _ O). now apply (proj1 PR (k_name k)).
      - intros t. rewrite T2. split.
        + intros (c' & rows' & kk & v & F & Hin). assert (c' = c /\ rows' = rows) as [-> ->].
          { destruct F as (pre & ev' & post & E & S & _). destruct pre as [|x pre]; [|destruct pre; discriminate E]. injection E as <- <- <-. split; auto.
            apply (source_usable leb vleb TOT VTOT w PR) in S. apply (source_usable leb vleb TOT VTOT w PR) in Hsrc. congruence. }
          rewrite <- Er. now apply (in_map (fun r => fst (fst r))) in Hin.
        + rewrite <- Er. intros Hin. apply in_map_iff in Hin as ([[t' kk] v] & <- & Hin). exists c, rows, kk, v. split; auto. }
    assert (Hcols : columns tab c = [(None, map (gcell c) sel)]).
    { assert (Hk1 : forall x, In x (map fst (columns tab c)) <-> x = None).
      { intros x. rewrite K1. unfold rows. split.
        - intros (t & v & I). apply in_map_iff in I as (r & [= _ <- _] & _). reflexivity.
        - intros ->. destruct sel as [|r sel]; [now elim Hs|]. exists (fst r), (gcell c r). now left. }
      destruct (columns tab c) as [|[k1 cells] l] eqn:Ec.
      - exfalso. now apply (proj2 (Hk1 None)).
      - cbn [map fst] in *. assert (k1 = None) as -> by (apply Hk1; now left).
        destruct l as [|[k2 cells2] l].
        + f_equal. f_equal. specialize (K2 None cells (or_introl eq_refl)). rewrite Ei in K2.
          assert (Hall : forall r, In r sel -> In (fst r, None, gcell c r) rows) by (intros r I; unfold rows; now apply (in_map (fun r => (fst r, None, gcell c r)))).
          clearbody rows. clear - K2 Hn Hall. revert cells K2. induction sel as [|r sel' IH]; intros cells K2; inversion K2 as [|? x ? cells' Hx HF]; subst; [reflexivity|].
          cbn [map]. f_equal.
          * destruct (gcell c r) as [v|] eqn:E; [|now elim (Hn r (or_introl eq_refl))]. apply Hx. rewrite <- E. apply Hall. now left.
          * apply IH; [intros r' I; apply Hn; now right|intros r' I; apply Hall; now right|auto].
        + exfalso. cbn [map fst] in K0. inversion K0 as [|? ? N _]; subst. apply N. left. apply (proj1 (Hk1 k2)). right. now left. }
    apply Hv. cbn [value]. rewrite acc_value, Hcols. now rewrite Ei.
  Qed.
  (** No row is left: a ValueError; a column that is not there: a KeyError. *)
  Lemma plain_fails ev c s k f sel : Text 6 (EAcc ev c) s -> Class w ev k -> k_pivot k = None -> w_frames w (k_name k) = Some f ->
    Only (Chosen leb w (g_cols f)) (g_rows f) sel ->
    (sel = [] -> fst (parser_solve leb vleb w lib empty_table s) = Err EValue) /\
    (sel <> [] -> ~ In c (g_cols f) -> fst (parser_solve leb vleb w lib empty_table s) = Err EKey).
  Proof.
    intros Ht Hk Hp Hf O. rewrite (first_solve _ _ _ Ht).
    assert (Hg : get_rows leb vleb w f = sel).
    { apply (only_fun _ _ _ (get_rows_only leb vleb TOT VTOT w f (proj1 PR _ _ Hf)) _ O). }
    unfold pre_process. cbn [has_column empty_table t_cols existsb]. apply class_resolve in Hk. rewrite Hk. cbn [bind].
    unfold pivot_frame, get_data_frame. rewrite Hf. cbn [bind g_rows g_cols]. rewrite Hg, Hp. split.
    - intros ->. reflexivity.
    - intros Hs N. destruct sel; [now elim Hs|]. destruct (has_col c (g_cols f)) eqn:E; [|reflexivity]. apply AccessorP.has_col_In in E. now apply N in E.
  Qed.
  (** Nothing of the name is known: a ValueError. *)
  Lemma unknown_fails ev c s : Text 6 (EAcc ev c) s -> w_pvars w ev = None -> w_defs w ev = None -> w_attr w ev = Err EKey ->
    fst (parser_solve leb vleb w lib empty_table s) = Err EValue.
  Proof.
    intros Ht H1 H2 H3. rewrite (first_solve _ _ _ Ht). unfold pre_process. cbn [has_column empty_table t_cols existsb]. unfold resolve. now rewrite H1, H2, H3.
  Qed.
End Plain.

(** ** Pivots *)
Section Pivot.
  Context {T : Type} (tsub : T -> T -> T) (tfalse : T -> bool) (methods : list str).
  Notation event := (event).
  Definition same_event (e e' : Bare.event) : Prop := ev_name e = ev_name e' /\ ev_word e = ev_word e' /\ ev_frame e = ev_frame e'.
  Definition alike (tr tr' : trace T) : Prop :=
    tr_dict tr = tr_dict tr' /\ tr_defs tr = tr_defs tr' /\ Forall2 same_event (tr_events tr) (tr_events tr') /\
    tr_base tr = tr_base tr' /\ tr_normalized tr = tr_normalized tr'.
  Lemma alike_refl tr : alike tr tr.
  Proof. unfold alike, same_event. repeat split. induction (tr_events tr); constructor; auto. Qed.
  Lemma same_length es es' : Forall2 same_event es es' -> List.length es = List.length es'.
  Proof. induction 1; cbn; congruence. Qed.
  Lemma alike_getattr tr tr' n : alike tr tr' -> getattr methods tr n = getattr methods tr' n.
  Proof. intros (H1 & H2 & _). unfold getattr, getattr_hook. now rewrite H1, H2. Qed.
  Lemma alike_add tr tr' n f p p' : alike tr tr' ->
    match add_parsed_event methods tr n f p, add_parsed_event methods tr' n f p' with
    | Ok t, Ok t' => alike t t' | Err x, Err x' => x = x' | _, _ => False end.
  Proof.
    intros A. assert (A' := A). unfold add_parsed_event, hasattr. rewrite (alike_getattr _ _ n A). destruct A as (H1 & H2 & H3 & H4 & H5).
    assert (K : alike (Tr (dset eqs n (AEvent (List.length (tr_events tr))) (tr_dict tr)) (dset eqs n (n ++ $":") (tr_defs tr))
        (tr_events tr ++ [Ev n (n ++ $":") f (match p with Some (c :: q) => Some (c :: q) | _ => None end)]) (tr_base tr) (tr_normalized tr))
      (Tr (dset eqs n (AEvent (List.length (tr_events tr'))) (tr_dict tr')) (dset eqs n (n ++ $":") (tr_defs tr'))
        (tr_events tr' ++ [Ev n (n ++ $":") f (match p' with Some (c :: q) => Some (c :: q) | _ => None end)]) (tr_base tr') (tr_normalized tr'))).
    { unfold alike. cbn [tr_dict tr_defs tr_events tr_base tr_normalized]. rewrite H1, H2, H4, H5, (same_length _ _ H3). repeat split.
      apply Forall2_app; auto. constructor; [repeat split|constructor]. }
    destruct (getattr methods tr' n); [reflexivity|exact K|exact K].
  Qed.
  Lemma alike_normalize b es es' : Forall2 same_event es es' -> forall h, normalize_events tsub tfalse b es h = normalize_events tsub tfalse b es' h.
  Proof.
    induction 1 as [|e e' es es' (_ & _ & E) _ IH]; intros h; cbn [normalize_events]; [reflexivity|]. rewrite E.
    destruct (normalize_frame tsub tfalse b (h (ev_frame e'))); cbn [bind]; auto.
  Qed.
  Definition alike_res (r r' : res (trace T * heap T)) : Prop :=
    match r, r' with Ok (t, h), Ok (t', h') => alike t t' /\ h = h' | Err x, Err x' => x = x' | _, _ => False end.
  Lemma alike_step tr tr' h o o' : alike tr tr' -> SameButPivot o o' -> alike_res (Bare.step tsub tfalse methods (tr, h) o) (Bare.step tsub tfalse methods (tr', h) o').
  Proof.
    intros A. destruct o as [n f p|b], o' as [n' f' p'|b']; cbn [SameButPivot]; try intros [].
    - subst. cbn [Bare.step]. assert (K := alike_add tr tr' n' f' p p' A).
      destruct (add_parsed_event methods tr n' f' p), (add_parsed_event methods tr' n' f' p'); try easy. subst e0. destruct e; cbn; auto.
    - cbn [Bare.step]. unfold normalize_time. destruct A as (H1 & H2 & H3 & H4 & H5). rewrite H4, (alike_normalize _ _ _ H3).
      destruct (normalize_events _ _ _ _ h); cbn [bind alike_res]; [|reflexivity]. split; [|reflexivity]. now repeat split.
  Qed.
  Lemma alike_run os os' : Forall2 SameButPivot os os' -> forall tr tr' h, alike tr tr' ->
    alike_res (Bare.run tsub tfalse methods (tr, h) os) (Bare.run tsub tfalse methods (tr', h) os').
  Proof.
    induction 1 as [|o o' os os' Ho _ IH]; intros tr tr' h A; cbn [Bare.run]; [now split|].
    assert (K := alike_step tr tr' h o o' A Ho). unfold alike_res in K.
    destruct (Bare.step tsub tfalse methods (tr, h) o) as [[t1 h1]|x], (Bare.step tsub tfalse methods (tr', h) o') as [[t2 h2]|x']; cbn [bind] in *; try easy.
    destruct K as [K ->]. now apply IH.
  Qed.
  Lemma alike_world tr tr' h pvars attr from to filters fill : alike tr tr' ->
    world_of_trace methods tr h pvars attr from to filters fill = world_of_trace methods tr' h pvars attr from to filters fill.
  Proof.
    intros (H1 & H2 & F & _). assert (E : map ev_frame (tr_events tr) = map ev_frame (tr_events tr')).
    { induction F as [|e e' es es' (_ & _ & E) _ IH]; cbn [map]; congruence. }
    unfold world_of_trace, read_class, read_attr, getattr, getattr_hook. now rewrite H1, H2, E.
  Qed.
End Pivot.

(** ** Frames *)
Section Frames.
  Context {T : Type}.
  Definition row_at (f : frame T) (i : nat) : option (T * list (str * option T)) :=
    option_map (fun t => (t, map (fun c => (fst c, nth_error (snd c) i)) (fr_cols f))) (nth_error (fr_index f) i).
  Lemma rows_nth (f : frame T) i : nth_error (rows_of f) i = row_at f i.
  Proof.
    unfold rows_of, row_at. assert (G : forall (idx : list T) a i, nth_error (map (fun it : nat * T => (snd it, map (fun c => (fst c, nth_error (snd c) (fst it))) (fr_cols f))) (combine (seq a (List.length idx)) idx)) i =
      option_map (fun t => (t, map (fun c => (fst c, nth_error (snd c) (a + i))) (fr_cols f))) (nth_error idx i)).
    { clear i. induction idx as [|t idx IH]; intros a i; cbn; [now destruct i|]. destruct i as [|i]; cbn; [now rewrite Nat.add_0_r|].
      rewrite IH. now replace (S a + i) with (a + S i) by lia. }
    apply G.
  Qed.
  Lemma rows_times (f : frame T) : map fst (rows_of f) = fr_index f.
  Proof.
    unfold rows_of. rewrite map_map. cbn [fst]. generalize 0. induction (fr_index f) as [|t l IH]; intros a; cbn; [reflexivity|]. f_equal. apply IH.
  Qed.
  Lemma cells_dget (cols : list (str * list T)) i c : dget eqs c (map (fun c => (fst c, nth_error (snd c) i)) cols) = option_map (fun vals => nth_error vals i) (dget eqs c cols).
  Proof. induction cols as [|[k vals] cols IH]; cbn; [reflexivity|]. now destruct (eqs c k). Qed.
  Lemma row_cell (f : frame T) i r c vals : row_at f i = Some r -> NoDup (map fst (fr_cols f)) -> In (c, vals) (fr_cols f) -> gcell c r = nth_error vals i.
  Proof.
    unfold row_at. intros E ND I. destruct (nth_error (fr_index f) i); [|discriminate]. injection E as <-. unfold gcell. cbn [snd].
    now rewrite cells_dget, (In_dget eqs eqs_eq _ _ _ ND I).
  Qed.
  Lemma row_full (f : frame T) i r c : Square f -> row_at f i = Some r -> In c (map fst (fr_cols f)) -> gcell c r <> None.
  Proof.
    intros [ND HL] E I. apply in_map_iff in I as ([c' vals] & <- & I). cbn [fst]. rewrite (row_cell _ _ _ _ _ E ND I).
    apply nth_error_Some. rewrite (HL _ _ I). unfold row_at in E. apply nth_error_Some. now destruct (nth_error (fr_index f) i).
  Qed.
  Lemma rows_In (f : frame T) r : In r (rows_of f) -> exists i, row_at f i = Some r.
  Proof. intros I. apply In_nth_error in I as (i & E). exists i. now rewrite <- rows_nth. Qed.

  (** Positions and rows. *)
  Lemma nth_seq_Forall2 {A} (l : list A) : forall a, Forall2 (fun i x => nth_error l (i - a) = Some x) (seq a (List.length l)) l.
  Proof.
    induction l as [|x l IH]; intros a; cbn [List.length seq]; constructor; [now rewrite Nat.sub_diag|].
    assert (H := IH (S a)). assert (G : forall i, In i (seq (S a) (List.length l)) -> i - a = S (i - S a)) by (intros i I; apply in_seq in I; lia).
    revert H G. generalize (seq (S a) (List.length l)). intros s H G.
    assert (K : forall l2, Forall2 (fun i y => nth_error l (i - S a) = Some y) s l2 -> Forall2 (fun i y => nth_error (x :: l) (i - a) = Some y) s l2); [|now apply K].
    clear H. intros l2 H. induction H as [|i y s l2 Hy _ IH2]; constructor; [|apply IH2; intros j I; apply G; now right].
    rewrite (G i (or_introl eq_refl)). exact Hy.
  Qed.
  Lemma positions {A} (l : list A) : Forall2 (fun i x => nth_error l i = Some x) (seq 0 (List.length l)) l.
  Proof.
    assert (H := nth_seq_Forall2 l 0). revert H. generalize (seq 0 (List.length l)). intros s H.
    assert (K : forall l2, Forall2 (fun i y => nth_error l (i - 0) = Some y) s l2 -> Forall2 (fun i y => nth_error l i = Some y) s l2); [|now apply K].
    clear H. intros l2 H. induction H as [|i y s l2 Hy _ IH2]; constructor; auto. now rewrite Nat.sub_0_r in Hy.
  Qed.
  Lemma only_along {A B} (R : A -> B -> Prop) (P : A -> Prop) (Q : B -> Prop) l m sel :
    (forall a b, R a b -> (P a <-> Q b)) -> Forall2 R l m -> Only P l sel -> exists sel', Only Q m sel' /\ Forall2 R sel sel'.
  Proof.
    intros H F. revert sel. induction F as [|a b l m Hr _ IH]; intros sel O; inversion O as [|? ? s Hk O1|? ? s Hk O1]; subst.
    - exists []. split; constructor.
    - destruct (IH _ O1) as (s' & O' & F'). exists (b :: s'). split; [|now constructor]. apply O_keep; auto. now apply (H a b).
    - destruct (IH _ O1) as (s' & O' & F'). exists s'. split; auto. apply O_drop; auto. intros K. apply Hk. now apply (H a b).
  Qed.
End Frames.

(** ** Added events *)
Section History.
  Context {T W : Type} (leb : T -> T -> bool) (TOT : total_order leb) (tsub : T -> T -> T) (tfalse : T -> bool) (methods : list str).
  Context (zero : T) (os : list (op T)) (h h' : heap T) (tr : trace T) (RUN : Bare.run tsub tfalse methods (bare_new zero, h) os = Ok (tr, h')).
  Context (pvars : str -> option kls) (attr : str -> res kls) (from to : option T) (filters : list (str * list T)) (fill : bool).
  Notation w := (world_of_trace methods tr h' pvars attr from to filters fill).
  Lemma adds_first n : Adds os n -> exists f p after, FirstAdd os n f p after.
  Proof.
    intros (f & p & I). clear RUN. induction os as [|o l IH]; [destruct I|].
    assert (D : (exists g q, o = Add n g q) \/ ~ (exists g q, o = Add n g q)).
    { destruct o as [m g q|b]; [|right; intros (? & ? & E); discriminate E].
      destruct (list_eq_dec ascii_dec m n) as [->|N]; [left; eauto|right; intros (? & ? & E); now injection E as -> _ _]. }
    destruct D as [(g & q & ->)|N].
    - exists g, q, l, []. split; [reflexivity|]. intros ? ? [].
    - destruct I as [E|I]; [exfalso; apply N; eauto|]. destruct (IH I) as (g & q & af & be & -> & Hb). exists g, q, af, (o :: be). split; [reflexivity|].
      intros g' q' [E|I']; [apply N; eauto|now apply (Hb g' q')].
  Qed.
  Lemma defs_iff n : dmem eqs n (tr_defs tr) = true <-> Adds os n /\ ~ Builtin methods n.
  Proof.
    assert (F := filters_in tsub tfalse methods zero os h tr h' (RLit []) n RUN).
    assert (L : Listed (RLit []) n) by (apply listed_lit; now exists [], n).
    assert (G : In n (get_filters (RLit []) tr) <-> In n (map fst (tr_defs tr))).
    { unfold get_filters. rewrite filter_In, search_listed. tauto. }
    assert (D : dmem eqs n (tr_defs tr) = true <-> In n (map fst (tr_defs tr))).
    { unfold dmem. destruct (dget eqs n (tr_defs tr)) as [x|] eqn:E; (split; [|try reflexivity]).
      - intros _. apply (dget_In eqs eqs_eq) in E. now apply (in_map fst) in E.
      - discriminate.
      - intros I. apply (dget_None eqs eqs_eq) in E. now apply E in I. }
    rewrite D, <- G, F. tauto.
  Qed.
  Lemma read_first n f p after : ~ Builtin methods n -> FirstAdd os n f p after -> read_attr methods tr h' n = Some (frame_read (h' f)).
  Proof.
    intros Hb F. destruct (history_first tsub tfalse methods zero os h tr h' n f p after RUN Hb F) as (i & e & Eg & Ei & _ & Ef & _).
    unfold read_attr. rewrite Eg, (map_nth_error ev_frame _ _ Ei). cbn [option_map]. now rewrite Ef.
  Qed.
  Lemma builtin_dec n : Builtin methods n \/ ~ Builtin methods n.
  Proof.
    unfold Builtin. destruct (in_dec (list_eq_dec ascii_dec) n methods); [tauto|]. destruct (in_dec (list_eq_dec ascii_dec) n own_attrs); tauto.
  Qed.
  Lemma adds_dec n : Adds os n \/ ~ Adds os n.
  Proof.
    clear RUN. induction os as [|o l [(f & p & I)|N]]; [right; intros (? & ? & [])|left; exists f, p; now right|].
    destruct o as [m g q|b]; [|right; intros (f & p & [E|I]); [discriminate E|apply N; now exists f, p]].
    destruct (list_eq_dec ascii_dec m n) as [->|Nm]; [left; exists g, q; now left|right; intros (f & p & [E|I]); [injection E as -> _ _; now elim Nm|apply N; now exists f, p]].
  Qed.
  Lemma read_only n g : read_attr methods tr h' n = Some g -> exists f p after, ~ Builtin methods n /\ FirstAdd os n f p after /\ g = frame_read (h' f).
  Proof.
    intros E. destruct (builtin_dec n) as [B|B].
    - unfold read_attr in E. rewrite (history_builtin tsub tfalse methods zero os h tr h' n RUN B) in E. discriminate.
    - destruct (adds_dec n) as [A|A].
      + destruct (adds_first n A) as (f & p & af & F). exists f, p, af. split; auto. split; auto. rewrite (read_first _ _ _ _ B F) in E. now injection E as <-.
      + unfold read_attr in E. destruct (getattr methods tr n) as [a| |] eqn:G; try discriminate. now apply (history_none tsub tfalse methods zero os h tr h' n RUN B A) in G.
  Qed.
  Hypothesis WHOLE : forall n f p after, FirstAdd os n f p after -> ~ Builtin methods n -> Square (h' f) /\ StronglySorted (lt leb) (fr_index (h' f)).
  Lemma trace_proper : Proper leb w.
  Proof.
    split.
    - intros n g E. cbn [world_of_trace w_frames] in E. apply read_only in E as (f & p & af & B & F & ->). cbn [frame_read g_rows]. rewrite rows_times.
      now apply (WHOLE _ _ _ _ F).
    - intros ev k g p r _ E _ Hc Hr. cbn [world_of_trace w_frames] in E. apply read_only in E as (f & q & af & B & F & ->).
      cbn [frame_read g_rows g_cols] in *. apply rows_In in Hr as (i & Hr). apply (row_full (h' f) i); auto. now apply (WHOLE _ _ _ _ F).
  Qed.
  Lemma trace_class n f p after : FirstAdd os n f p after -> ~ Builtin methods n -> pvars n = None -> Class w n (Kls n None).
  Proof.
    intros (be & E & _) B Hp. right. split; [exact Hp|]. left. cbn [world_of_trace w_defs]. unfold read_class.
    rewrite (proj2 (defs_iff n)); [reflexivity|]. split; auto. exists f, p. rewrite E. apply in_app_iff. right. now left.
  Qed.
  Lemma inside_chosen (f : frame T) i r : Square f -> row_at f i = Some r -> (Inside leb from to filters (fr_index f) (fr_cols f) i <-> Chosen leb w (map fst (fr_cols f)) r).
  Proof.
    intros [ND HL] E. assert (E' := E). unfold row_at in E'. destruct (nth_error (fr_index f) i) as [t|] eqn:Et; [|discriminate]. injection E' as Er.
    assert (Ef : fst r = t) by now rewrite <- Er.
    unfold Chosen. cbn [world_of_trace w_from w_to w_filters]. rewrite Ef. split.
    - intros (t' & E1 & A & B & C). rewrite Et in E1. injection E1 as <-. split; auto. split; auto. intros c wanted I Ic. apply in_map_iff in Ic as ([c' vals] & Ec & Ic). cbn [fst] in Ec. subst c'.
      destruct (C _ _ _ I Ic) as (v & Hv & Hw). exists v. split; auto. now rewrite (row_cell _ _ _ _ _ E ND Ic).
    - intros (A & B & C). exists t. split; auto. split; auto. split; auto. intros c wanted vals I Ic.
      destruct (C _ _ I (in_map fst _ _ Ic)) as (v & Hv & Hw). exists v. split; auto. now rewrite (row_cell _ _ _ _ _ E ND Ic) in Hv.
  Qed.
  Lemma positions_rows (f : frame T) sel : Square f -> Only (Inside leb from to filters (fr_index f) (fr_cols f)) (seq 0 (List.length (fr_index f))) sel ->
    exists rs, Only (Chosen leb w (map fst (fr_cols f))) (rows_of f) rs /\ Forall2 (fun i r => row_at f i = Some r) sel rs.
  Proof.
    intros Sq O. apply (only_along (fun i r => row_at f i = Some r) (Inside leb from to filters (fr_index f) (fr_cols f)) _ (seq 0 (List.length (fr_index f)))); auto.
    - intros i r E. now apply inside_chosen.
    - assert (P := positions (rows_of f)). rewrite <- (rows_times f), map_length. revert P. generalize (seq 0 (List.length (rows_of f))).
      intros s P. assert (K : forall l, Forall2 (fun i x => nth_error (rows_of f) i = Some x) s l -> Forall2 (fun i r => row_at f i = Some r) s l); [|now apply K].
      clear P. intros l P. induction P; constructor; auto. now rewrite <- rows_nth.
  Qed.
  Context (lib : library T T W).
  Lemma added_solve n f p after c vals sel s : FirstAdd os n f p after -> ~ Builtin methods n -> pvars n = None -> Text 6 (EAcc n c) s ->
    In (c, vals) (fr_cols (h' f)) -> Only (Inside leb from to filters (fr_index (h' f)) (fr_cols (h' f))) (seq 0 (List.length (fr_index (h' f)))) sel -> sel <> [] ->
    exists times cells, fst (parser_solve leb leb w lib empty_table s) = Ok (l_frame lib (times, [(None, map Some cells)])) /\
      Forall2 (fun i t => nth_error (fr_index (h' f)) i = Some t) sel times /\ Forall2 (fun i v => nth_error vals i = Some v) sel cells.
  Proof.
    intros F B Hp Ht Ic O Hs. destruct (WHOLE _ _ _ _ F B) as [Sq So]. destruct (positions_rows _ _ Sq O) as (rs & O' & R).
    assert (HX : forall i r, row_at (h' f) i = Some r -> nth_error (fr_index (h' f)) i = Some (fst r) /\ exists v, nth_error vals i = Some v /\ gcell c r = Some v).
    { intros i r E. split.
      - unfold row_at in E. destruct (nth_error _ i); [|discriminate]. now injection E as <-.
      - assert (N := row_full _ _ _ c Sq E (in_map fst _ _ Ic)). rewrite (row_cell _ _ _ _ _ E (proj1 Sq) Ic) in *. destruct (nth_error vals i) as [v|]; [|now elim N]. now exists v. }
    assert (HC : exists cells, map (gcell c) rs = map Some cells /\ Forall2 (fun i v => nth_error vals i = Some v) sel cells).
    { clear - R HX. induction R as [|i r sel rs E _ (cells & IH1 & IH2)]; [exists []; split; constructor|].
      destruct (HX _ _ E) as (_ & v & E1 & E2). exists (v :: cells). cbn [map]. rewrite E2, IH1. split; [reflexivity|now constructor]. }
    destruct HC as (cells & HC1 & HC2). exists (map fst rs), cells. split; [|split; auto].
    - rewrite <- HC1. apply (plain_solve leb leb TOT TOT w trace_proper lib n c s (Kls n None) (frame_read (h' f))); auto.
      + now apply (trace_class n f p after).
      + cbn [world_of_trace w_frames k_name]. now apply (read_first n f p after).
      + cbn [frame_read g_cols]. exact (in_map fst _ _ Ic).
      + destruct R; [now elim Hs|discriminate].
      + intros r I N. clear - R I HX N. induction R as [|i r' sel rs E _ IH]; [destruct I|]. destruct I as [->|I]; auto. destruct (HX _ _ E) as (_ & v & _ & E2). congruence.
    - clear - R HX. induction R as [|i r sel rs E _ IH]; cbn [map]; constructor; auto. now apply HX.
  Qed.
  Lemma added_fails n f p after c sel s : FirstAdd os n f p after -> ~ Builtin methods n -> pvars n = None -> Text 6 (EAcc n c) s ->
    Only (Inside leb from to filters (fr_index (h' f)) (fr_cols (h' f))) (seq 0 (List.length (fr_index (h' f)))) sel ->
    (sel = [] -> fst (parser_solve leb leb w lib empty_table s) = Err EValue) /\
    (sel <> [] -> ~ In c (map fst (fr_cols (h' f))) -> fst (parser_solve leb leb w lib empty_table s) = Err EKey).
  Proof.
    intros F B Hp Ht O. destruct (WHOLE _ _ _ _ F B) as [Sq So]. destruct (positions_rows _ _ Sq O) as (rs & O' & R).
    destruct (plain_fails leb leb TOT TOT w trace_proper lib n c s (Kls n None) (frame_read (h' f)) rs Ht) as [H1 H2]; auto.
    - now apply (trace_class n f p after).
    - cbn [world_of_trace w_frames k_name]. now apply (read_first n f p after).
    - split; [intros ->; apply H1; now inversion R|]. intros Hs. apply H2. destruct R; [now elim Hs|discriminate].
  Qed.
  Lemma not_added n c s : ~ Adds os n \/ Builtin methods n -> pvars n = None -> attr n = Err EKey -> Text 6 (EAcc n c) s ->
    fst (parser_solve leb leb w lib empty_table s) = Err EValue.
  Proof.
    intros H Hp Ha Ht. apply (unknown_fails leb leb w lib n c s Ht); auto. cbn [world_of_trace w_defs]. unfold read_class.
    destruct (dmem eqs n (tr_defs tr)) eqn:E; [|reflexivity]. apply defs_iff in E. tauto.
  Qed.
End History.

(** ** From the program to the result *)
Section Program.
  Context {T W : Type} (leb : T -> T -> bool) (TOT : total_order leb) (tsub : T -> T -> T) (tfalse : T -> bool) (methods : list str).
  Hypothesis MONO : forall a b x, lt leb a b -> lt leb (tsub a x) (tsub b x).
  Lemma shift_mono bs : forall a b, lt leb a b -> lt leb (shift tsub tfalse a bs) (shift tsub tfalse b bs).
  Proof. unfold shift. induction (filter _ bs) as [|x l IH]; intros a b H; cbn [fold_left]; auto. Qed.
  Lemma shift_sorted bs l : StronglySorted (lt leb) l -> StronglySorted (lt leb) (map (fun t => shift tsub tfalse t bs) l).
  Proof.
    induction 1 as [|a l _ IH F]; cbn [map]; constructor; auto. rewrite Forall_forall in *. intros y I. apply in_map_iff in I as (x & <- & I). apply shift_mono. auto.
  Qed.
  Lemma program_solve (zero : T) (h : heap T) (os : list (op T)) : OwnFrames os ->
    (forall n f p, In (Add n f p) os -> Timed (h f) /\ Square (h f) /\ StronglySorted (lt leb) (fr_index (h f))) ->
    exists tr h', Bare.run tsub tfalse methods (bare_new zero, h) os = Ok (tr, h') /\
    forall n f p before after, os = before ++ Add n f p :: after -> (forall g q, ~ In (Add n g q) before) -> ~ Builtin methods n ->
    forall pvars attr from to filters fill, pvars n = None -> forall c vals s, Text 6 (EAcc n c) s -> In (c, vals) (fr_cols (h f)) ->
    let times := map (fun t => shift tsub tfalse t (offsets (in_force zero before) after)) (fr_index (h f)) in
    forall sel, Only (Inside leb from to filters times (fr_cols (h f))) (seq 0 (List.length times)) sel -> sel <> [] ->
    forall (lib : library T T W), exists ts cells,
      fst (parser_solve leb leb (world_of_trace methods tr h' pvars attr from to filters fill) lib empty_table s) = Ok (l_frame lib (ts, [(None, map Some cells)])) /\
      Forall2 (fun i t => nth_error times i = Some t) sel ts /\ Forall2 (fun i v => nth_error vals i = Some v) sel cells.
  Proof.
    intros OWN HF. destruct (frames_ok tsub tfalse methods zero h os OWN (fun n f p I => proj1 (HF n f p I))) as (tr & h' & RUN & K & _).
    exists tr, h'. split; [exact RUN|].
    assert (G : forall n f p before after, os = before ++ Add n f p :: after -> (forall g q, ~ In (Add n g q) before) -> ~ Builtin methods n ->
      fr_cols (h' f) = fr_cols (h f) /\ (fr_index (h' f) = fr_index (h f) /\ (fr_index (h f) = [] \/ fr_cols (h f) = []) \/
        fr_index (h' f) = map (fun t => shift tsub tfalse t (offsets (in_force zero before) after)) (fr_index (h f)))).
    { intros n f p before after E1 E2 B. destruct (K n f p before after E1 E2 B) as (_ & K1 & K2 & K3). split; auto.
      destruct (fr_cols (h f)) as [|x l]; [left; split; [now rewrite K2 by auto|now right]|right; now apply K3]. }
    assert (WHOLE : forall n f p after, FirstAdd os n f p after -> ~ Builtin methods n -> Square (h' f) /\ StronglySorted (lt leb) (fr_index (h' f))).
    { intros n f p after (before & E1 & E2) B. destruct (G n f p before after E1 E2 B) as [Gc Gi].
      destruct (HF n f p) as (_ & [S1 S2] & S3); [rewrite E1; apply in_app_iff; right; now left|].
      assert (L : List.length (fr_index (h' f)) = List.length (fr_index (h f))) by (destruct Gi as [[-> _]| ->]; [auto|apply map_length]).
      split; [split; rewrite Gc; auto; intros c vals I; rewrite L; now apply (S2 c)|]. destruct Gi as [[-> _]| ->]; auto. now apply shift_sorted. }
    intros n f p before after E1 E2 B pvars attr from to filters fill Hp c vals s Ht Ic times sel O Hs lib.
    assert (F : FirstAdd os n f p after) by (exists before; auto).
    destruct (G n f p before after E1 E2 B) as [Gc Gi].
    assert (Ei : fr_index (h' f) = times).
    { destruct Gi as [[Gi [Ge|Ge]]|Gi]; auto; [|rewrite Ge in Ic; destruct Ic]. rewrite Gi, Ge. unfold times. now rewrite Ge. }
    rewrite <- Ei, <- Gc in O. rewrite <- Gc in Ic.
    destruct (added_solve leb TOT tsub tfalse methods zero os h h' tr RUN pvars attr from to filters fill WHOLE lib n f p after c vals sel s F B Hp Ht Ic O Hs) as (ts & cells & R1 & R2 & R3).
    exists ts, cells. rewrite <- Ei. auto.
  Qed.
End Program.
