(** Expressions with accessors, and [inspect]. *)
From Coq Require Import List Ascii String ZArith NArith Bool Sorted Lia.
From Verif Require Import Lib.PyStr Lib.PyStrFacts Lib.TotalOrder Model.Power Spec.Power Proofs.PivotP Model.Stats Model.Grammar Spec.Grammar
  Proofs.GrammarP Model.Accessor Spec.Accessor Proofs.AccessorS Proofs.AccessorP Proofs.AccessorQ.
Import ListNotations.
Local Open Scope list_scope.

Section R.
  Context {T V : Type} (leb : T -> T -> bool) (vleb : V -> V -> bool).
  Hypothesis TOT : total_order leb.
  Hypothesis VTOT : total_order vleb.
  Context (w : world T V).
  Hypothesis PR : Proper leb w.
  Context {W : Type} (lib : library T V W).

  Lemma acc_value (tab : table T V) ev c : e_acc (env_of lib tab) ev c =
    match columns tab c with [] => Err EKey | cols => Ok (l_frame lib (t_idx tab, cols)) end.
  Proof.
    cbn [env_of e_acc]. unfold agg_get, select_column, columns. destruct (filter _ (t_cols tab)) as [|kc l]; auto.
  Qed.
  Lemma after_snoc ss s : after leb vleb w lib (ss ++ [s]) = snd (parser_solve leb vleb w lib (after leb vleb w lib ss) s).
  Proof. unfold after. now rewrite fold_left_app. Qed.
  Lemma tried_all h l h' : Tried leb w h l h' -> (h' = h ++ l /\ forall ev c, In (ev, c) l -> Readable leb w h' c) \/
    (exists ev c, In (ev, c) l /\ ~ Readable leb w h' c).
  Proof.
    induction 1 as [h|h ev c l h' R T1 IH|h ev c l N].
    - left. rewrite app_nil_r. split; auto. easy.
    - destruct IH as [[-> H]|(ev' & c' & Hin & N)].
      + left. rewrite <- app_assoc in *. cbn [app] in *. split; auto. intros ev' c' [[= <- <-]|Hin]; eauto. destruct R as (rows & pre & ev0 & post & Eq & Hs & Hn).
        rewrite ?app_assoc in Eq. exists rows, pre, ev0, (post ++ l). split; auto. change (h ++ [(ev, c)] ++ l = pre ++ (ev0, c) :: post ++ l). rewrite app_assoc, Eq, <- app_assoc. reflexivity.
      + right. exists ev', c'. split; auto. now right.
    - right. exists ev, c. split; auto. now left.
  Qed.
  Lemma solve_session ss h e s tail extra : Session leb w ss h -> Text 6 e s -> Ends tail -> accessors tail = Some extra ->
    exists h', Session leb w (ss ++ [s ++ tail]) h' /\
    let tab := after leb vleb w lib (ss ++ [s ++ tail]) in
    let result := fst (parser_solve leb vleb w lib (after leb vleb w lib ss) (s ++ tail)) in
    (h' = h ++ accs e ++ extra /\ (forall ev c, In (ev, c) (accs e ++ extra) -> Readable leb w h' c) /\
     (forall v, value (env_of lib tab) e = Ok v -> result = Ok v) /\ (NoIndex (env_of lib tab) -> agree result (value (env_of lib tab) e))) \/
    (exists ev c x, In (ev, c) (accs e ++ extra) /\ ~ Readable leb w h' c /\ result = Err x).
  Proof.
    intros Hs Ht He Hx. pose proof (session_inv leb vleb TOT VTOT w PR lib ss h Hs) as Hi.
    pose proof (accessors_ok e s tail extra Ht He Hx) as Ha.
    destruct (load_tried leb vleb TOT VTOT w PR h _ (accs e ++ extra) Hi) as (h' & T1 & I1 & F1). exists h'. split; [econstructor; eauto|].
    rewrite after_snoc. unfold parser_solve. rewrite Ha. destruct (load_all leb vleb w (after leb vleb w lib ss) (accs e ++ extra)) as [[u|x] tab'] eqn:El; cbn [fst snd] in *.
    - destruct u. left. destruct (proj1 F1 eq_refl) as [-> R]. split; auto. split; auto. split.
      + intros v Hv. now apply (solve_value _ e).
      + intros N. now apply solve_ok.
    - right. destruct (tried_all _ _ _ T1) as [H|(ev & c & Hin & N)]; [apply F1 in H; discriminate|]. exists ev, c, x. auto.
  Qed.
  Lemma own ss h ev c rows : Session leb w ss h -> w_fill w = true -> In (ev, c) h -> (forall ev', In (ev', c) h -> ev' = ev) -> Source leb w ev c rows ->
    Shows leb (after leb vleb w lib ss) c rows.
  Proof.
    intros Hs Hf Hin Ho Hr. apply (session_shows leb vleb TOT VTOT w PR lib ss h c rows); auto. apply (first_iff leb vleb TOT VTOT w PR).
    apply (source_usable leb vleb TOT VTOT w PR) in Hr. clear Hs. induction h as [|[e0 c0] h IH]; [easy|]. cbn [first_rows]. destruct (eqs c0 c) eqn:E.
    - apply eqs_eq in E as ->. rewrite (Ho e0) by now left. now rewrite Hr.
    - apply IH; [|intros ev' H; apply Ho; now right]. destruct Hin as [[= -> ->]|]; auto. now rewrite eqs_refl in E.
  Qed.
  Lemma chosen_rows f : StronglySorted (lt leb) (map fst (g_rows f)) -> Only (Chosen leb w (g_cols f)) (g_rows f) (get_rows leb vleb w f).
  Proof. now apply get_rows_only. Qed.
  Lemma inspect_ok ev w1 w2 c tail k f sel : Dotted ev -> white w1 -> white w2 -> Name c -> Ends tail ->
    Class w ev k -> w_frames w (k_name k) = Some f -> Only (Chosen leb w (g_cols f)) (g_rows f) sel -> (forall p, k_pivot k = Some p -> In p (g_cols f)) ->
    exists i, inspect leb vleb w ((ev ++ w1 ++ ":"%char :: w2 ++ c) ++ tail) = Ok i /\ i_class i = k /\ i_length i = List.length sel /\ i_column i = c /\
      (i_present i = true <-> In c (g_cols f)) /\
      match k_pivot k with
      | None => i_pivot i = None
      | Some p => exists vals, i_pivot i = Some (p, vals) /\ StronglySorted (lt vleb) vals /\ forall v, In v vals <-> exists r, In r sel /\ gcell p r = Some v
      end.
  Proof.
    intros H1 H2 H3 H4 H5 Hk Hf Ho Hp. unfold inspect.
    destruct (p_acc_ok ev w1 w2 c tail H1 H2 H3 H4) as [-> _]; [apply (ends_stop _ H5)|]. unfold parse_for_info.
    apply class_resolve in Hk. rewrite Hk. cbn [bind]. unfold get_data_frame. rewrite Hf. cbn [bind g_cols g_rows].
    rewrite <- (only_fun _ _ _ Ho _ (chosen_rows f (proj1 PR _ _ Hf))). destruct (k_pivot k) as [p|] eqn:Ek.
    - rewrite (proj2 (has_col_In p (g_cols f))) by now apply Hp. cbn [bind]. eexists. split; [reflexivity|]. cbn [i_class i_length i_column i_present i_pivot].
      split; auto. split; auto. split; auto. split; [apply has_col_In|]. eexists. split; [reflexivity|]. split; [now apply sort_u_sorted|]. intros v. now apply unique_In.
    - cbn [bind]. eexists. split; [reflexivity|]. cbn [i_class i_length i_column i_present i_pivot]. split; auto. split; auto. split; auto. split; [apply has_col_In|auto].
  Qed.
End R.
