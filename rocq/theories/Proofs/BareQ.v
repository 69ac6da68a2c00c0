(** A trace as an object: histories, frames, construction. *)
From Coq Require Import List Ascii String Bool Arith Lia.
From Verif Require Import Lib.PyStr Lib.PyStrFacts Lib.Regex Lib.RegexFacts Lib.SearchFacts Model.Bare Spec.Bare Proofs.BareP.
Import ListNotations.
Local Open Scope list_scope.

Section Bare.
  Context {T : Type} (tsub : T -> T -> T) (tfalse : T -> bool) (methods : list str).
  Implicit Types (tr : trace T) (os : list (op T)) (h : heap T).
  Notation run := (run tsub tfalse methods).
  Notation step := (step tsub tfalse methods).
  Notation getattr := (getattr methods).

  Lemma run_inv zero os : forall h tr h', run (bare_new zero, h) os = Ok (tr, h') -> Inv methods zero os tr.
  Proof.
    induction os as [|o os IH] using rev_ind; intros h tr h' H.
    - injection H as <- <-. apply inv_new.
    - rewrite run_app in H. destruct (run _ os) as [(t1, h1)|] eqn:E; [|discriminate]. cbn [bind Bare.run] in H.
      destruct (step (t1, h1) o) as [(t2, h2)|] eqn:E2; [|discriminate]. cbn in H. injection H as <- <-.
      eapply inv_step; eauto.
  Qed.

  Lemma pivot_iff p q : pivot_of p = Some q <-> p = Some q /\ q <> [].
  Proof.
    destruct p as [[|c p]|]; cbn; split; try discriminate.
    - intros (H & Hq). injection H as <-. congruence.
    - intros H. injection H as <-. split; auto. discriminate.
    - now intros (H & _).
    - now intros (H & _).
  Qed.
  Lemma add_same tr n f p tr' : add_parsed_event methods tr n f p = Ok tr' ->
    getattr tr' n = Found (AEvent (List.length (tr_events tr))) /\
    (exists e, tr_events tr' = tr_events tr ++ [e] /\ ev_name e = n /\ ev_word e = n ++ $":" /\ ev_frame e = f /\
       (forall q, ev_pivot e = Some q <-> p = Some q /\ q <> [])) /\
    (forall m a, m <> n -> getattr tr m = Found a <-> getattr tr' m = Found a) /\
    tr_base tr' = tr_base tr /\ tr_normalized tr' = tr_normalized tr.
  Proof.
    unfold add_parsed_event. destruct (hasattr methods tr n) eqn:E; [discriminate|]. intros H. injection H as <-.
    split; [|split; [|split; [|split; reflexivity]]].
    - unfold Bare.getattr. cbn [tr_dict]. now rewrite (dget_dset eqs eqs_eq), eqs_refl.
    - eexists. split; [reflexivity|]. split; [reflexivity|]. split; [reflexivity|]. split; [reflexivity|]. exact (pivot_iff p).
    - intros m a Hm. unfold Bare.getattr. cbn [tr_dict]. rewrite (dget_dset eqs eqs_eq). apply eqs_neq in Hm. rewrite Hm.
      destruct (dget eqs m (tr_dict tr)); [tauto|]. destruct (mem m methods); [tauto|].
      unfold getattr_hook. destruct (dunder m); [tauto|].
      destruct (deprecated m _), (deprecated m _); split; discriminate.
  Qed.

  (** The first event of a name stays. *)
  Lemma history_first zero os h tr h' n f p after : run (bare_new zero, h) os = Ok (tr, h') -> ~ Builtin methods n ->
    FirstAdd os n f p after ->
    exists i e, getattr tr n = Found (AEvent i) /\ nth_error (tr_events tr) i = Some e /\ ev_name e = n /\ ev_frame e = f /\
      (forall q, ev_pivot e = Some q <-> p = Some q /\ q <> []).
  Proof.
    intros R Hb F. apply run_inv in R as I. destruct (inv_all _ _ _ _ I n Hb (first_adds _ _ _ _ _ F)) as (e & He & En).
    destruct (In_nth_error _ _ He) as (i & Hi). exists i, e. destruct (inv_at _ _ _ _ I _ _ Hi) as (Hd & _).
    destruct (inv_first _ _ _ _ I _ He) as (p' & a' & F' & Ee). rewrite En in F'.
    destruct (first_unique _ _ _ _ _ _ _ _ F F') as (Ef & Ep & _). subst p' n.
    split; [unfold Bare.getattr; now rewrite Hd|]. split; auto. split; auto. split; auto. rewrite Ee. exact (pivot_iff p).
  Qed.
  Lemma history_none zero os h tr h' n : run (bare_new zero, h) os = Ok (tr, h') -> ~ Builtin methods n -> ~ Adds os n ->
    forall a, getattr tr n <> Found a.
  Proof.
    intros R Hb Ha a E. apply run_inv in R as I.
    assert (Hh : hasattr methods tr n = true) by (unfold hasattr; now rewrite E).
    apply hasattr_iff in Hh. rewrite (inv_dict_iff _ _ _ _ I) in Hh. unfold Builtin in Hb.
    destruct Hh as [[Hh|(e & Hh & <-)]|Hh]; try tauto.
    apply (inv_first _ _ _ _ I) in Hh as (p & af & F & _). apply Ha. eapply first_adds; eauto.
  Qed.
  Lemma history_builtin zero os h tr h' n : run (bare_new zero, h) os = Ok (tr, h') -> Builtin methods n -> getattr tr n = Found AOther.
  Proof.
    intros R Hb. apply run_inv in R as I. unfold Bare.getattr.
    destruct (dget eqs n (tr_dict tr)) as [x|] eqn:E.
    - destruct (inv_only _ _ _ _ I _ _ E) as [H|(e & He & <-)].
      + apply (inv_own _ _ _ _ I) in H. congruence.
      + apply In_nth_error in He as (i & He). apply (inv_at _ _ _ _ I) in He as (_ & He). contradiction.
    - destruct Hb as [Hb|Hb].
      + apply mem_In in Hb. now rewrite Hb.
      + apply (inv_own _ _ _ _ I) in Hb. congruence.
  Qed.

  (** Filters. *)
  Lemma search_listed key n : (match re_search key n with Some _ => true | None => false end) = true <-> Listed key n.
  Proof.
    unfold re_search, Listed. destruct (search_from key [] None n) as [m|] eqn:E; split; try discriminate; auto.
    - intros _. apply search_inv in E as (a & b & s' & -> & Hm & _). now exists a, b, s'.
    - intros (a & b & s' & E' & Hm). exfalso. eapply (search_from_None _ _ _ _ E a b E'); eauto.
  Qed.
  Lemma listed_lit key n : Listed (RLit key) n <-> Within key n.
  Proof.
    unfold Listed, Within. split.
    - intros (a & b & s' & -> & H). apply mat_lit in H as (H & _). cbn in H. subst b. now exists a, (s_rest s').
    - intros (a & b & ->). exists a, (key ++ b), (adv (St (last_or None a) (key ++ b) []) key b). split; auto.
      assert (H : mt (RLit key) (St (last_or None a) (key ++ b) []) (fun s' => Some s') = Some (adv (St (last_or None a) (key ++ b) []) key b))
        by now apply lit_step.
      apply mt_sound in H as (s1 & Hm & H). injection H as <-. exact Hm.
  Qed.
  Lemma filters_in zero os h tr h' key n : run (bare_new zero, h) os = Ok (tr, h') ->
    In n (get_filters key tr) <-> Adds os n /\ ~ Builtin methods n /\ Listed key n.
  Proof.
    intros R. apply run_inv in R as I. unfold get_filters. rewrite filter_In, search_listed, (inv_defs _ _ _ _ I), map_map. cbn [fst].
    rewrite in_map_iff. split.
    - intros ((e & <- & He) & Hl). apply In_nth_error in He as (i & Hi). destruct (inv_at _ _ _ _ I _ _ Hi) as (_ & Hb).
      apply nth_error_In in Hi. apply (inv_first _ _ _ _ I) in Hi as (p & a & F & _). split; auto. eapply first_adds; eauto.
    - intros (Ha & Hb & Hl). split; auto. apply (inv_all _ _ _ _ I) in Ha as (e & He & En); auto. now exists e.
  Qed.
  Lemma filters_nodup zero os h tr h' key : run (bare_new zero, h) os = Ok (tr, h') -> NoDup (get_filters key tr).
  Proof.
    intros R. apply run_inv in R as I. unfold get_filters. apply NoDup_filter. rewrite (inv_defs _ _ _ _ I), map_map. apply I.
  Qed.
  Lemma step_grows s o s' : step s o = Ok s' -> exists l, tr_defs (fst s') = tr_defs (fst s) ++ l \/ (exists n, dget eqs n (tr_defs (fst s)) <> None /\ hasattr methods (fst s) n = false).
  Proof.
    destruct s as (tr, h). destruct o as [n f p|b]; cbn [Bare.step fst].
    - unfold add_parsed_event. destruct (hasattr methods tr n) eqn:E.
      + intros H. injection H as <-. exists []. left. cbn. now rewrite app_nil_r.
      + intros H. injection H as <-. cbn [fst tr_defs]. destruct (dget eqs n (tr_defs tr)) eqn:D.
        * exists []. right. exists n. rewrite D. split; [discriminate|auto].
        * exists [(n, n ++ $":")]. left. now rewrite (dset_new eqs).
    - unfold normalize_time. destruct (normalize_events _ _ _ _ _); [|discriminate]. cbn. intros H. injection H as <-.
      exists []. left. cbn. now rewrite app_nil_r.
  Qed.
  Lemma filters_order zero os1 os2 h tr1 h1 tr2 h2 key : run (bare_new zero, h) os1 = Ok (tr1, h1) -> run (bare_new zero, h) (os1 ++ os2) = Ok (tr2, h2) ->
    exists l, get_filters key tr2 = get_filters key tr1 ++ l.
  Proof.
    intros R1. revert tr2 h2. induction os2 as [|o os2 IH] using rev_ind; intros tr2 h2 R2.
    - rewrite app_nil_r, R1 in R2. injection R2 as <- <-. exists []. now rewrite app_nil_r.
    - rewrite app_assoc, run_app in R2. destruct (run _ (os1 ++ os2)) as [(t, hh)|] eqn:E; [|discriminate]. cbn [bind Bare.run] in R2.
      destruct (step (t, hh) o) as [(t', hh')|] eqn:E2; [|discriminate]. cbn in R2. injection R2 as <- <-.
      destruct (IH _ _ eq_refl) as (l & El). apply run_inv in E as I.
      destruct (step_grows _ _ _ E2) as (l' & [Hl|(n & Hn & Hf)]); cbn [fst] in *.
      + exists (l ++ filter (fun n => match re_search key n with Some _ => true | None => false end) (map fst l')).
        unfold get_filters in *. rewrite Hl, map_app, filter_app, El, app_assoc. reflexivity.
      + exfalso. destruct (dget eqs n (tr_defs t)) as [w|] eqn:D; [|congruence]. apply (dget_In eqs eqs_eq) in D.
        rewrite (inv_defs _ _ _ _ I) in D. apply in_map_iff in D as (e & H1 & H2). injection H1 as H1 _.
        assert (Hh : hasattr methods t n = true).
        { apply hasattr_iff. left. apply (inv_dict_iff _ _ _ _ I). right. now exists e. }
        congruence.
  Qed.

  (** Frames. *)
  Definition nf (b : T) (f : frame T) : frame T :=
    if tfalse b || df_empty f then f else Frame (fr_name f) (map (fun t => tsub t b) (fr_index f)) (fr_cols f).
  Lemma ddel_none {V} k (d : list (str * V)) : ~ In k (map fst d) -> ddel eqs k d = d.
  Proof.
    unfold ddel. induction d as [|(a, v) d IH]; intros H; [reflexivity|]. cbn [filter fst].
    destruct (eqs k a) eqn:E.
    - apply eqs_eq in E. exfalso. apply H. now left.
    - cbn [negb]. f_equal. apply IH. intros Hi. apply H. now right.
  Qed.
  Lemma nf_ok b f : Timed f -> normalize_frame tsub tfalse b f = Ok (nf b f).
  Proof.
    intros (Hn & Hc). unfold normalize_frame, nf. destruct (tfalse b), (df_empty f); cbn [negb andb orb]; auto.
    unfold reset_name. rewrite Hn. destruct (mem $"Time" (map fst (fr_cols f))) eqn:M.
    { apply mem_In in M. contradiction. }
    cbn [dget]. rewrite eqs_refl. do 2 f_equal.
    change ((($"Time", fr_index f) :: fr_cols f)) with ([($"Time", fr_index f)] ++ fr_cols f).
    unfold ddel. rewrite filter_app. cbn [filter fst]. rewrite eqs_refl. cbn [negb app]. now apply ddel_none.
  Qed.
  Lemma nf_timed b f : Timed f -> Timed (nf b f).
  Proof. unfold nf, Timed. destruct (tfalse b || df_empty f); auto. Qed.
  Lemma nf_empty b f : df_empty (nf b f) = df_empty f.
  Proof. unfold nf. destruct (tfalse b || df_empty f) eqn:E; auto. unfold df_empty. cbn. destruct (fr_index f); auto. Qed.

  Lemma norm_ok b : forall (es : list event) h, NoDup (map ev_frame es) -> (forall e, In e es -> Timed (h (ev_frame e))) ->
    exists h', normalize_events tsub tfalse b es h = Ok h' /\ (forall e, In e es -> h' (ev_frame e) = nf b (h (ev_frame e))) /\
      (forall a, ~ In a (map ev_frame es) -> h' a = h a).
  Proof.
    induction es as [|e es IH]; intros h N H; [exists h; cbn; repeat split; auto; intros e He; destruct He|].
    inversion N as [|x l N1 N2]; subst. cbn [normalize_events]. rewrite nf_ok by (apply H; now left). cbn [bind].
    destruct (IH (hset h (ev_frame e) (nf b (h (ev_frame e))))) as (h' & E & H1 & H2); auto.
    { intros e' He'. unfold hset. destruct (ev_frame e' =? ev_frame e); [apply nf_timed|]; apply H; [now left|now right]. }
    exists h'. split; auto. split.
    - intros e' [<-|He'].
      + rewrite H2 by auto. unfold hset. now rewrite Nat.eqb_refl.
      + rewrite H1 by auto. unfold hset. destruct (ev_frame e' =? ev_frame e) eqn:Ef; auto.
        apply Nat.eqb_eq in Ef. exfalso. apply N1. rewrite <- Ef. now apply in_map.
    - intros a Ha. rewrite H2 by (intros Hi; apply Ha; now right). unfold hset. destruct (a =? ev_frame e) eqn:Ef; auto.
      apply Nat.eqb_eq in Ef. exfalso. apply Ha. now left.
  Qed.

  Definition nfs (bs : list T) (f : frame T) : frame T := fold_left (fun f b => nf b f) bs f.
  Lemma nfs_spec bs : forall f, fr_name (nfs bs f) = fr_name f /\ fr_cols (nfs bs f) = fr_cols f /\
    (df_empty f = true -> nfs bs f = f) /\ (df_empty f = false -> fr_index (nfs bs f) = map (fun t => shift tsub tfalse t bs) (fr_index f)).
  Proof.
    induction bs as [|b bs IH]; intros f.
    - cbn. repeat split; auto. intros _. unfold shift. cbn. now rewrite map_id.
    - cbn [nfs fold_left]. destruct (IH (nf b f)) as (H1 & H2 & H3 & H4). rewrite nf_empty in *. fold (nfs bs (nf b f)).
      rewrite H1, H2. unfold shift in *. cbn [filter]. unfold nf in *. destruct (tfalse b) eqn:Eb; cbn [orb negb] in *.
      + repeat split; auto.
      + destruct (df_empty f) eqn:Ef; cbn [fr_name fr_cols fr_index] in *; repeat split; auto; intros; try discriminate.
        rewrite H4, map_map by auto. reflexivity.
  Qed.

  Lemma own_app os1 os2 : OwnFrames (os1 ++ os2) -> OwnFrames os1.
  Proof.
    intros H i j n m f p q Hi Hj. apply (H i j n m f p q); rewrite nth_error_app1; auto; apply nth_error_Some; congruence.
  Qed.
  Lemma own_in os n m f p q : OwnFrames os -> In (Add n f p) os -> In (Add m f q) os -> n = m.
  Proof.
    intros H Hi Hj. apply In_nth_error in Hi as (i & Hi). apply In_nth_error in Hj as (j & Hj).
    assert (i = j) by (eapply H; eauto). subst j. congruence.
  Qed.

  Lemma frames_run zero h : forall os, OwnFrames os -> (forall n f p, In (Add n f p) os -> Timed (h f)) ->
    exists tr h', run (bare_new zero, h) os = Ok (tr, h') /\
      (forall e p after, In e (tr_events tr) -> FirstAdd os (ev_name e) (ev_frame e) p after -> forall before, os = before ++ Add (ev_name e) (ev_frame e) p :: after ->
         h' (ev_frame e) = nfs (offsets (in_force zero before) after) (h (ev_frame e))) /\
      (forall a, ~ In a (map ev_frame (tr_events tr)) -> h' a = h a).
  Proof.
    induction os as [|o os IH] using rev_ind; intros Ho Ht.
    - exists (bare_new zero), h. cbn. repeat split; auto. intros e p a He. destruct He.
    - destruct IH as (tr & h1 & R & H1 & H2).
      { eapply own_app; eauto. }
      { intros n f p Hi. apply (Ht n f p). apply in_or_app. now left. }
      pose proof (run_inv _ _ _ _ _ R) as I.
      assert (Fe : forall e, In e (tr_events tr) -> exists p after, FirstAdd os (ev_name e) (ev_frame e) p after)
        by (intros e He; apply (inv_first _ _ _ _ I) in He as (p & a & F & _); now exists p, a).
      assert (Te : forall e, In e (tr_events tr) -> Timed (h1 (ev_frame e))).
      { intros e He. destruct (Fe _ He) as (p & a & F). pose proof F as F'. destruct F as (b & Eb & Hb).
        rewrite (H1 e p a He F' b Eb).
        destruct (nfs_spec (offsets (in_force zero b) a) (h (ev_frame e))) as (A1 & A2 & _). unfold Timed. rewrite A1, A2.
        apply (Ht (ev_name e) _ p). rewrite Eb. apply in_or_app. left. apply in_or_app. right. now left. }
      rewrite run_app, R. cbn [bind Bare.run]. destruct o as [n f p|b].
      + cbn [Bare.step]. destruct (add_parsed_event methods tr n f p) as [t|x] eqn:E.
        * cbn [bind]. exists t, h1. split; auto. unfold add_parsed_event in E. destruct (hasattr methods tr n) eqn:Hh; [discriminate|].
          injection E as <-. cbn [tr_events]. rewrite map_app. cbn [map ev_frame].
          assert (Na : ~ In f (map ev_frame (tr_events tr))).
          { intros Hi. apply in_map_iff in Hi as (e & He & Hi). destruct (Fe _ Hi) as (q & a & F). destruct F as (b & Eb & Hb).
            assert (Hq : nth_error (os ++ [Add n f p]) (List.length b) = Some (Add (ev_name e) (ev_frame e) q)).
            { rewrite Eb, <- app_assoc, nth_error_app2 by lia. now rewrite Nat.sub_diag. }
            assert (Hp : nth_error (os ++ [Add n f p]) (List.length os) = Some (Add n f p)) by (rewrite nth_error_app2 by lia; now rewrite Nat.sub_diag).
            rewrite He in Hq. pose proof (Ho _ _ _ _ _ _ _ Hq Hp) as El. rewrite Eb, app_length in El. cbn in El. lia. }
          split.
          { intros e q a He F b Eb. apply in_app_or in He as [He|[He|He]]; [|subst e|destruct He].
            - destruct (Fe _ He) as (q' & a' & F'). pose proof (first_snoc _ (Add n f p) _ _ _ _ F') as F2.
              destruct (first_unique _ _ _ _ _ _ _ _ F F2) as (_ & Eq & Ea). subst q' a.
              change (a' ++ [Add n f p]) with (a' ++ [Add n f p]) in Eb. rewrite app_comm_cons, app_assoc in Eb. apply app_inj_tail in Eb as (Eb & _).
              rewrite (H1 e q a' He F' b Eb), offsets_app. cbn [offsets]. now rewrite app_nil_r.
            - cbn [ev_frame ev_name] in *. rewrite (H2 f Na).
              assert (Fn : FirstAdd (os ++ [Add n f p]) n f p []).
              { apply first_new. intros Ha. pose proof (add_rejects methods tr n f p) as Hr. unfold add_parsed_event in Hr. rewrite Hh in Hr.
                assert (Hx : hasattr methods tr n = true); [|congruence]. apply hasattr_iff.
                assert (D : Builtin methods n \/ ~ Builtin methods n).
                { unfold Builtin. destruct (mem n methods) eqn:M; [apply mem_In in M; auto|].
                  destruct (mem n own_attrs) eqn:M2; [apply mem_In in M2; auto|].
                  right. rewrite <- !mem_In. rewrite M, M2. intros [?|?]; discriminate. }
                rewrite (inv_dict_iff _ _ _ _ I). destruct D as [[D|D]|D]; auto.
                apply (inv_all _ _ _ _ I) in Ha; auto. }
              destruct (first_unique _ _ _ _ _ _ _ _ F Fn) as (_ & _ & ->). reflexivity. }
          { intros a Ha. apply H2. intros Hi. apply Ha. apply in_or_app. now left. }
        * assert (Ex : x = EValue) by (unfold add_parsed_event in E; destruct (hasattr methods tr n); congruence). subst x.
          cbn [bind]. exists tr, h1. split; auto. split; auto. intros e q a He F b Eb.
          destruct (Fe _ He) as (q' & a' & F'). pose proof (first_snoc _ (Add n f p) _ _ _ _ F') as F2.
          destruct (first_unique _ _ _ _ _ _ _ _ F F2) as (_ & Eq & Ea). subst q' a.
          rewrite app_comm_cons, app_assoc in Eb. apply app_inj_tail in Eb as (Eb & _).
          rewrite (H1 e q a' He F' b Eb), offsets_app. cbn [offsets]. now rewrite app_nil_r.
      + cbn [Bare.step]. unfold normalize_time.
        assert (Nd : NoDup (map ev_frame (tr_events tr))).
        { apply NoDup_nth_error. intros i j Hi Hij. rewrite map_length in Hi.
          assert (Hj : j < List.length (tr_events tr)).
          { rewrite <- (map_length ev_frame). apply nth_error_Some. rewrite <- Hij. apply nth_error_Some. now rewrite map_length. }
          destruct (nth_error (tr_events tr) i) as [e|] eqn:Ei; [|apply nth_error_None in Ei; lia].
          destruct (nth_error (tr_events tr) j) as [e'|] eqn:Ej; [|apply nth_error_None in Ej; lia].
          rewrite !nth_error_map, Ei, Ej in Hij. cbn in Hij. injection Hij as Hij.
          destruct (Fe e (nth_error_In _ _ Ei)) as (q & a & (b1 & Eb & _)).
          destruct (Fe e' (nth_error_In _ _ Ej)) as (q' & a' & (b2 & Eb' & _)).
          assert (En : ev_name e = ev_name e').
          { eapply (own_in os); [eapply own_app; eauto| |].
            - rewrite Eb at 1. apply in_or_app. right. left. reflexivity.
            - rewrite Hij. rewrite Eb'. apply in_or_app. right. left. reflexivity. }
          pose proof (inv_nodup _ _ _ _ I) as Nn. apply (proj1 (NoDup_nth_error _) Nn).
          - now rewrite map_length.
          - rewrite !nth_error_map, Ei, Ej. cbn. now rewrite En. }
        pose proof (inv_base _ _ _ _ I) as Bs.
        set (base := match b with Some b0 => b0 | None => tr_base tr end).
        destruct (norm_ok base (tr_events tr) h1 Nd Te) as (h' & E & A1 & A2). rewrite E. cbn [bind].
        eexists _, h'. split; [reflexivity|]. cbn [tr_events]. split.
        * intros e q a He F b1 Eb. destruct (Fe _ He) as (q' & a' & F'). pose proof (first_snoc _ (Normalize b) _ _ _ _ F') as F2.
          destruct (first_unique _ _ _ _ _ _ _ _ F F2) as (_ & Eq & Ea). subst q' a.
          rewrite app_comm_cons, app_assoc in Eb. apply app_inj_tail in Eb as (Eb & _).
          rewrite (A1 e He), (H1 e q a' He F' b1 Eb), offsets_app. unfold nfs. rewrite fold_left_app.
          assert (Eo : offsets (in_force (in_force zero b1) a') [Normalize b] = [base]).
          { unfold base. rewrite Bs, Eb, in_force_app. cbn. destruct b; reflexivity. }
          rewrite Eo. reflexivity.
        * intros a Ha. rewrite A2 by auto. now apply H2.
  Qed.

  Lemma frames_ok zero h os : OwnFrames os -> (forall n f p, In (Add n f p) os -> Timed (h f)) ->
    exists tr h', run (bare_new zero, h) os = Ok (tr, h') /\
      (forall n f p before after, os = before ++ Add n f p :: after -> (forall g q, ~ In (Add n g q) before) -> ~ Builtin methods n ->
        fr_name (h' f) = Some $"Time" /\ fr_cols (h' f) = fr_cols (h f) /\
        (fr_index (h f) = [] \/ fr_cols (h f) = [] -> h' f = h f) /\
        (fr_cols (h f) <> [] -> fr_index (h' f) = map (fun t => shift tsub tfalse t (offsets (in_force zero before) after)) (fr_index (h f)))) /\
      (forall a, (forall n p, ~ In (Add n a p) os) -> h' a = h a).
  Proof.
    intros Ho Ht. destruct (frames_run zero h os Ho Ht) as (tr & h' & R & H1 & H2). exists tr, h'. split; auto. split.
    - intros n f p b a Eb Hb Hn. assert (F : FirstAdd os n f p a) by now exists b.
      pose proof (run_inv _ _ _ _ _ R) as I. destruct (inv_all _ _ _ _ I n Hn (first_adds _ _ _ _ _ F)) as (e & He & En).
      destruct (inv_first _ _ _ _ I _ He) as (p' & a' & F' & _). rewrite En in F'.
      destruct (first_unique _ _ _ _ _ _ _ _ F F') as (Ef & Ep & Ea). subst p' a'.
      assert (Hh : h' f = nfs (offsets (in_force zero b) a) (h f)).
      { rewrite Ef. apply (H1 e p a He); rewrite En, <- Ef; assumption. }
      destruct (nfs_spec (offsets (in_force zero b) a) (h f)) as (A1 & A2 & A3 & A4). rewrite <- Hh in *.
      split; [|split; [exact A2|split]].
      + rewrite A1. apply (Ht n f p). rewrite Eb. apply in_or_app. right. now left.
      + intros D. apply A3. unfold df_empty. destruct D as [-> | ->]; auto. now destruct (fr_index (h f)).
      + intros Hc. unfold df_empty in *. destruct (fr_index (h f)) as [|t ts] eqn:Ei.
        * rewrite A3 by auto. now rewrite Ei.
        * apply A4. destruct (fr_cols (h f)); congruence.
    - intros a Ha. apply H2. intros Hi. apply in_map_iff in Hi as (e & <- & He).
      apply run_inv in R as I. apply (inv_first _ _ _ _ I) in He as (p & af & (b & Eb & _) & _).
      apply (Ha (ev_name e) p). rewrite Eb. apply in_or_app. right. now left.
  Qed.

  (** Without an index named "Time" nor such a column, normalising fails. *)
  Lemma unnamed_fails tr h b : forall e, In e (tr_events tr) -> fr_name (h (ev_frame e)) <> Some $"Time" -> ~ In $"Time" (map fst (fr_cols (h (ev_frame e)))) ->
    fr_index (h (ev_frame e)) <> [] -> fr_cols (h (ev_frame e)) <> [] -> tfalse b = false ->
    exists x, normalize_time tsub tfalse tr h (Some b) = Err x.
  Proof.
    intros e He Hn Hc Hi Hcs Hb. unfold normalize_time.
    assert (G : forall es h', In e es -> h' (ev_frame e) = h (ev_frame e) -> exists x, normalize_events tsub tfalse b es h' = Err x).
    { clear He. induction es as [|e' es IH]; intros h' He Eh; [destruct He|]. cbn [normalize_events].
      destruct (normalize_frame tsub tfalse b (h' (ev_frame e'))) as [f|x] eqn:E; [|now exists x]. cbn [bind].
      destruct (Nat.eq_dec (ev_frame e') (ev_frame e)) as [Ef|Ef].
      - exfalso. rewrite Ef, Eh in E. unfold normalize_frame in E. rewrite Hb in E.
        assert (Ee : df_empty (h (ev_frame e)) = false).
        { unfold df_empty. destruct (fr_index (h (ev_frame e))); [congruence|]. destruct (fr_cols (h (ev_frame e))); congruence. }
        rewrite Ee in E. cbn [negb andb] in E. destruct (mem (reset_name (h (ev_frame e))) _); [discriminate|].
        destruct (dget eqs $"Time" _) as [ts|] eqn:D; [|discriminate].
        cbn [dget] in D. destruct (eqs $"Time" (reset_name (h (ev_frame e)))) eqn:Er.
        + apply eqs_eq in Er. unfold reset_name in Er. destruct (fr_name (h (ev_frame e))) as [m|]; [congruence|].
          destruct (mem _ _); discriminate.
        + apply (dget_In eqs eqs_eq) in D. apply Hc. now apply (in_map fst) in D.
      - destruct He as [->|He]; [congruence|]. apply IH; auto. unfold hset. destruct (ev_frame e =? ev_frame e') eqn:Eq; auto.
        apply Nat.eqb_eq in Eq. congruence. }
    destruct (G _ _ He eq_refl) as (x & E). rewrite E. now exists x.
  Qed.
End Bare.

(** Construction. *)
Lemma set_plain_get l : forall d a, dget eqs a (set_plain l d) = if mem a l then Some AOther else dget eqs a d.
Proof.
  unfold set_plain. induction l as [|b l IH]; intros d a; [reflexivity|]. cbn [fold_left]. rewrite IH. cbn [mem existsb].
  change (existsb (eqs a) l) with (mem a l). rewrite (dget_dset eqs eqs_eq). destruct (mem a l); [now rewrite orb_true_r|].
  rewrite orb_false_r. reflexivity.
Qed.
Lemma set_events_get : forall names i d, NoDup names -> ~ In $"trace_classes" names -> dget eqs $"trace_classes" d = Some AOther ->
  exists d', set_events names i d = Ok d' /\ (forall k n, nth_error names k = Some n -> dget eqs n d' = Some (AEvent (i + k))) /\
    (forall a, ~ In a names -> dget eqs a d' = dget eqs a d).
Proof.
  induction names as [|n names IH]; intros i d N Ht Hd.
  - exists d. cbn. repeat split; auto. intros k n H. destruct k; discriminate.
  - inversion N as [|x l N1 N2]; subst. cbn [set_events]. cbn zeta. rewrite (dget_dset eqs eqs_eq).
    assert (En : eqs $"trace_classes" n = false) by (apply eqs_neq; intros E; apply Ht; now left).
    rewrite En, Hd. destruct (IH (S i) (dset eqs n (AEvent i) d)) as (d' & E & H1 & H2); auto.
    { intros H. apply Ht. now right. }
    { now rewrite (dget_dset eqs eqs_eq), En. }
    exists d'. split; auto. split.
    + intros [|k] m Hm.
      * injection Hm as <-. rewrite H2 by auto. rewrite (dget_dset eqs eqs_eq), eqs_refl. now rewrite Nat.add_0_r.
      * apply H1 in Hm. rewrite Hm. do 2 f_equal. lia.
    + intros a Ha. rewrite H2 by (intros Hi; apply Ha; now right). rewrite (dget_dset eqs eqs_eq).
      assert (Ea : eqs a n = false) by (apply eqs_neq; intros E'; apply Ha; now left). now rewrite Ea.
Qed.
Lemma mapM_seq {A} (g : A -> res nat) : forall names i, (forall k n, nth_error names k = Some n -> g n = Ok (i + k)) ->
  mapM g names = Ok (seq i (List.length names)).
Proof.
  induction names as [|n names IH]; intros i H; [reflexivity|]. cbn [mapM]. rewrite (H 0 n eq_refl). cbn [bind].
  rewrite (IH (S i)).
  - cbn. now rewrite Nat.add_0_r.
  - intros k m Hm. rewrite (H (S k) m Hm). f_equal. lia.
Qed.
Lemma construct_ok before after names : NoDup names -> In $"trace_classes" before ->
  (forall n, In n names -> ~ In n before /\ ~ In n after) ->
  exists d, construct before after names = Ok d /\
    (forall i n, nth_error names i = Some n -> dget eqs n d = Some (AEvent i)) /\
    (forall a, In a before \/ In a after -> dget eqs a d = Some AOther) /\
    parsers names d = Ok (seq 0 (List.length names)).
Proof.
  intros N Ht Hd.
  assert (Ht' : dget eqs $"trace_classes" (set_plain before []) = Some AOther).
  { rewrite set_plain_get. apply mem_In in Ht. now rewrite Ht. }
  destruct (set_events_get names 0 (set_plain before []) N) as (d & E & H1 & H2); auto.
  { intros H. now apply Hd in H. }
  exists (set_plain after d). unfold construct. rewrite E. split; [reflexivity|].
  assert (G : forall i n, nth_error names i = Some n -> dget eqs n (set_plain after d) = Some (AEvent i)).
  { intros i n Hi. rewrite set_plain_get. assert (M : mem n after = false).
    { destruct (mem n after) eqn:M; auto. apply mem_In in M. apply nth_error_In in Hi. now apply Hd in Hi. }
    rewrite M. apply (H1 i n Hi). }
  split; [exact G|]. split.
  - intros a Ha. rewrite set_plain_get. destruct (mem a after) eqn:M; auto.
    destruct Ha as [Ha|Ha]; [|apply mem_In in Ha; congruence].
    rewrite H2 by (intros Hi; now apply Hd in Hi). rewrite set_plain_get. apply mem_In in Ha. now rewrite Ha.
  - unfold parsers. apply mapM_seq. intros k n Hn. now rewrite (G k n Hn).
Qed.
Lemma construct_lost before after names n d : In n names -> In n after -> construct before after names = Ok d -> parsers names d = Err EAttribute.
Proof.
  intros Hn Ha. unfold construct. destruct (set_events names 0 (set_plain before [])) as [d0|]; [|discriminate]. cbn. intros H. injection H as <-.
  unfold parsers. induction names as [|m names IH]; [destruct Hn|]. cbn [mapM]. rewrite set_plain_get.
  destruct (mem m after) eqn:M; [reflexivity|]. destruct (dget eqs m d0) as [[i|]|]; [|reflexivity|reflexivity]. cbn [bind].
  destruct Hn as [->|Hn]; [apply mem_In in Ha; congruence|]. rewrite IH; auto.
Qed.
Lemma construct_taken before after names : In $"trace_classes" names -> construct before after names = Err EAttribute.
Proof.
  intros H. unfold construct.
  assert (G : forall i d, set_events names i d = Err EAttribute).
  { induction names as [|n names IH]; intros i d; [destruct H|]. cbn [set_events]. cbn zeta. rewrite (dget_dset eqs eqs_eq).
    destruct (eqs $"trace_classes" n) eqn:E; [reflexivity|]. destruct H as [->|H]; [now rewrite eqs_refl in E|].
    destruct (dget eqs $"trace_classes" d) as [[k|]|]; auto. }
  now rewrite G.
Qed.

(** ** The names themselves *)
Lemma names_bare {T} (tsub : T -> T -> T) tfalse zero os h tr h' n :
  run tsub tfalse bare_methods (bare_new zero, h) os = Ok (tr, h') -> In n bare_names ->
  getattr bare_methods tr n = Found AOther /\ forall f p, add_parsed_event bare_methods tr n f p = Err EValue.
Proof.
  intros R I. assert (Builtin bare_methods n) as B.
  { assert (forall m, In m bare_names -> In m (bare_methods ++ own_attrs)) as G.
    { intros m J. apply mem_In. assert (forallb (fun x => mem x (bare_methods ++ own_attrs)) bare_names = true) as E by (vm_compute; reflexivity).
      rewrite forallb_forall in E. exact (E m J). }
    apply G in I. apply in_app_iff in I. exact I. }
  assert (G := history_builtin tsub tfalse bare_methods zero os h tr h' n R B). split; [exact G|]. intros f p.
  unfold add_parsed_event, hasattr. now rewrite G.
Qed.
Lemma names_ftrace names : NoDup names -> (forall n, In n names -> ~ In n ftrace_names) ->
  exists d, construct ftrace_before ftrace_after names = Ok d /\
    (forall i n, nth_error names i = Some n -> dget eqs n d = Some (AEvent i)) /\
    (forall a, In a ftrace_names -> dget eqs a d = Some AOther) /\
    parsers names d = Ok (seq 0 (List.length names)).
Proof.
  intros N H. destruct (construct_ok ftrace_before ftrace_after names N) as (d & A & B & C & D).
  - apply mem_In. vm_compute. reflexivity.
  - intros n I. split; intros J; apply (H n I); apply in_app_iff; [left|right]; exact J.
  - exists d. split; [exact A|]. split; [exact B|]. split; [|exact D]. intros a I. apply C. apply in_app_iff in I. exact I.
Qed.
Lemma names_late names n d : In n names -> In n ftrace_late -> construct ftrace_before ftrace_after names = Ok d -> parsers names d = Err EAttribute.
Proof. exact (construct_lost ftrace_before ftrace_after names n d). Qed.

(** ** Frames whose index is not the time *)
Lemma index_column {T} (f : frame T) c : IndexColumn f c <-> c = reset_name f.
Proof.
  unfold IndexColumn, reset_name. destruct (fr_name f) as [n|]; [tauto|].
  destruct (mem $"index" (map fst (fr_cols f))) eqn:E.
  - apply mem_In in E. intuition congruence.
  - assert (~ In $"index" (map fst (fr_cols f))) by (rewrite <- mem_In; congruence). intuition congruence.
Qed.
Lemma untimed {T} (tsub : T -> T -> T) tfalse b (f : frame T) c : tfalse b = false -> fr_index f <> [] -> fr_cols f <> [] -> IndexColumn f c ->
  (In c (map fst (fr_cols f)) -> normalize_frame tsub tfalse b f = Err EValue) /\
  (~ In c (map fst (fr_cols f)) -> c <> $"Time" -> ~ In $"Time" (map fst (fr_cols f)) -> normalize_frame tsub tfalse b f = Err EKey) /\
  (forall ts, ~ In c (map fst (fr_cols f)) -> c <> $"Time" -> dget eqs $"Time" (fr_cols f) = Some ts ->
     exists g, normalize_frame tsub tfalse b f = Ok g /\ fr_name g = Some $"Time" /\ fr_index g = map (fun t => tsub t b) ts /\
       fr_cols g = (c, fr_index f) :: ddel eqs $"Time" (fr_cols f)).
Proof.
  intros Hb Hi Hc Ec. apply index_column in Ec. subst c. unfold normalize_frame. rewrite Hb.
  assert (df_empty f = false) as -> by (unfold df_empty; destruct (fr_index f); [congruence|]; destruct (fr_cols f); congruence). cbn [negb andb].
  split; [|split].
  - intros I. apply mem_In in I. now rewrite I.
  - intros I N M. destruct (mem (reset_name f) (map fst (fr_cols f))) eqn:E; [apply mem_In in E; contradiction|].
    cbn [dget]. destruct (eqs $"Time" (reset_name f)) eqn:Q; [apply eqs_eq in Q; congruence|].
    destruct (dget eqs $"Time" (fr_cols f)) as [ts|] eqn:D; [|reflexivity]. apply (dget_In eqs eqs_eq) in D. exfalso. apply M. apply in_map_iff. now exists ($"Time", ts).
  - intros ts I N D. destruct (mem (reset_name f) (map fst (fr_cols f))) eqn:E; [apply mem_In in E; contradiction|].
    cbn [dget]. destruct (eqs $"Time" (reset_name f)) eqn:Q; [apply eqs_eq in Q; congruence|]. rewrite D. eexists. split; [reflexivity|]. cbn [fr_name fr_index fr_cols].
    do 2 (split; [reflexivity|]). cbn [ddel filter fst]. unfold ddel. cbn [filter fst]. rewrite Q. reflexivity.
Qed.
