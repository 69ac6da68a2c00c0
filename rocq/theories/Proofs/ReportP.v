(** Lemmas about binary traces, temporary files and the place of the cache. *)
From Coq Require Import List Ascii String ZArith NArith Bool Lia.
From Verif Require Import Lib.PyStr Lib.PyStrFacts Lib.F64 Model.Base Model.Line Model.Registry Model.Populate Model.Window
  Model.Cache Model.Files Model.Report Spec.Report Proofs.FilesP.
Import ListNotations.
Local Open Scope list_scope.

(** ** The command *)
Lemma raw_names_In raw cs e : In e (raw_names raw cs) <->
  exists n k, In (n, k) cs /\ raw k = true /\ k_name k = Some e /\ e <> [].
Proof.
  unfold raw_names. rewrite in_flat_map. split.
  - intros ([n k] & Hi & H). cbn [snd] in H. destruct (raw k) eqn:R; [|destruct H].
    destruct (k_name k) as [[|c m]|] eqn:E; [destruct H| |destruct H]. destruct H as [<-|[]]. exists n, k. repeat split; auto. discriminate.
  - intros (n & k & Hi & R & E & Hne). exists (n, k). split; auto. cbn [snd]. rewrite R, E.
    destruct e; [congruence|]. now left.
Qed.
Theorem raw_events_In raw r e : In e (raw_events raw r) <-> Wanted raw r e.
Proof.
  unfold raw_events, Wanted. rewrite in_flat_map. split.
  - intros (cs & Hcs & H). apply raw_names_In in H as (n & k & Hi & H). exists n, k. split; [|exact H].
    destruct Hcs as [<-|[<-|[<-|[]]]]; auto.
  - intros (n & k & Hi & H). destruct Hi as [Hi|[Hi|Hi]];
      [exists (r_thermal r)|exists (r_sched r)|exists (r_dynamic r)]; (split; [cbn; auto|apply raw_names_In; eauto]).
Qed.
Lemma dset_has {V} n (v : V) d : In (n, v) (dset eqs n v d).
Proof. apply (dget_In eqs eqs_eq). now rewrite (dget_dset eqs eqs_eq), eqs_refl. Qed.
Theorem registered_raw raw r k scope r' : register r k scope = Ok r' -> raw (named k) = true -> given_name k <> [] ->
  In (given_name k) (raw_events raw r').
Proof.
  intros H R N. apply raw_events_In. exists (given_name k), (named k). split; [|split; [exact R|split; [reflexivity|exact N]]].
  unfold register in H. destruct (eqs scope $"all" || eqs scope $"dynamic"); [injection H as <-; right; right; apply dset_has|].
  destruct (eqs scope $"thermal"); [injection H as <-; left; apply dset_has|].
  destruct (eqs scope $"sched"); [injection H as <-; right; left; apply dset_has|]. discriminate.
Qed.

Lemma Args_raws raws : forall tail t rs fs, Args (flat_map (fun e => [$"-r"; e]) raws ++ tail) t rs fs <->
  exists rs', rs = raws ++ rs' /\ Args tail t rs' fs.
Proof.
  induction raws as [|e raws IH]; intros tail t rs fs; cbn [flat_map app].
  - split; [intros H; exists rs; auto|]. intros (rs' & -> & H). exact H.
  - split.
    + intros H. inversion H; subst.
      * match goal with K : Args _ _ _ _ |- _ => apply IH in K as (rs' & -> & K) end. exists rs'. split; auto.
      * exfalso. match goal with K : ~ dashed _ |- _ => apply K end. eexists _, _. reflexivity.
    + intros (rs' & -> & H). cbn [app]. apply Ar_raw. apply IH. eauto.
Qed.
Theorem command_read raws dat t rs fs : ~ dashed dat ->
  (Report (report_cmd raws dat) t rs fs <-> t = true /\ rs = raws /\ fs = [dat]).
Proof.
  intros Hd. unfold report_cmd, Report. cbn [app].
  assert (T : Args [dat] false [] [dat]) by (apply Ar_file; [exact Hd|constructor]).
  assert (U : forall t rs fs, Args [dat] t rs fs -> t = false /\ rs = [] /\ fs = [dat]).
  { intros t0 rs0 fs0 H. inversion H; subst.
    - exfalso. apply Hd. eexists _, _. reflexivity.
    - match goal with K : Args [] _ _ _ |- _ => inversion K; subst end. auto. }
  split.
  - intros (args & E & H). injection E as <-. inversion H; subst.
    + match goal with K : Args (_ ++ _) _ _ _ |- _ => apply Args_raws in K as (rs' & -> & K) end.
      match goal with K : Args [dat] _ _ _ |- _ => apply U in K as (-> & -> & ->) end. split; auto. split; auto. apply app_nil_r.
    + exfalso. match goal with K : ~ dashed _ |- _ => apply K end. eexists _, _. reflexivity.
  - intros (-> & -> & ->). eexists. split; [reflexivity|]. eapply Ar_flag. apply Args_raws. exists []. split; [now rewrite app_nil_r|exact T].
Qed.
Theorem command_dashed : exists isfile base dat, isfile base = true /\ process_path isfile base = Ok (dat, true) /\
  forall raws t rs fs, Report (report_cmd raws dat) t rs fs -> ~ In dat fs.
Proof.
  exists (fun p => eqs p $"-x.dat"), $"-x.dat", $"-x.dat". split; [reflexivity|]. split; [reflexivity|].
  intros raws t rs fs (args & _ & H) Hi. assert (D : Forall (fun f => ~ dashed f) fs).
  { clear Hi. induction H; auto. }
  rewrite Forall_forall in D. apply (D _ Hi). eexists _, _. reflexivity.
Qed.

(** ** The place of the cache *)
Lemma walk_norm comps : forall d e, Walk d comps e -> Forall proper d -> norm_comps true (rev d) comps = e /\ Forall proper e.
Proof.
  intros d e H. induction H as [d|d c r e Hc _ IH|d x r e _ IH|r e _ IH|d c r e Hc _ IH]; intros Hd; cbn [norm_comps].
  - split; [now rewrite rev_involutive|auto].
  - assert (E : eqs c [] || eqs c $"." = true) by (destruct Hc as [-> | ->]; reflexivity). rewrite E. auto.
  - rewrite rev_app_distr. cbn [rev app].
    apply Forall_app in Hd as [Hd Hx]. inversion Hx as [|? ? (X1 & X2 & X3 & X4) _]; subst.
    change (eqs $".." [] || eqs $".." $".") with false. cbn [eqs negb orb andb]. change (eqs $".." $"..") with true. cbn [negb orb andb].
    assert (E : eqs x $".." = false) by (destruct (eqs x $"..") eqn:E; auto; apply eqs_eq in E; congruence).
    rewrite E. cbn [tl]. auto.
  - change (eqs $".." [] || eqs $".." $".") with false. change (eqs $".." $"..") with true. cbn [negb orb andb rev tl]. auto.
  - destruct Hc as (C1 & C2 & C3 & C4).
    assert (E : eqs c [] || eqs c $"." = false).
    { apply orb_false_iff. split; [destruct (eqs c []) eqn:E; auto; apply eqs_eq in E; congruence|].
      destruct (eqs c $".") eqn:E; auto; apply eqs_eq in E; congruence. }
    rewrite E. assert (E2 : eqs c $".." = false) by (destruct (eqs c $"..") eqn:E2; auto; apply eqs_eq in E2; congruence).
    rewrite E2. cbn [negb orb]. change (c :: rev d) with ([c] ++ rev d).
    replace ([c] ++ rev d) with (rev (d ++ [c])) by (rewrite rev_app_distr; reflexivity). apply IH.
    apply Forall_app. split; auto. constructor; [|constructor]. repeat split; auto.
Qed.
Lemma walk_app a : forall d e b f, Walk d a e -> Walk e b f -> Walk d (a ++ b) f.
Proof. intros d e b f H. revert b f. induction H; intros b f Hb; cbn [app]; eauto using Walk. Qed.
Lemma walk_self d : forall p, Forall proper d -> Walk p d (p ++ d).
Proof.
  induction d as [|c d IH]; intros p H; [rewrite app_nil_r; constructor|]. inversion H; subst. apply Wk_down; auto.
  replace (p ++ c :: d) with ((p ++ [c]) ++ d) by now rewrite <- app_assoc. auto.
Qed.
Lemma proper_noslash d : Forall proper d -> Forall (fun c => ~ In "/"%char c) d.
Proof. intros H. eapply Forall_impl; [|exact H]. now intros c (_ & _ & _ & K). Qed.

Lemma join_app_last x l n : l <> [] -> join x (l ++ [n]) = join x l ++ x ++ n.
Proof.
  induction l as [|a l IH]; intros H; [congruence|]. destruct l as [|b l]; [reflexivity|].
  change (join x ((a :: b :: l) ++ [n])) with (a ++ x ++ join x ((b :: l) ++ [n])).
  rewrite IH by discriminate. change (join x (a :: b :: l)) with (a ++ x ++ join x (b :: l)). now rewrite <- !app_assoc.
Qed.
Lemma norm_abs comps d : comps <> [] -> Forall (fun c => ~ In "/"%char c) comps ->
  ~ (exists c r, comps = [] :: c :: r /\ c <> []) -> comps <> [[]; []] -> Walk [] comps d ->
  normpath (join $"/" ([] :: comps)) = abs_path d.
Proof.
  intros Hne Hs H2 H3 HW. destruct (walk_norm comps [] d HW (Forall_nil _)) as [E _].
  destruct comps as [|c0 comps]; [congruence|].
  assert (J : join $"/" ([] :: c0 :: comps) = "/"%char :: join $"/" (c0 :: comps)) by reflexivity.
  assert (S : split_ch "/" (join $"/" ([] :: c0 :: comps)) = [] :: c0 :: comps).
  { apply split_ch_join; [discriminate|]. constructor; auto. }
  unfold normpath. rewrite S. rewrite J.
  assert (R : initial_slashes ("/"%char :: join $"/" (c0 :: comps)) = $"/").
  { unfold initial_slashes. change (is_prefix $"/" ("/"%char :: join $"/" (c0 :: comps))) with true.
    assert (P1 : is_prefix $"//" ("/"%char :: join $"/" (c0 :: comps)) = is_prefix $"/" (join $"/" (c0 :: comps))) by reflexivity.
    assert (P2 : is_prefix $"///" ("/"%char :: join $"/" (c0 :: comps)) = is_prefix $"//" (join $"/" (c0 :: comps))) by reflexivity.
    rewrite P1, P2. destruct c0 as [|c c0].
    - destruct comps as [|c1 comps]; [reflexivity|]. destruct c1 as [|x c1].
      + destruct comps as [|c2 comps].
        * congruence.
        * reflexivity.
      + exfalso. apply H2. exists (x :: c1), comps. split; [reflexivity|discriminate].
    - inversion Hs; subst. assert (c <> "/"%char) by (intros ->; match goal with K : ~ In _ _ |- _ => apply K; now left end).
      assert (F : is_prefix $"/" (join $"/" ((c :: c0) :: comps)) = false).
      { assert (Q : Ascii.eqb "/" c = false) by (apply Ascii.eqb_neq; congruence).
        destruct comps; [change (Ascii.eqb "/" c && true = false)|change (Ascii.eqb "/" c && true = false)]; now rewrite Q. }
      now rewrite F. }
  rewrite R. change (norm_comps (match $"/" with [] => false | _ => true end) [] ([] :: c0 :: comps)) with (norm_comps true [] (c0 :: comps)).
  cbn [rev] in E. rewrite E. reflexivity.
Qed.

Lemma is_prefix_slash s : is_prefix $"/" s = true <-> exists r, s = "/"%char :: r.
Proof.
  rewrite is_prefix_spec. split; intros (r & ->); exists r; reflexivity.
Qed.
Lemma proper_not_slash n r : proper n -> n <> "/"%char :: r.
Proof. intros (_ & _ & _ & H) ->. apply H. now left. Qed.
Lemma walk_proper comps d e : Walk d comps e -> Forall proper d -> Forall proper e.
Proof. intros H Hd. now destruct (walk_norm comps d e H Hd). Qed.
Lemma rsplit_join l n : l <> [] -> ~ In "/"%char n -> rsplit "/" (join $"/" (l ++ [n])) = Some (join $"/" l, n).
Proof. intros Hl Hn. apply rsplit_Some. rewrite join_app_last by auto. split; auto. Qed.
Lemma basename_join l n : ~ In "/"%char n -> basename (join $"/" (l ++ [n])) = n.
Proof.
  intros Hn. unfold basename. destruct l as [|c l].
  - cbn [app join]. destruct (rsplit "/" n) as [[a b]|] eqn:E; auto. apply rsplit_Some in E as [-> _].
    exfalso. apply Hn. apply in_or_app. right. now left.
  - now rewrite rsplit_join by (auto; discriminate).
Qed.
Lemma abs_join d : d <> [] -> abs_path d = join $"/" ([] :: d).
Proof. destruct d; [congruence|reflexivity]. Qed.
Lemma abs_last d : d <> [] -> Forall proper d -> exists z y, abs_path d = z ++ [y] /\ y <> "/"%char.
Proof.
  intros Hne Hd. destruct (@exists_last _ d Hne) as (d' & x & ->).
  apply Forall_app in Hd as [_ Hx]. inversion Hx as [|? ? (X1 & _ & _ & X2) _]; subst.
  destruct (@exists_last _ x X1) as (x' & y & ->).
  assert (Hy : y <> "/"%char) by (intros ->; apply X2; apply in_or_app; right; now left).
  unfold abs_path. destruct d' as [|a d'].
  - exists ($"/" ++ x'), y. cbn [app join]. now rewrite <- ?app_assoc.
  - rewrite join_app_last by discriminate. eexists _, y. split; auto. rewrite !app_assoc. reflexivity.
Qed.
Lemma dirname_abs d n : Forall proper d -> proper n -> dirname (abs_path (d ++ [n])) = abs_path d.
Proof.
  intros Hd Hn. unfold dirname. rewrite abs_join by (destruct d; discriminate).
  change ([] :: d ++ [n]) with (([] :: d) ++ [n]). rewrite rsplit_join; [|discriminate|apply Hn].
  destruct d as [|c d].
  - reflexivity.
  - rewrite <- abs_join by discriminate. cbv zeta.
    assert (E : rstrip_slash (abs_path (c :: d) ++ $"/") = abs_path (c :: d)).
    { destruct (abs_last (c :: d) ltac:(discriminate) Hd) as (z & y & -> & Hy).
      unfold rstrip_slash. rewrite !rev_app_distr. change (rev $"/") with $"/". change (rev [y]) with [y].
      change (drop_while (is_ch "/") ($"/" ++ [y] ++ rev z)) with (if is_ch "/" y then drop_while (is_ch "/") (rev z) else y :: rev z).
      assert (Q : is_ch "/" y = false) by (apply Ascii.eqb_neq; congruence).
      rewrite Q. cbn [rev]. now rewrite rev_involutive. }
    rewrite E. reflexivity.
Qed.
Lemma join_abs_gen d s : Forall proper d -> is_prefix $"/" s = false -> d <> [] -> path_join (abs_path d) s = abs_path d ++ $"/" ++ s.
Proof.
  intros Hd Hs Hne. unfold path_join. rewrite Hs.
  destruct (abs_last d Hne Hd) as (z & y & E & Hy).
  assert (F : is_suffix $"/" (abs_path d) = false).
  { destruct (is_suffix $"/" (abs_path d)) eqn:F; auto. exfalso. apply is_suffix_spec in F as (r & F).
    rewrite E in F. apply app_inj_tail in F as [_ ->]. congruence. }
  rewrite F. reflexivity.
Qed.
Lemma no_slash_prefix n : ~ In "/"%char n -> is_prefix $"/" n = false.
Proof.
  intros Hn. destruct (is_prefix $"/" n) eqn:E; auto. apply is_prefix_slash in E as (r & ->). exfalso. apply Hn. now left.
Qed.
Lemma join_abs d n : Forall proper d -> ~ In "/"%char n -> path_join (abs_path d) n = abs_path (d ++ [n]).
Proof.
  intros Hd Hn. destruct d as [|c d]; [unfold path_join; now rewrite no_slash_prefix by auto|].
  rewrite join_abs_gen by (auto using no_slash_prefix; discriminate).
  rewrite (abs_join ((c :: d) ++ [n])) by discriminate. rewrite (abs_join (c :: d)) by discriminate.
  change ([] :: (c :: d) ++ [n]) with (([] :: c :: d) ++ [n]). now rewrite join_app_last by discriminate.
Qed.
Lemma join_two x a b : a <> [] -> b <> [] -> join x (a ++ b) = join x a ++ x ++ join x b.
Proof.
  intros Ha Hb. induction a as [|c a IH]; [congruence|]. destruct a as [|c' a].
  - destruct b; [congruence|reflexivity].
  - change (join x ((c :: c' :: a) ++ b)) with (c ++ x ++ join x ((c' :: a) ++ b)). rewrite IH by discriminate.
    change (join x (c :: c' :: a)) with (c ++ x ++ join x (c' :: a)). now rewrite <- !app_assoc.
Qed.
Theorem abspath_leads cwd p d n : Forall proper cwd -> Leads cwd p d n -> abspath (abs_path cwd) p = abs_path (d ++ [n]) /\ basename p = n /\ Forall proper d.
Proof.
  intros Hc (Hn & [(comps & -> & Hs & H2 & W)|(comps & -> & Hs & H0 & W)]).
  - assert (Hd : Forall proper d) by (eapply walk_proper; eauto).
    split; [|split; auto; change ([] :: comps ++ [n]) with (([] :: comps) ++ [n]); apply basename_join, Hn].
    unfold abspath. assert (E : is_prefix $"/" (join $"/" ([] :: comps ++ [n])) = true).
    { apply is_prefix_slash. destruct comps; eexists; reflexivity. }
    rewrite E. apply norm_abs; auto.
    + destruct comps; discriminate.
    + apply Forall_app. split; auto. constructor; [apply Hn|constructor].
    + intros F. destruct comps as [|? [|? [|? ?]]]; try discriminate F.
      injection F as _ F. destruct Hn as [Hn _]. congruence.
    + eapply walk_app; eauto. apply Wk_down; auto. constructor.
  - assert (Hd : Forall proper d) by (eapply walk_proper; eauto).
    split; [|split; auto; apply basename_join, Hn].
    unfold abspath, path_join.
    assert (E : is_prefix $"/" (join $"/" (comps ++ [n])) = false).
    { destruct (is_prefix $"/" (join $"/" (comps ++ [n]))) eqn:E; auto. exfalso. apply is_prefix_slash in E as (r & E).
      assert (S : split_ch "/" (join $"/" (comps ++ [n])) = comps ++ [n]).
      { apply split_ch_join; [destruct comps; discriminate|]. apply Forall_app. split; auto. constructor; [apply Hn|constructor]. }
      rewrite E in S. destruct comps as [|c comps].
      - cbn [app join] in E. eapply proper_not_slash; eauto.
      - assert (c = []) by (change ("/"%char :: r) with ([] ++ "/"%char :: r) in S; rewrite split_ch_app in S by (intros []); cbn [app] in S; congruence).
        eapply H0; eauto. }
    rewrite !E. destruct cwd as [|c cwd].
    + change (normpath (abs_path [] ++ join $"/" (comps ++ [n])) = abs_path (d ++ [n])).
      replace (abs_path [] ++ join $"/" (comps ++ [n])) with (join $"/" ([] :: comps ++ [n])) by (destruct comps; reflexivity).
      apply norm_abs.
      * destruct comps; discriminate.
      * apply Forall_app. split; auto. constructor; [apply Hn|constructor].
      * intros (c & r & F & Hc0). destruct comps as [|c1 comps]; [destruct Hn; cbn in F; congruence|].
        cbn in F. injection F as -> F. eapply H0; eauto.
      * intros F. destruct comps as [|? [|? [|? ?]]]; try discriminate F. injection F as _ F. destruct Hn; congruence.
      * eapply walk_app; eauto. apply Wk_down; auto. constructor.
    + fold (path_join (abs_path (c :: cwd)) (join $"/" (comps ++ [n]))).
      assert (F : path_join (abs_path (c :: cwd)) (join $"/" (comps ++ [n])) = join $"/" ([] :: (c :: cwd) ++ comps ++ [n])).
      { rewrite join_abs_gen by (auto; discriminate). rewrite abs_join by discriminate.
        change ([] :: (c :: cwd) ++ comps ++ [n]) with (([] :: c :: cwd) ++ comps ++ [n]).
        symmetry. apply join_two; [discriminate|]. destruct comps; discriminate. }
      unfold path_join in F. rewrite E in F. rewrite F. apply norm_abs.
      * discriminate.
      * apply Forall_app. split; [now apply proper_noslash|]. apply Forall_app. split; auto. constructor; [apply Hn|constructor].
      * intros (c1 & r & G & Hc0). inversion Hc as [|? ? [C1 _] _]; subst. cbn in G. congruence.
      * inversion Hc as [|? ? [C1 _] _]; subst. cbn. congruence.
      * eapply walk_app; [apply (walk_self _ []); auto|]. cbn [app]. eapply walk_app; eauto. apply Wk_down; auto. constructor.
Qed.

Lemma cache_name_inj n m : $"." ++ n ++ $".cache" = $"." ++ m ++ $".cache" -> n = m.
Proof. intros H. apply app_inv_head in H. now apply app_inv_tail in H. Qed.
Lemma cache_name_proper n : proper n -> proper ($"." ++ n ++ $".cache").
Proof.
  intros (N1 & _ & _ & N2). repeat split.
  - discriminate.
  - destruct n; [congruence|discriminate].
  - destruct n as [|a n]; [congruence|]. intros H. apply (f_equal (@List.length ascii)) in H. rewrite !app_length in H. cbn in H. lia.
  - intros H. apply in_app_or in H as [H|H]; [cbn in H; intuition discriminate|].
    apply in_app_or in H as [H|H]; [auto|cbn in H; intuition discriminate].
Qed.
Theorem cache_place cwd p d n : Forall proper cwd -> Leads cwd p d n ->
  cache_path (abs_path cwd) p = abs_path (d ++ [$"." ++ n ++ $".cache"]).
Proof.
  intros Hc HL. destruct (abspath_leads cwd p d n Hc HL) as (E & B & Hd). unfold cache_path. rewrite E, B.
  destruct HL as (Hn & _). rewrite dirname_abs by auto. apply join_abs; auto. apply cache_name_proper in Hn. apply Hn.
Qed.
Lemma abs_inj d e : d <> [] -> e <> [] -> Forall (fun c => ~ In "/"%char c) d -> Forall (fun c => ~ In "/"%char c) e ->
  abs_path d = abs_path e -> d = e.
Proof.
  intros D E Hd He H. unfold abs_path in H. apply app_inv_head in H.
  rewrite <- (split_ch_join "/" d D Hd), <- (split_ch_join "/" e E He). now f_equal.
Qed.
Theorem cache_shared cwd p d n cwd' p' d' n' : Forall proper cwd -> Leads cwd p d n -> Forall proper cwd' -> Leads cwd' p' d' n' ->
  (cache_path (abs_path cwd) p = cache_path (abs_path cwd') p' <-> d = d' /\ n = n').
Proof.
  intros Hc HL Hc' HL'. rewrite (cache_place cwd p d n), (cache_place cwd' p' d' n') by auto.
  destruct (abspath_leads cwd p d n Hc HL) as (_ & _ & Hd). destruct (abspath_leads cwd' p' d' n' Hc' HL') as (_ & _ & Hd').
  destruct HL as (Hn & _), HL' as (Hn' & _). split; [|now intros [-> ->]].
  intros H. apply abs_inj in H.
  - apply app_inj_tail in H as [-> H]. split; auto. now apply cache_name_inj.
  - destruct d; discriminate.
  - destruct d'; discriminate.
  - apply Forall_app. split; [now apply proper_noslash|]. apply proper_noslash. constructor; [|constructor]. now apply cache_name_proper.
  - apply Forall_app. split; [now apply proper_noslash|]. apply proper_noslash. constructor; [|constructor]. now apply cache_name_proper.
Qed.
Theorem csv_place cwd p d n k : Forall proper cwd -> Leads cwd p d n -> ~ In "/"%char (k_pyname k) ->
  csv_path (abs_path cwd) p k = abs_path (d ++ [$"." ++ n ++ $".cache"; k_pyname k ++ $".csv"]).
Proof.
  intros Hc HL Hk. unfold csv_path. rewrite (cache_place cwd p d n) by auto.
  destruct (abspath_leads cwd p d n Hc HL) as (_ & _ & Hd). destruct HL as (Hn & _).
  rewrite join_abs.
  - now rewrite <- app_assoc.
  - apply Forall_app. split; auto. constructor; [|constructor]. now apply cache_name_proper.
  - intros H. apply in_app_or in H as [H|H]; [auto|cbn in H; intuition discriminate].
Qed.

(** ** Reading a .dat file *)
Section Dat.
  Context {content digest csv : Type}.
  Variables (deq : digest -> digest -> bool) (md5 : content -> digest)
            (enc : frame -> csv) (dec : csv -> option frame)
            (mk : klass -> list event -> res frame)
            (run : list str -> content -> res (list str)) (fresh : list str -> str).
  Hypothesis Hfresh : forall l, ~ In (fresh l) l.
  Notation dat := (dat_construct deq md5 enc dec mk run fresh).
  Notation fs := (@fsys content digest (list (str * str)) csv).

  Lemma reaches_iff c (s : fs) : reaches_setup deq md5 dec c s = false <->
    c_nocache c = false /\ (Broken deq md5 s \/ forall a k, In (a, k) (c_defs c) -> Current deq md5 dec s k).
  Proof.
    unfold reaches_setup. destruct (c_nocache c).
    - cbn. split; [discriminate|]. now intros [? _].
    - unfold load, Broken, Current.
      assert (N : negb (negb false && forallb (fun d => is_cached (digest:=digest) (header:=list (str * str)) dec None (snd d)) (c_defs c))
         = false <-> c_defs c = []).
      { cbn [negb andb]. destruct (c_defs c); cbn; split; try reflexivity; discriminate. }
      destruct (f_cache s) as [d|] eqn:F.
      + destruct (d_meta d) as [[m| |]|] eqn:M.
        * destruct (deq (m_md5 m) (md5 (f_trace s))) eqn:D.
          -- destruct (m_head m) as [h|] eqn:Hh.
             ++ cbn iota. rewrite negb_false_iff. cbn [negb andb]. rewrite forallb_forall. split.
                ** intros H. split; auto. right. intros a k Hi. specialize (H _ Hi). cbn [snd] in H. unfold is_cached, cached_frame in H.
                   destruct (dget eqs (k_pyname k) (d_tables d)) as [t|] eqn:T; [|discriminate].
                   destruct (dec t) as [f|] eqn:DT; [|discriminate]. exists d, m, h, t, f. repeat split; auto.
                ** intros [_ [(d' & E & H)|H]].
                   { injection E as <-. rewrite M in H. destruct H as [H|[H|(m' & H & _ & H')]]; try discriminate. congruence. }
                   intros [a k] Hi. destruct (H a k Hi) as (d' & m' & h' & t & f & E & E2 & _ & _ & T & DT). injection E as <-.
                   unfold is_cached, cached_frame. cbn [snd]. now rewrite T, DT.
             ++ split; [|reflexivity]. intros _. split; auto. left. exists d. split; auto. right. right. exists m. auto.
          -- cbn iota; rewrite N. split.
             ++ intros ->. split; auto. right. intros ? ? [].
             ++ intros [_ [(d' & E & H)|H]].
                ** injection E as <-. rewrite M in H. destruct H as [H|[H|(m' & H & H' & _)]]; try discriminate. congruence.
                ** destruct (c_defs c) as [|[a k] r]; auto. destruct (H a k (or_introl eq_refl)) as (d' & m' & h' & t & f & E & E2 & K & _). injection E as <-.
                   rewrite M in E2. injection E2 as <-. congruence.
        * cbn iota; rewrite N. split.
          -- intros ->. split; auto. right. intros ? ? [].
          -- intros [_ [(d' & E & H)|H]].
             ++ injection E as <-. rewrite M in H. destruct H as [H|[H|(m' & H & H' & _)]]; try discriminate.
             ++ destruct (c_defs c) as [|[a k] r]; auto. destruct (H a k (or_introl eq_refl)) as (d' & m' & h' & t & f & E & E2 & K & _). injection E as <-. congruence.
        * split; [|reflexivity]. intros _. split; auto. left. exists d. auto.
        * split; [|reflexivity]. intros _. split; auto. left. exists d. auto.
      + cbn iota; rewrite N. split.
        * intros ->. split; auto. right. intros ? ? [].
        * intros [_ [(d' & E & H)|H]]; [discriminate|].
          destruct (c_defs c) as [|[a k] r]; auto. destruct (H a k (or_introl eq_refl)) as (d' & m' & h' & t & f & E & _). discriminate.
  Qed.
  Theorem commands cmd c (s : fs) tmp :
    (o_cmds (dat cmd c s tmp) = [] <->
       c_nocache c = false /\ (Broken deq md5 s \/ forall a k, In (a, k) (c_defs c) -> Current deq md5 dec s k)) /\
    (o_cmds (dat cmd c s tmp) = [] \/ o_cmds (dat cmd c s tmp) = [cmd]).
  Proof.
    pose proof (reaches_iff c s) as R. unfold dat_construct. destruct (reaches_setup deq md5 dec c s).
    - destruct (run cmd (f_trace s)) as [lines|e]; [destruct (parse_lines deq md5 enc dec mk lines c s) as [r os]|];
        cbn [o_cmds]; (split; [split; [discriminate|intros K; apply R in K; discriminate]|auto]).
    - destruct (parse_lines deq md5 enc dec mk [] c s) as [r os]. cbn [o_cmds]. split; [split; [intros _; now apply R|auto]|auto].
  Qed.
  Lemma ddel_last (tmp : list (str * list str)) n v : ~ In n (map fst tmp) -> ddel eqs n (tmp ++ [(n, v)]) = tmp.
  Proof.
    intros H. unfold ddel. induction tmp as [|[k w] tmp IH]; cbn [app filter fst].
    - now rewrite eqs_refl.
    - cbn in H. destruct (eqs n k) eqn:E; [apply eqs_eq in E; subst; exfalso; auto|]. cbn [negb]. f_equal. apply IH. auto.
  Qed.
  Theorem temporaries cmd c (s : fs) tmp :
    match o_res (dat cmd c s tmp), o_cmds (dat cmd c s tmp) with
    | Err _, _ :: _ => exists n ls, o_tmp (dat cmd c s tmp) = tmp ++ [(n, ls)] /\ ~ In n (map fst tmp)
    | _, _ => o_tmp (dat cmd c s tmp) = tmp
    end.
  Proof.
    unfold dat_construct. destruct (reaches_setup deq md5 dec c s).
    - destruct (run cmd (f_trace s)) as [lines|e].
      + destruct (parse_lines deq md5 enc dec mk lines c s) as [[t|e] os]; cbn [o_res o_cmds o_tmp].
        * apply ddel_last, Hfresh.
        * eexists _, _. split; [reflexivity|apply Hfresh].
      + cbn [o_res o_cmds o_tmp]. eexists _, _. split; [reflexivity|apply Hfresh].
    - destruct (parse_lines deq md5 enc dec mk [] c s) as [[t|e] os]; reflexivity.
  Qed.
  Lemma not_reached_lines c (s : fs) l l' : reaches_setup deq md5 dec c s = false ->
    parse_lines deq md5 enc dec mk l c s = parse_lines deq md5 enc dec mk l' c s.
  Proof.
    unfold reaches_setup, parse_lines, do_parse. destruct (if c_nocache c then _ else _) as [[lo rm]|e]; auto.
    intros H. apply negb_false_iff in H. rewrite H. reflexivity.
  Qed.
  Theorem same_as_text cmd c (s : fs) tmp lines : run cmd (f_trace s) = Ok lines ->
    let o := dat cmd c s tmp in let t := txt_construct deq md5 enc dec mk (fun _ => lines) c s tmp in
    o_res o = o_res t /\ o_fs o = o_fs t.
  Proof.
    intros H. cbv zeta. unfold dat_construct, txt_construct. rewrite H. destruct (reaches_setup deq md5 dec c s) eqn:R.
    - destruct (parse_lines deq md5 enc dec mk lines c s) as [r os]. split; reflexivity.
    - rewrite (not_reached_lines c s [] lines R). destruct (parse_lines deq md5 enc dec mk lines c s) as [r os]. split; reflexivity.
  Qed.
  Theorem command_fails cmd c (s : fs) tmp e : run cmd (f_trace s) = Err e -> o_cmds (dat cmd c s tmp) <> [] ->
    o_res (dat cmd c s tmp) = Err e /\ f_trace (o_fs (dat cmd c s tmp)) = f_trace s.
  Proof.
    intros H. unfold dat_construct. rewrite H. destruct (reaches_setup deq md5 dec c s).
    - intros _. cbn [o_res o_fs]. split; auto. unfold setup_ops.
      destruct (if c_nocache c then _ else _) as [[lo rm]|e'] eqn:L; [|reflexivity].
      assert (rm = [] \/ rm = [ORmTree]) as [-> | ->]; [|reflexivity|reflexivity].
      destruct (c_nocache c); [injection L as _ <-; auto|]. unfold load in L. destruct (f_cache s) as [d|]; [|injection L as _ <-; auto].
      destruct (d_meta d) as [[m| |]|]; try discriminate; [|injection L as _ <-; auto].
      destruct (deq _ _); [destruct (m_head m); [injection L as _ <-; auto|discriminate]|injection L as _ <-; auto].
    - destruct (parse_lines deq md5 enc dec mk [] c s) as [r os]. intros K. exfalso. now apply K.
  Qed.
  Theorem leaks cmd cs : forall (s : fs) tmp rs tmp',
    constructions deq md5 enc dec mk run fresh cmd cs s tmp = (rs, tmp') ->
    exists extra, tmp' = tmp ++ extra /\ List.length extra = wasted rs.
  Proof.
    induction cs as [|[c t] cs IH]; intros s tmp rs tmp' H; cbn [constructions] in H.
    - injection H as <- <-. exists []. now rewrite app_nil_r.
    - pose proof (temporaries cmd c (Fs t (f_cache s)) tmp) as T.
      set (o := dat cmd c (Fs t (f_cache s)) tmp) in *.
      destruct (constructions deq md5 enc dec mk run fresh cmd cs (o_fs o) (o_tmp o)) as [rs1 tmp1] eqn:C.
      injection H as <- <-. destruct (IH _ _ _ _ C) as (extra & -> & HL).
      destruct (o_res o) as [tr|e], (o_cmds o) as [|c1 cl]; cbn [wasted]; try (rewrite T; exists extra; auto; fail).
      destruct T as (n & ls & -> & _). exists ((n, ls) :: extra). split; [now rewrite <- app_assoc|cbn; now rewrite HL].
  Qed.
End Dat.
