(** Exporting the pages of interactive plots. *)
From Coq Require Import List Ascii String ZArith Bool Lia.
From Verif Require Import Lib.PyStr Lib.PyStrFacts Lib.Regex Model.ILineGen Model.Export Model.Publish Model.Page Spec.Events Spec.Export Spec.Page Proofs.ExportP.
Import ListNotations.
Local Open Scope list_scope.

(** ** Marks *)
Definition MARK : str := $"TRAPPY_PUBLISH_".
Lemma has_sep c m a b : m <> [] -> ~ In c m -> Has m (a ++ c :: b) -> Has m a \/ Has m b.
Proof.
  intros Hm Hc (u & v & E). rewrite app_assoc in E. apply app_eq_app in E as (l & [[E1 E2]|[E1 E2]]).
  - left. exists u, l. now rewrite E1, <- app_assoc.
  - destruct l as [|x l].
    + rewrite app_nil_r in E1. left. exists u, []. now rewrite <- E1, app_nil_r.
    + cbn in E2. injection E2 as <- ->. apply app_eq_app in E1 as (k & [[E1 E3]|[E1 E3]]).
      * destruct k as [|y k]; [cbn in E3; exfalso; apply Hc; rewrite <- E3; now left|].
        cbn in E3. injection E3 as <- ->. right. exists k, v. now rewrite <- app_assoc.
      * exfalso. apply Hc. rewrite E3. apply in_or_app. right. now left.
Qed.
Lemma has_skip h m x b : ~ In h x -> Has (h :: m) (x ++ b) -> Has (h :: m) b.
Proof.
  induction x as [|y x IH]; intros Hx H; [exact H|]. apply IH; [intros I; apply Hx; now right|].
  destruct H as ([|z u] & v & E); cbn in E; injection E as E1 E2.
  - exfalso. apply Hx. left. now symmetry.
  - exists u, v. exact E2.
Qed.
Lemma calm_glue a c x : Calm a -> ~ In c MARK -> Calm x -> Calm (a ++ c :: x).
Proof. intros Ha Hc Hx H. destruct (has_sep c MARK a x ltac:(discriminate) Hc H) as [K|K]; [exact (Ha K)|exact (Hx K)]. Qed.
Lemma calm_skip x b : ~ In "T"%char x -> Calm b -> Calm (x ++ b).
Proof. intros Hx Hb H. apply Hb. eapply has_skip; [exact Hx|exact H]. Qed.
Lemma calm_by t : contains MARK t = false -> Calm t.
Proof. intros E H. apply has_iff in H. unfold MARK in E. congruence. Qed.
Lemma has_trans m m' l : Has m m' -> Has m' l -> Has m l.
Proof. intros (a & b & ->) (c & d & ->). exists (c ++ a), (b ++ d). now rewrite <- !app_assoc. Qed.
Lemma calm_app_l a b : Calm (a ++ b) -> Calm a.
Proof. intros H (u & v & ->). apply H. exists u, (v ++ b). now rewrite <- !app_assoc. Qed.
Lemma calm_app_r a b : Calm (a ++ b) -> Calm b.
Proof. intros H (u & v & ->). apply H. exists (a ++ u), v. now rewrite <- !app_assoc. Qed.
Lemma fig_calm f b : FigName f -> Calm b -> Calm (f ++ b).
Proof.
  intros (h & -> & _ & H) Hb. apply calm_skip; [|exact Hb]. intros I. apply in_app_or in I as [I|I].
  - cbn in I. repeat destruct I as [I|I]; try discriminate; exact I.
  - rewrite Forall_forall in H. specialize (H _ I). unfold hex_digit in H. cbn in H. repeat destruct H as [H|H]; try discriminate; exact H.
Qed.
Lemma calm_nil : Calm [].
Proof. now apply calm_by. Qed.

(** ** Runs of the filter *)
Section Runs.
  Variable w : env.
  Definition Runs (s : pstate) (a o : list str) (s' : pstate) : Prop :=
    forall b, filter_lines w s false (a ++ b) = do x <- filter_lines w s' false b ;; Ok (o ++ fst x, snd x).
  Lemma runs_nil s : Runs s [] [] s.
  Proof. intros b. cbn [app]. destruct (filter_lines w s false b) as [[x y]|]; reflexivity. Qed.
  Lemma runs_app s a o s1 a' o' s2 : Runs s a o s1 -> Runs s1 a' o' s2 -> Runs s (a ++ a') (o ++ o') s2.
  Proof.
    intros H1 H2 b. rewrite <- app_assoc, H1, H2. destruct (filter_lines w s2 false b) as [[x y]|]; cbn [bind fst snd]; [|reflexivity].
    now rewrite app_assoc.
  Qed.
  Lemma runs_cons s a o s1 l o' s0 : Runs s0 [l] o' s -> Runs s a o s1 -> Runs s0 (l :: a) (o' ++ o) s1.
  Proof. intros H1 H2. apply (runs_app s0 [l] o' s a o s1 H1 H2). Qed.
  Lemma calm_mark l m : Calm l -> Has MARK m -> contains m l = false.
  Proof. intros C H. destruct (contains m l) eqn:E; [|reflexivity]. exfalso. apply C. eapply has_trans; [exact H|]. now apply has_iff. Qed.
  Lemma calm_plain l : Calm l -> re_search pat_import l = None /\ re_search pat_source l = None.
  Proof.
    intros C. apply plain_iff. split.
    - intros f (a & call & b & -> & (_ & _ & ->) & _). apply C. exists (a ++ $"/* "), ($"IMPORT = " ++ [dq] ++ f ++ [dq] ++ $" */" ++ b).
      rewrite <- !app_assoc. reflexivity.
    - intros u [(a & call & b & -> & (_ & _ & ->) & _) _]. apply C. exists (a ++ $"<!-- "), ($"SOURCE_LIB = " ++ [dq] ++ u ++ [dq] ++ $" -->" ++ b).
      rewrite <- !app_assoc. reflexivity.
  Qed.
  Lemma runs_calm s l : Calm l -> Runs s [l] [l] s.
  Proof.
    intros C b. cbn [app filter_lines].
    rewrite (calm_mark l remove_start C), (calm_mark l remove_stop C), (calm_mark l remove_line C) by (apply has_iff; vm_compute; reflexivity).
    cbn [orb]. destruct (calm_plain l C) as [-> ->]. reflexivity.
  Qed.
  Lemma runs_calms s ls : Forall Calm ls -> Runs s ls ls s.
  Proof.
    induction 1 as [|l ls Hl _ IH]; [apply runs_nil|]. change (l :: ls) with ([l] ++ ls). eapply runs_app; [now apply runs_calm|exact IH].
  Qed.
  Lemma calm_split t : Calm t -> Forall Calm (split_ch nl t).
  Proof.
    intros C. assert (forall l, In l (split_ch nl t) -> exists a b, t = a ++ l ++ b) as H.
    { intros l Hl. rewrite <- (join_split_ch nl t). apply in_split in Hl as (l1 & l2 & E). rewrite E. clear.
      induction l1 as [|x l1 IH].
      - destruct l2 as [|y l2]; [exists [], []; cbn; now rewrite app_nil_r|]. exists [], ([nl] ++ join [nl] (y :: l2)). reflexivity.
      - destruct IH as (a & b & IH). cbn [app]. destruct (l1 ++ l :: l2) as [|y r] eqn:E; [destruct l1; discriminate|].
        exists (x ++ [nl] ++ a), b. change (join [nl] (x :: y :: r)) with (x ++ [nl] ++ join [nl] (y :: r)). rewrite IH. now rewrite <- !app_assoc. }
    apply Forall_forall. intros l Hl. destruct (H l Hl) as (a & b & ->). eapply calm_app_l, calm_app_r. exact C.
  Qed.
  (** Texts between line breaks *)
  Lemma split_break a b : split_ch nl (a ++ [nl] ++ b) = split_ch nl a ++ split_ch nl b.
  Proof.
    induction a as [|c a IH]; [reflexivity|]. cbn [app split_ch] in *. destruct (Ascii.eqb c nl); [now rewrite IH|]. rewrite IH.
    pose proof (split_ch_nonnil nl a). destruct (split_ch nl a); [congruence|reflexivity].
  Qed.
  Lemma split_joined ls : ls <> [] -> split_ch nl (join [nl] ls) = flat_map (split_ch nl) ls.
  Proof.
    induction ls as [|l ls IH]; [congruence|]. intros _. destruct ls as [|l' ls]; [cbn; now rewrite app_nil_r|].
    change (join [nl] (l :: l' :: ls)) with (l ++ [nl] ++ join [nl] (l' :: ls)). rewrite split_break, IH by discriminate. reflexivity.
  Qed.
  Lemma join_flat ls : ls <> [] -> join [nl] (flat_map (split_ch nl) ls) = join [nl] ls.
  Proof. intros H. now rewrite <- split_joined, join_split_ch. Qed.

  Lemma runs_elem s x : Calm x -> Runs s (split_ch nl x) (split_ch nl x) s.
  Proof. intros C. now apply runs_calms, calm_split. Qed.
  Lemma runs_elems s ls : Forall Calm ls -> Runs s (flat_map (split_ch nl) ls) (flat_map (split_ch nl) ls) s.
  Proof. induction 1 as [|l ls Hl _ IH]; [apply runs_nil|]. cbn [flat_map]. eapply runs_app; [now apply runs_elem|exact IH]. Qed.
  Definition src_ok (u : str) : bool :=
    let l := source_line u in
    negb (contains remove_start l) && negb (contains remove_stop l) && negb (contains remove_line l) &&
    match re_search pat_import l with Some _ => false | None => true end &&
    match re_search pat_source l with Some m => match group 1 m with Some g => eqs g u | None => false end | None => false end.
  Definition add_src (u : str) (s : pstate) : pstate := if mem u (ps_sourced s) then s else PS (ps_inlined s) (ps_sourced s ++ [u]).
  Lemma runs_source s u : src_ok u = true -> Runs s [source_line u] (if mem u (ps_sourced s) then [] else [tag u]) (add_src u s).
  Proof.
    unfold src_ok, add_src. intros H b. apply andb_true_iff in H as [H H5]. apply andb_true_iff in H as [H H4].
    apply andb_true_iff in H as [H H3]. apply andb_true_iff in H as [H1 H2]. apply negb_true_iff in H1, H2, H3.
    cbn [app filter_lines]. rewrite H1, H2, H3. cbn [orb]. destruct (re_search pat_import (source_line u)); [discriminate|].
    destruct (re_search pat_source (source_line u)) as [m|]; [|discriminate]. destruct (group 1 m) as [g|]; [|discriminate]. apply eqs_eq in H5. subst g.
    destruct (mem u (ps_sourced s)).
    - destruct (filter_lines w s false b) as [[x y]|]; reflexivity.
    - rewrite tag_eq. reflexivity.
  Qed.
  Definition imp_ok (l f : str) : bool :=
    negb (contains remove_start l) && negb (contains remove_stop l) && negb (contains remove_line l) &&
    match re_search pat_import l with Some m => match group 1 m with Some g => eqs g f | None => false end | None => false end.
  Lemma runs_import s l f c : imp_ok l f = true -> e_file w (path_join (e_base w) f) = Some c ->
    Runs s [l] (if mem (path_join (e_base w) f) (ps_inlined s) then [] else readlines_chopped c)
         (if mem (path_join (e_base w) f) (ps_inlined s) then s else PS (ps_inlined s ++ [path_join (e_base w) f]) (ps_sourced s)).
  Proof.
    unfold imp_ok. intros H Hf b. apply andb_true_iff in H as [H H5]. apply andb_true_iff in H as [H H3]. apply andb_true_iff in H as [H1 H2].
    apply negb_true_iff in H1, H2, H3. cbn [app filter_lines]. rewrite H1, H2, H3. cbn [orb].
    destruct (re_search pat_import l) as [m|]; [|discriminate]. destruct (group 1 m) as [g|]; [|discriminate]. apply eqs_eq in H5. subst g.
    destruct (mem (path_join (e_base w) f) (ps_inlined s)).
    - destruct (filter_lines w s false b) as [[x y]|]; reflexivity.
    - now rewrite Hf.
  Qed.
  Lemma removing s stop b ls : forallb (fun l => negb (contains remove_start l) && negb (contains remove_stop l)) ls = true ->
    contains remove_start stop = false -> contains remove_stop stop = true ->
    filter_lines w s true (ls ++ stop :: b) = filter_lines w s false b.
  Proof.
    intros H H1 H2. induction ls as [|l ls IH]; cbn [app filter_lines].
    - now rewrite H1, H2.
    - cbn [forallb] in H. apply andb_true_iff in H as [Hl H]. apply andb_true_iff in Hl as [Ha Hb]. apply negb_true_iff in Ha, Hb. rewrite Ha, Hb. cbn [orb]. auto.
  Qed.
  Lemma runs_region s start ls stop : contains remove_start start = true ->
    forallb (fun l => negb (contains remove_start l) && negb (contains remove_stop l)) ls = true ->
    contains remove_start stop = false -> contains remove_stop stop = true -> Runs s (start :: ls ++ [stop]) [] s.
  Proof.
    intros H0 H H1 H2 b. cbn [app filter_lines]. rewrite H0, <- app_assoc. cbn [app]. rewrite removing by auto.
    destruct (filter_lines w s false b) as [[x y]|]; reflexivity.
  Qed.
  Lemma runs_line s l : contains remove_start l = false -> contains remove_stop l = false -> contains remove_line l = true -> Runs s [l] [] s.
  Proof.
    intros H1 H2 H3 b. cbn [app filter_lines]. rewrite H1, H2, H3. cbn [orb]. destruct (filter_lines w s false b) as [[x y]|]; reflexivity.
  Qed.
End Runs.
Lemma chopped_lines c : Forall (fun l => ~ In nl l) (readlines_chopped c).
Proof.
  unfold readlines_chopped. pose proof (split_ch_pieces nl c) as H. induction H as [|l ls Hl Hs IH]; [constructor|].
  destruct ls as [|l' ls]; [|constructor; auto]. destruct l as [|x l]; [constructor|]. constructor; [|constructor].
  intros I. apply Hl. clear -I. revert x I. induction l as [|y l IH]; intros x I; [destruct I|]. change (x = nl \/ In nl (removelast (y :: l))) in I. destruct I as [E|I]; [now left|right; now apply IH].
Qed.
Lemma split_chopped c : flat_map (split_ch nl) (readlines_chopped c) = readlines_chopped c.
Proof. induction (chopped_lines c) as [|l ls Hl _ IH]; [reflexivity|]. cbn [flat_map]. rewrite split_ch_nosep by exact Hl. cbn [app]. now rewrite IH. Qed.

(** ** The scripts *)
Definition line_urls : list str := [DYGRAPH_COMBINED_URL; DYGRAPH_SYNC_URL; UNDERSCORE_URL].
Definition event_urls : list str := [D3_PLOTTER_URL; D3_TIP_URL].
Definition line_file : str := $"plotter/js/ILinePlot.js".
Definition event_file : str := $"plotter/js/EventPlot.js".
Definition gone (s : pstate) (base : str) (urls : list str) (f : str) (b : bool) : Prop :=
  mem (path_join base f) (ps_inlined s) = b /\ Forall (fun u => mem u (ps_sourced s) = b) urls.
Definition loaded (s : pstate) (base : str) (urls : list str) (f : str) : pstate :=
  PS (ps_inlined s ++ [path_join base f]) (ps_sourced s ++ urls).
Lemma mem_app x a b : mem x (a ++ b) = mem x a || mem x b.
Proof. unfold mem. apply existsb_app. Qed.
Lemma eqs_refl x : eqs x x = true.
Proof. now apply eqs_eq. Qed.

Section Scripts.
  Variables (w : env) (v4 : bool).
  Fixpoint tags (urls : list str) (s : pstate) : list str * pstate :=
    match urls with
    | [] => ([], s)
    | u :: r => let x := tags r (add_src u s) in ((if mem u (ps_sourced s) then [] else [tag u]) ++ fst x, snd x)
    end.
  Lemma runs_sources urls : forallb src_ok urls = true -> forall s, Runs w s (map source_line urls) (fst (tags urls s)) (snd (tags urls s)).
  Proof.
    induction urls as [|u r IH]; intros H s; [apply runs_nil|]. cbn [forallb] in H. apply andb_true_iff in H as [H1 H2].
    cbn [map tags fst snd]. eapply runs_cons; [now apply runs_source|now apply IH].
  Qed.
  Lemma tags_done urls s : Forall (fun u => mem u (ps_sourced s) = true) urls -> tags urls s = ([], s).
  Proof. induction 1 as [|u r H _ IH]; [reflexivity|]. cbn [tags]. unfold add_src. rewrite H, IH. reflexivity. Qed.
  Lemma tags_fresh urls : forall s, NoDup urls -> Forall (fun u => mem u (ps_sourced s) = false) urls ->
    tags urls s = (map tag urls, PS (ps_inlined s) (ps_sourced s ++ urls)).
  Proof.
    induction urls as [|u r IH]; intros s N H; [cbn; rewrite app_nil_r; now destruct s|]. inversion N; subst. inversion H as [|? ? Hu Hr]; subst.
    cbn [tags]. unfold add_src. rewrite Hu, IH; auto.
    - cbn [fst snd ps_inlined ps_sourced map app]. now rewrite <- app_assoc.
    - cbn [ps_sourced]. apply Forall_forall. intros x Hx. rewrite Forall_forall in Hr. rewrite mem_app, (Hr x Hx). cbn [mem existsb orb]. unfold mem. cbn.
      destruct (eqs x u) eqn:E; [apply eqs_eq in E; now subst|reflexivity].
  Qed.
  Lemma opt_calm c : match c with Some t => Calm t | None => True end -> Calm (match c with Some t => $", " ++ t | None => [] end ++ $");").
  Proof.
    intros H. destruct c as [t|]; [|now apply calm_by]. rewrite <- app_assoc. change ($", " ++ t ++ $");") with ($"," ++ " "%char :: t ++ ")"%char :: $";").
    apply calm_glue; [now apply calm_by|cbn; intuition discriminate|]. apply calm_glue; [exact H|cbn; intuition discriminate|now apply calm_by].
  Qed.
  Lemma call_calm fig c : FigName fig -> match c with Some t => Calm t | None => True end ->
    Calm ($"                ILinePlot.generate(" ++ fig ++ $"_data" ++ match c with Some t => $", " ++ t | None => [] end ++ $");").
  Proof.
    intros Hf Hc. match goal with |- Calm (_ ++ ?t) => change (Calm ($"                ILinePlot.generate" ++ "("%char :: t)) end.
    apply calm_glue; [now apply calm_by|cbn; intuition discriminate|]. apply fig_calm; [exact Hf|].
    apply calm_skip; [cbn; intuition discriminate|now apply opt_calm].
  Qed.
  Lemma runs_graph s fig c js b : FigName fig -> match c with Some t => Calm t | None => True end ->
    e_file w (path_join (e_base w) line_file) = Some js -> gone s (e_base w) line_urls line_file b ->
    Runs w s (split_ch nl (graph_js v4 fig c))
      (flat_map (split_ch nl) (if b then line_script [] [] c fig else line_script line_libs (readlines_chopped js) c fig))
      (if b then s else loaded s (e_base w) line_urls line_file).
  Proof.
    intros Hf Hc Hj [Hm Hu]. unfold graph_js. rewrite split_joined by discriminate. rewrite flat_map_app.
    set (call := $"                ILinePlot.generate(" ++ fig ++ $"_data" ++ match c with Some t => $", " ++ t | None => [] end ++ $");").
    assert (Runs w s (flat_map (split_ch nl) (map source_line line_urls)) (if b then [] else line_libs) (if b then s else PS (ps_inlined s) (ps_sourced s ++ line_urls))) as R1.
    { replace (flat_map (split_ch nl) (map source_line line_urls)) with (map source_line line_urls) by (vm_compute; reflexivity).
      pose proof (runs_sources line_urls ltac:(vm_compute; reflexivity) s) as R. destruct b.
      - rewrite tags_done in R by exact Hu. exact R.
      - rewrite tags_fresh in R; [exact R| |exact Hu]. repeat constructor; cbn; intuition discriminate. }
    set (s1 := if b then s else PS (ps_inlined s) (ps_sourced s ++ line_urls)) in *.
    assert (mem (path_join (e_base w) line_file) (ps_inlined s1) = b) as Hm1 by (subst s1; destruct b; exact Hm).
    replace (flat_map (split_ch nl) (if b then line_script [] [] c fig else line_script line_libs (readlines_chopped js) c fig))
      with ((if b then [] else line_libs) ++ [$""; $"            <script>"] ++ (if b then [] else readlines_chopped js) ++ [] ++ [] ++ split_ch nl call ++ [] ++ [$"            </script>"; $"        "]).
    2:{ unfold line_script. fold call. destruct b.
        - reflexivity.
        - rewrite !flat_map_app, split_chopped. reflexivity. }
    eapply runs_app; [exact R1|].
    match goal with |- Runs _ _ (flat_map _ ?l) _ _ => set (ls := l) end.
    replace (flat_map (split_ch nl) ls) with ([$""; $"            <script>"] ++ [$"            /* TRAPPY_PUBLISH_IMPORT = ""plotter/js/ILinePlot.js"" */"] ++
      firstn 20 (skipn 3 ls) ++ firstn 1 (skipn 23 ls) ++ split_ch nl call ++ firstn 1 (skipn 25 ls) ++ [$"            </script>"; $"        "]).
    2:{ subst ls. cbn [firstn skipn flat_map]. fold call. destruct v4; reflexivity. }
    eapply runs_app; [apply runs_calms; repeat constructor; now apply calm_by|].
    pose proof (runs_import w s1 $"            /* TRAPPY_PUBLISH_IMPORT = ""plotter/js/ILinePlot.js"" */" line_file js ltac:(vm_compute; reflexivity) Hj) as R2.
    rewrite Hm1 in R2. eapply runs_app; [exact R2|].
    replace (if b then s1 else PS (ps_inlined s1 ++ [path_join (e_base w) line_file]) (ps_sourced s1)) with (if b then s else loaded s (e_base w) line_urls line_file)
      by (subst s1; destruct b; reflexivity).
    eapply runs_app.
    { subst ls. cbn [firstn skipn]. match goal with |- Runs _ _ (?a :: ?r) _ _ => change (a :: r) with (a :: removelast r ++ [last r []]) end.
      cbn [removelast last]. destruct v4; (apply runs_region; vm_compute; reflexivity). }
    eapply runs_app; [apply runs_line; vm_compute; reflexivity|].
    eapply runs_app; [apply runs_elem; now apply call_calm|].
    eapply runs_app; [apply runs_line; vm_compute; reflexivity|].
    apply runs_calms; repeat constructor; now apply calm_by.
  Qed.

  Lemma join_last (ls : list str) a b : join [nl] (ls ++ [a]) ++ b = join [nl] (ls ++ [a ++ b]).
  Proof.
    induction ls as [|l ls IH]; [reflexivity|]. cbn [app]. destruct (ls ++ [a]) as [|x r] eqn:E; [destruct ls; discriminate|].
    destruct (ls ++ [a ++ b]) as [|y r'] eqn:E'; [destruct ls; discriminate|].
    change (join [nl] (l :: x :: r)) with (l ++ [nl] ++ join [nl] (x :: r)). change (join [nl] (l :: y :: r')) with (l ++ [nl] ++ join [nl] (y :: r')).
    rewrite <- IH. now rewrite <- !app_assoc.
  Qed.
  Definition event_call (fig data : str) : str :=
    $"            EventPlot.generate('" ++ fig ++ $"', '" ++ (if v4 then $"/nbextensions/" else $"/static/") ++ $"', " ++ data ++ $");".
  Lemma event_call_calm fig data : FigName fig -> Calm data -> Calm (event_call fig data).
  Proof.
    intros Hf Hd. unfold event_call. match goal with |- Calm (_ ++ ?t) => change (Calm ($"            EventPlot.generate(" ++ "'"%char :: t)) end.
    apply calm_glue; [now apply calm_by|cbn; intuition discriminate|]. apply fig_calm; [exact Hf|].
    match goal with |- Calm (?p ++ ?x ++ ?y ++ ?z ++ ?t) => replace (p ++ x ++ y ++ z ++ t) with ((p ++ x ++ $"',") ++ " "%char :: z ++ ")"%char :: $";") by (now rewrite <- !app_assoc) end.
    apply calm_glue; [destruct v4; now apply calm_by|cbn; intuition discriminate|]. apply calm_glue; [exact Hd|cbn; intuition discriminate|now apply calm_by].
  Qed.
  Lemma div_calm fig : FigName fig -> Calm ($"<div id=""" ++ fig ++ $""" class=""eventplot"">").
  Proof.
    intros Hf. match goal with |- Calm (_ ++ ?t) => change (Calm ($"<div id=" ++ """"%char :: t)) end.
    apply calm_glue; [now apply calm_by|cbn; intuition discriminate|]. apply fig_calm; [exact Hf|now apply calm_by].
  Qed.
  Lemma runs_event s fig data js b : FigName fig -> Calm data ->
    e_file w (path_join (e_base w) event_file) = Some js -> gone s (e_base w) event_urls event_file b ->
    Runs w s (split_ch nl (event_div v4 fig data))
      (flat_map (split_ch nl) (if b then event_script [] [] v4 fig data else event_script event_libs (readlines_chopped js) v4 fig data))
      (if b then s else loaded s (e_base w) event_urls event_file).
  Proof.
    intros Hf Hd Hj [Hm Hu]. set (call := event_call fig data). set (dv := $"<div id=""" ++ fig ++ $""" class=""eventplot"">").
    assert (forall t, $"<div id=""" ++ fig ++ $""" class=""eventplot"">" ++ [nl] ++ t = dv ++ [nl] ++ t) as Ed by (intros t; subst dv; now rewrite <- !app_assoc).
    unfold event_div. rewrite Ed, split_break.
    match goal with |- Runs _ _ (_ ++ split_ch _ (join _ (?a ++ ?l) ++ _)) _ _ => set (urls := a); set (ls0 := l) end.
    replace (join [nl] (urls ++ ls0) ++ $"</div>") with (join [nl] (urls ++ (removelast ls0 ++ [$"        </div>"]))).
    2:{ replace (urls ++ ls0) with ((urls ++ removelast ls0) ++ [$"        "]) by (subst ls0; now rewrite <- app_assoc). rewrite join_last. now rewrite <- app_assoc. }
    subst ls0. cbn [removelast app]. rewrite split_joined by discriminate.
    match goal with |- Runs _ _ (_ ++ flat_map _ ?l) _ _ => set (all := l) end.
    assert (all = map source_line event_urls ++ skipn 2 all) as Ea by reflexivity. rewrite Ea, flat_map_app. clear Ea.
    assert (Runs w s (flat_map (split_ch nl) (map source_line event_urls)) (if b then [] else event_libs) (if b then s else PS (ps_inlined s) (ps_sourced s ++ event_urls))) as R1.
    { replace (flat_map (split_ch nl) (map source_line event_urls)) with (map source_line event_urls) by (vm_compute; reflexivity).
      pose proof (runs_sources event_urls ltac:(vm_compute; reflexivity) s) as R. destruct b.
      - rewrite tags_done in R by exact Hu. exact R.
      - rewrite tags_fresh in R; [exact R| |exact Hu]. repeat constructor; cbn; intuition discriminate. }
    set (s1 := if b then s else PS (ps_inlined s) (ps_sourced s ++ event_urls)) in *.
    assert (mem (path_join (e_base w) event_file) (ps_inlined s1) = b) as Hm1 by (subst s1; destruct b; exact Hm).
    replace (flat_map (split_ch nl) (if b then event_script [] [] v4 fig data else event_script event_libs (readlines_chopped js) v4 fig data))
      with (split_ch nl dv ++ (if b then [] else event_libs) ++ [$""; $"        <script>"] ++ (if b then [] else readlines_chopped js) ++ [] ++ [$"            "] ++ [] ++ split_ch nl call ++ [] ++ [$"        </script>"; $"        </div>"]).
    2:{ unfold event_script. fold dv. fold (event_call fig data). fold call. destruct b.
        - reflexivity.
        - rewrite !flat_map_app, split_chopped. cbn [flat_map]. now rewrite app_nil_r. }
    eapply runs_app; [apply runs_elem; now apply div_calm|].
    eapply runs_app; [exact R1|].
    replace (flat_map (split_ch nl) (skipn 2 all)) with ([$""; $"        <script>"] ++ [$"            /* TRAPPY_PUBLISH_IMPORT = ""plotter/js/EventPlot.js"" */"] ++
      firstn 23 (skipn 5 all) ++ [$"            "] ++ firstn 1 (skipn 29 all) ++ split_ch nl call ++ firstn 1 (skipn 31 all) ++ [$"        </script>"; $"        </div>"]).
    2:{ subst all. cbn [firstn skipn flat_map]. subst call. unfold event_call. destruct v4; reflexivity. }
    eapply runs_app; [apply runs_calms; repeat constructor; now apply calm_by|].
    pose proof (runs_import w s1 $"            /* TRAPPY_PUBLISH_IMPORT = ""plotter/js/EventPlot.js"" */" event_file js ltac:(vm_compute; reflexivity) Hj) as R2.
    rewrite Hm1 in R2. eapply runs_app; [exact R2|].
    replace (if b then s1 else PS (ps_inlined s1 ++ [path_join (e_base w) event_file]) (ps_sourced s1)) with (if b then s else loaded s (e_base w) event_urls event_file)
      by (subst s1; destruct b; reflexivity).
    eapply runs_app.
    { subst all urls. cbn [firstn skipn map app]. match goal with |- Runs _ _ (?a :: ?r) _ _ => change (a :: r) with (a :: removelast r ++ [last r []]) end.
      cbn [removelast last]. destruct v4; (apply runs_region; vm_compute; reflexivity). }
    eapply runs_app; [apply runs_calms; repeat constructor; now apply calm_by|].
    eapply runs_app; [apply runs_line; vm_compute; reflexivity|].
    eapply runs_app; [apply runs_elem; now apply event_call_calm|].
    eapply runs_app; [apply runs_line; vm_compute; reflexivity|].
    apply runs_calms; repeat constructor; now apply calm_by.
  Qed.
End Scripts.

(** ** Pages *)
Lemma tok_calm t : tok_ok t -> Calm (tok_html t).
Proof.
  destruct t as [|s| |f|f| |]; intros H; cbn [tok_html]; try (now apply calm_by).
  - match goal with |- Calm (_ ++ ?t) => change (Calm ($"<caption style=""text-align:center; font: 24px sans-serif bold; color: black""" ++ ">"%char :: t)) end.
    apply calm_glue; [now apply calm_by|cbn; intuition discriminate|]. change (Calm (s ++ "<"%char :: $"/caption>")).
    apply calm_glue; [exact H|cbn; intuition discriminate|now apply calm_by].
  - match goal with |- Calm (_ ++ ?t) => change (Calm ($"<td style=""border-style: hidden;""><div class=""ilineplot"" id=" ++ """"%char :: t)) end.
    apply calm_glue; [now apply calm_by|cbn; intuition discriminate|]. apply fig_calm; [exact H|now apply calm_by].
  - match goal with |- Calm (_ ++ ?t) => change (Calm ($"<td style=""border-style: hidden;""><div style=""text-align:center"" id=" ++ """"%char :: t)) end.
    apply calm_glue; [now apply calm_by|cbn; intuition discriminate|]. apply fig_calm; [exact H|now apply calm_by].
Qed.
Lemma data_calm s : FigName (fst s) -> Calm (snd s) -> Forall Calm (data_lines s).
Proof.
  intros Hf Hd. unfold data_lines. constructor; [now apply calm_by|]. constructor; [|repeat constructor; now apply calm_by].
  change (Calm ($"var" ++ " "%char :: fst s ++ $"_data = " ++ snd s ++ $";")).
  apply calm_glue; [now apply calm_by|cbn; intuition discriminate|]. apply fig_calm; [exact Hf|].
  change (Calm ($"_data =" ++ " "%char :: snd s ++ ";"%char :: [])).
  apply calm_glue; [now apply calm_by|cbn; intuition discriminate|]. apply calm_glue; [exact Hd|cbn; intuition discriminate|now apply calm_by].
Qed.
Definition prefix_of (base : str) : str := if eqs base [] || is_suffix $"/" base then base else base ++ $"/".
Lemma join_path base f : is_prefix $"/" f = false -> path_join base f = prefix_of base ++ f.
Proof. intros H. unfold path_join, prefix_of. rewrite H. destruct (eqs base [] || is_suffix $"/" base); [reflexivity|]. now rewrite <- app_assoc. Qed.
Lemma files_apart base : path_join base line_file <> path_join base event_file.
Proof. rewrite !join_path by reflexivity. intros E. apply app_inv_head in E. discriminate. Qed.
Definition St (base : str) (l e : bool) (s : pstate) : Prop := gone s base line_urls line_file l /\ gone s base event_urls event_file e.
Lemma gone_loaded s base urls f : gone (loaded s base urls f) base urls f true.
Proof.
  split; unfold loaded; cbn [ps_inlined ps_sourced].
  - rewrite mem_app. unfold mem at 2. cbn [existsb]. rewrite eqs_refl. now rewrite orb_true_r.
  - apply Forall_forall. intros u Hu. rewrite mem_app. replace (mem u urls) with true; [now rewrite orb_true_r|]. symmetry. now apply mem_In.
Qed.
Lemma gone_other s base urls f urls' f' b : path_join base f <> path_join base f' -> (forall u, In u urls' -> ~ In u urls) ->
  gone s base urls' f' b -> gone (loaded s base urls f) base urls' f' b.
Proof.
  intros Hf Hu [H1 H2]. split; unfold loaded; cbn [ps_inlined ps_sourced].
  - rewrite mem_app, H1. unfold mem. cbn [existsb]. destruct (eqs (path_join base f') (path_join base f)) eqn:E; [apply eqs_eq in E; congruence|]. now rewrite !orb_false_r.
  - apply Forall_forall. intros u Hi. rewrite Forall_forall in H2. rewrite mem_app, (H2 u Hi). destruct (mem u urls) eqn:E; [|now rewrite orb_false_r].
    apply mem_In in E. exfalso. eapply Hu; eauto.
Qed.
Lemma urls_apart u : In u line_urls -> ~ In u event_urls.
Proof. intros H1 H2. cbn in H1, H2. repeat destruct H1 as [H1|H1]; try (exact H1); subst u; repeat destruct H2 as [H2|H2]; try discriminate; exact H2. Qed.
Lemma st_line base l e s : St base l e s -> St base true e (if l then s else loaded s base line_urls line_file).
Proof.
  intros [H1 H2]. destruct l; [split; auto|]. split; [apply gone_loaded|]. apply gone_other; auto; [apply files_apart|].
  intros u Hu Hl. exact (urls_apart u Hl Hu).
Qed.
Lemma st_event base l e s : St base l e s -> St base l true (if e then s else loaded s base event_urls event_file).
Proof.
  intros [H1 H2]. destruct e; [split; auto|]. split; [|apply gone_loaded]. apply gone_other; auto; [intros E; symmetry in E; revert E; apply files_apart|].
  exact urls_apart.
Qed.

Section Pages.
  Variables (w : env) (v4 : bool) (css jsl jse : str).
  Hypothesis (Hl : e_file w (path_join (e_base w) line_file) = Some jsl) (He : e_file w (path_join (e_base w) event_file) = Some jse).
  Hypothesis (Hcss : Calm css).
  Lemma runs_graphs c figs : match c with Some t => Calm t | None => True end -> Forall FigName figs -> forall s, gone s (e_base w) line_urls line_file true ->
    Runs w s (flat_map (split_ch nl) (map (fun f => graph_js v4 f c) figs)) (flat_map (split_ch nl) (flat_map (line_script [] [] c) figs)) s.
  Proof.
    intros Hc H. induction H as [|f figs Hf _ IH]; intros s Hs; [apply runs_nil|]. cbn [map flat_map]. rewrite flat_map_app.
    eapply runs_app; [|now apply IH]. exact (runs_graph w v4 s f c jsl true Hf Hc Hl Hs).
  Qed.
  Lemma css_calm : Forall Calm (readlines_chopped css).
  Proof.
    unfold readlines_chopped. induction (calm_split css Hcss) as [|l ls H _ IH]; [constructor|]. destruct ls as [|l' ls]; [|constructor; auto].
    destruct l as [|x l]; [constructor|]. constructor; [|constructor]. assert (x :: l <> []) as N by discriminate.
    rewrite (app_removelast_last " "%char N) in H. eapply calm_app_l. exact H.
  Qed.
  Lemma exported_ne l e p : page_ok p -> exported v4 (readlines_chopped jsl) (readlines_chopped jse) (readlines_chopped css) l e p <> [].
  Proof.
    destruct p as [c ts d|f d|t]; cbn [exported page_ok]; [|discriminate|discriminate]. intros (_ & _ & H & _). destruct ts; [now destruct H|discriminate].
  Qed.
  Lemma graphs_ok ts : Forall tok_ok ts -> Forall FigName (graphs ts).
  Proof.
    induction 1 as [|t ts H _ IH]; [constructor|]. cbn [graphs flat_map]. destruct t; auto. constructor; auto.
  Qed.
  Lemma page_runs l e s p : page_ok p -> St (e_base w) l e s -> exists s',
    Runs w s (split_ch nl (text v4 css p)) (flat_map (split_ch nl) (exported v4 (readlines_chopped jsl) (readlines_chopped jse) (readlines_chopped css) l e p)) s' /\
    St (e_base w) (l || is_line p) (e || is_event p) s'.
  Proof.
    intros Hp Hs. destruct p as [c ts d|f d|t]; cbn [text exported page_ok is_line is_event] in *; rewrite ?orb_true_r, ?orb_false_r.
    - destruct Hp as (Hc & Ht & Hg & Hd). exists (if l then s else loaded s (e_base w) line_urls line_file). split; [|now apply st_line].
      unfold line_html. rewrite split_joined by (destruct ts; [now destruct Hg|discriminate]). rewrite !flat_map_app.
      eapply runs_app; [apply runs_elems|].
      { apply Forall_forall. intros x Hx. apply in_map_iff in Hx as (t & <- & Hi). rewrite Forall_forall in Ht. now apply tok_calm, Ht. }
      eapply runs_app; [apply runs_elems|].
      { apply Forall_forall. intros x Hx. apply in_flat_map in Hx as (t & Hi & Hx). rewrite Forall_forall in Hd. destruct (Hd t Hi) as [Hf Hj].
        pose proof (data_calm t Hf Hj) as H. rewrite Forall_forall in H. now apply H. }
      pose proof (graphs_ok ts Ht) as Hf. destruct (graphs ts) as [|f fs]; [congruence|]. inversion Hf as [|? ? Hf1 Hf2]; subst.
      cbn [map flat_map]. rewrite flat_map_app. destruct Hs as [Hs He'].
      eapply runs_app; [exact (runs_graph w v4 s f c jsl l Hf1 Hc Hl Hs)|]. apply runs_graphs; auto.
      destruct l; [exact Hs|apply gone_loaded].
    - destruct Hp as [Hf Hd]. exists (if e then s else loaded s (e_base w) event_urls event_file). split; [|now apply st_event].
      unfold event_html. rewrite split_joined by discriminate. cbn [app]. rewrite !(flat_map_app _ _ (readlines_chopped css ++ _)) || idtac.
      change ($"<style>" :: readlines_chopped css ++ [$"</style>"; event_div v4 f d]) with ([$"<style>"] ++ readlines_chopped css ++ [$"</style>"] ++ [event_div v4 f d]).
      match goal with |- Runs _ _ _ (flat_map _ ($"<style>" :: readlines_chopped css ++ $"</style>" :: ?x)) _ =>
        change ($"<style>" :: readlines_chopped css ++ $"</style>" :: x) with ([$"<style>"] ++ readlines_chopped css ++ [$"</style>"] ++ x) end.
      rewrite !flat_map_app. eapply runs_app; [apply runs_elems; repeat constructor; now apply calm_by|].
      eapply runs_app; [apply runs_elems, css_calm|]. eapply runs_app; [apply runs_elems; repeat constructor; now apply calm_by|].
      cbn [flat_map]. rewrite app_nil_r. destruct Hs as [_ Hs]. exact (runs_event w v4 s f d jse e Hf Hd He Hs).
    - exists s. split; [|exact Hs]. cbn [flat_map]. rewrite app_nil_r. now apply runs_elem.
  Qed.
  Lemma page_filter l e s p : page_ok p -> St (e_base w) l e s -> exists s',
    filter_output w s (text v4 css p) = Ok (join [LF] (exported v4 (readlines_chopped jsl) (readlines_chopped jse) (readlines_chopped css) l e p), s') /\
    St (e_base w) (l || is_line p) (e || is_event p) s'.
  Proof.
    intros Hp Hs. destruct (page_runs l e s p Hp Hs) as (s' & R & Hs'). exists s'. split; [|exact Hs'].
    unfold filter_output. specialize (R []). rewrite app_nil_r in R. rewrite R. cbn [filter_lines bind fst snd]. rewrite app_nil_r.
    change LF with nl. now rewrite join_flat by now apply exported_ne.
  Qed.
  Lemma pages_filter ps : Forall page_ok ps -> forall l e s, St (e_base w) l e s -> exists s',
    filter_texts w s (map (text v4 css) ps) = Ok (exported_all v4 (readlines_chopped jsl) (readlines_chopped jse) (readlines_chopped css) l e ps, s').
  Proof.
    induction 1 as [|p ps Hp _ IH]; intros l e s Hs; [exists s; reflexivity|]. cbn [map filter_texts exported_all].
    destruct (page_filter l e s p Hp Hs) as (s1 & -> & Hs1). cbn [bind fst snd]. destruct (IH _ _ s1 Hs1) as (s2 & ->). exists s2. reflexivity.
  Qed.
End Pages.

Theorem export_pages X w v4 css jsl jse fl fe cl ce cc ps (cs : list (cell X)) :
  FileOf (e_base w) $"plotter/js/ILinePlot.js" fl -> e_file w fl = Some jsl -> Lines jsl cl ->
  FileOf (e_base w) $"plotter/js/EventPlot.js" fe -> e_file w fe = Some jse -> Lines jse ce ->
  Calm css -> Lines css cc -> Forall page_ok ps -> texts cs = map (text v4 css) ps ->
  exists cs', export w cs = Ok cs' /\ blank cs' = blank cs /\ texts cs' = exported_all v4 cl ce cc false false ps.
Proof.
  intros F1 E1 L1 F2 E2 L2 Hc L3 Hp Ht. apply file_of_iff in F1, F2. subst fl fe. apply lines_fun in L1, L2, L3. subst cl ce cc.
  destruct (pages_filter w v4 css jsl jse E1 E2 Hc ps Hp false false ps_init) as (s' & H).
  { split; split; try reflexivity; repeat constructor. }
  unfold export. pose proof (do_cells_texts w cs ps_init) as D. rewrite Ht in D. rewrite H in D.
  destruct (do_cells w ps_init cs) as [[cs' s2]|e]; [|discriminate]. destruct D as [D Hb]. injection D as D _. exists cs'. cbn [bind fst]. auto.
Qed.

(** ** Exported notebooks *)
Lemma calm_join ls : Forall Calm ls -> Calm (join [LF] ls).
Proof.
  induction 1 as [|l ls H Hs IH]; [apply calm_nil|]. destruct ls as [|l' ls]; [exact H|].
  change (join [LF] (l :: l' :: ls)) with (l ++ LF :: join [LF] (l' :: ls)). apply calm_glue; auto. vm_compute. intuition discriminate.
Qed.
Lemma calm_tag u : In u (line_urls ++ event_urls) -> Calm (tag u).
Proof. intros H. apply calm_by. cbn in H. repeat destruct H as [<-|H]; try (vm_compute; reflexivity). destruct H. Qed.
Lemma calm_lines t ls : Calm t -> Lines t ls -> Forall Calm ls.
Proof. intros C L. apply lines_fun in L as ->. now apply (css_calm t). Qed.
Lemma line_script_calm libs file c fig : Forall Calm libs -> Forall Calm file -> match c with Some t => Calm t | None => True end -> FigName fig ->
  Forall Calm (line_script libs file c fig).
Proof.
  intros H1 H2 Hc Hf. unfold line_script. apply Forall_app. split; [exact H1|]. apply Forall_app. split; [repeat constructor; now apply calm_by|].
  apply Forall_app. split; [exact H2|]. constructor; [now apply call_calm|repeat constructor; now apply calm_by].
Qed.
Lemma exported_calm v4 cl ce cc l e p : Forall Calm cl -> Forall Calm ce -> Forall Calm cc -> page_ok p -> Forall Calm (exported v4 cl ce cc l e p).
Proof.
  intros H1 H2 H3 Hp. destruct p as [c ts d|f d|t]; cbn [exported page_ok] in *.
  - destruct Hp as (Hc & Ht & Hg & Hd). apply Forall_app. split.
    { apply Forall_forall. intros x Hx. apply in_map_iff in Hx as (t & <- & Hi). rewrite Forall_forall in Ht. now apply tok_calm, Ht. }
    apply Forall_app. split.
    { apply Forall_forall. intros x Hx. apply in_flat_map in Hx as (t & Hi & Hx). rewrite Forall_forall in Hd. destruct (Hd t Hi) as [Hf Hj].
      pose proof (data_calm t Hf Hj) as H. rewrite Forall_forall in H. now apply H. }
    pose proof (graphs_ok ts Ht) as Hf. destruct (graphs ts) as [|f fs]; [constructor|]. inversion Hf as [|? ? Hf1 Hf2]; subst.
    apply Forall_app. split.
    + destruct l; apply line_script_calm; auto. repeat constructor; apply calm_tag; cbn; auto.
    + apply Forall_forall. intros x Hx. apply in_flat_map in Hx as (g & Hi & Hx). rewrite Forall_forall in Hf2.
      pose proof (line_script_calm [] [] c g (Forall_nil _) (Forall_nil _) Hc (Hf2 g Hi)) as H. rewrite Forall_forall in H. now apply H.
  - destruct Hp as [Hf Hd]. apply Forall_app. split; [repeat constructor; now apply calm_by|]. apply Forall_app. split; [exact H3|].
    apply Forall_app. split; [repeat constructor; now apply calm_by|].
    assert (forall libs file, Forall Calm libs -> Forall Calm file -> Forall Calm (event_script libs file v4 f d)) as E.
    { intros libs file A B. unfold event_script. constructor; [now apply div_calm|]. apply Forall_app. split; [exact A|].
      apply Forall_app. split; [repeat constructor; now apply calm_by|]. apply Forall_app. split; [exact B|]. constructor; [now apply calm_by|].
      constructor; [now apply (event_call_calm v4)|repeat constructor; now apply calm_by]. }
    destruct e; apply E; auto. repeat constructor; apply calm_tag; cbn; auto 10.
  - repeat constructor. exact Hp.
Qed.
Lemma exported_all_calm v4 cl ce cc ps : Forall Calm cl -> Forall Calm ce -> Forall Calm cc -> Forall page_ok ps -> forall l e,
  Forall Calm (exported_all v4 cl ce cc l e ps).
Proof. intros H1 H2 H3 H. induction H as [|p ps Hp _ IH]; intros l e; constructor; auto. now apply calm_join, exported_calm. Qed.
Lemma exported_others v4 cl ce cc ts : forall l e, exported_all v4 cl ce cc l e (map Other ts) = ts.
Proof. induction ts as [|t ts IH]; intros l e; [reflexivity|]. cbn [map exported_all exported is_line is_event]. rewrite IH. reflexivity. Qed.
Theorem export_done X w v4 css jsl jse fl fe ps (cs cs' : list (cell X)) :
  FileOf (e_base w) $"plotter/js/ILinePlot.js" fl -> e_file w fl = Some jsl ->
  FileOf (e_base w) $"plotter/js/EventPlot.js" fe -> e_file w fe = Some jse ->
  Calm css -> Calm jsl -> Calm jse -> Forall page_ok ps -> texts cs = map (text v4 css) ps -> export w cs = Ok cs' ->
  Forall Calm (texts cs') /\ exists cs2, export w cs' = Ok cs2 /\ blank cs2 = blank cs' /\ texts cs2 = texts cs'.
Proof.
  intros F1 E1 F2 E2 Hc Hl He Hp Ht Hx.
  destruct (export_pages X w v4 css jsl jse fl fe _ _ _ ps cs F1 E1 (lines_read _) F2 E2 (lines_read _) Hc (lines_read _) Hp Ht) as (c1 & X1 & _ & T1).
  rewrite Hx in X1. injection X1 as <-.
  assert (Forall Calm (texts cs')) as C. { rewrite T1. apply exported_all_calm; auto; now apply css_calm. }
  split; [exact C|].
  destruct (export_pages X w v4 css jsl jse fl fe _ _ _ (map Other (texts cs')) cs' F1 E1 (lines_read _) F2 E2 (lines_read _) Hc (lines_read _)) as (c2 & X2 & B2 & T2).
  - clear -C. induction C; constructor; auto.
  - rewrite map_map. cbn [text]. now rewrite map_id.
  - exists c2. rewrite exported_others in T2. auto.
Qed.

(** ** The pages of ILinePlotGen *)
Lemma graphs_app a b : graphs (a ++ b) = graphs a ++ graphs b.
Proof. unfold graphs. apply flat_map_app. Qed.
Lemma graphs_line uuid i n : graphs (line uuid i n) = map uuid (seq i n).
Proof.
  assert (forall l, graphs (map (fun k => TGraph (uuid k)) l) = map uuid l) as G by (induction l as [|x l IH]; [reflexivity|cbn [map]; rewrite <- IH; reflexivity]).
  assert (forall l, graphs (map (fun k => TLegend (uuid k)) l) = []) as G2 by (induction l as [|x l IH]; [reflexivity|exact IH]).
  unfold line. rewrite !graphs_app, G, G2. cbn. now rewrite app_nil_r.
Qed.
Lemma graphs_lines uuid rows : forall i n, graphs (lines uuid rows i n) = map uuid (seq i (rows * n)).
Proof.
  induction rows as [|r IH]; intros i n; [reflexivity|]. cbn [lines]. rewrite graphs_app, graphs_line, IH.
  replace (S r * n) with (n + r * n) by reflexivity. now rewrite seq_app, map_app.
Qed.
Lemma lines_toks (P : tok str -> Prop) uuid rows : P TRow -> P TEndRow -> (forall i, P (TGraph (uuid i)) /\ P (TLegend (uuid i))) ->
  forall i n, Forall P (lines uuid rows i n).
Proof.
  intros H1 H2 H3. induction rows as [|r IH]; intros i n; [constructor|]. cbn [lines]. apply Forall_app. split; [|apply IH].
  unfold line. apply Forall_app. split; [repeat constructor; auto|]. apply Forall_app. split.
  { apply Forall_forall. intros x Hx. apply in_map_iff in Hx as (k & <- & _). apply H3. }
  apply Forall_app. split; [repeat constructor; auto|]. apply Forall_app. split; [|repeat constructor; auto].
  apply Forall_forall. intros x Hx. apply in_map_iff in Hx as (k & <- & _). apply H3.
Qed.
Section Gen.
  Context {T V : Type}.
  Lemma add_plots_figs (uuid : nat -> str) max g : forall (fs : list (frame T V * str)) n ss, add_plots uuid max g n fs = Ok ss ->
    map (fun s => fst (fst s)) ss = map uuid (seq n (List.length fs)).
  Proof.
    induction fs as [|[f t] fs IH]; intros n ss E; cbn [add_plots] in E; [injection E as <-; reflexivity|].
    unfold add_plot in E. destruct (max <? _)%Z; [discriminate|]. destruct (Nat.ltb n (n_figs g)); [|discriminate]. cbn [bind] in E.
    destruct (add_plots uuid max g (S n) fs) as [r|] eqn:Er; [|discriminate]. cbn [bind] in E. injection E as <-. cbn [map fst List.length seq].
    now rewrite (IH _ _ Er).
  Qed.
  Theorem page_made (uuid : nat -> str) max per title (fs : list (frame T V * str)) ts ss : (1 <= per)%Z -> ILineGen.page uuid max per title fs = Ok (ts, ss) ->
    (exists n, graphs ts = map uuid (seq 0 n) /\ List.length fs <= n) /\ map (fun s => fst (fst s)) ss = map uuid (seq 0 (List.length fs)) /\
    forall c dump, match c with Some t => Calm t | None => True end -> match title with Some t => Calm t | None => True end ->
      (forall i, FigName (uuid i)) -> (forall s, In s ss -> Calm (dump s)) ->
      page_ok (LinePage c ts (map (fun s => (fst (fst s), dump s)) ss)).
  Proof.
    intros Hper E. unfold ILineGen.page in E. destruct (init uuid (Z.of_nat (List.length fs)) per title) as [g|] eqn:Ei; [|discriminate]. cbn [bind] in E.
    destruct (add_plots uuid max g 0 fs) as [r|] eqn:Er; [|discriminate]. cbn [bind] in E. injection E as <- <-.
    pose proof (add_plots_figs _ _ _ _ _ _ Er) as Hfig. unfold init in Ei.
    set (num := Z.of_nat (List.length fs)) in *. destruct (num =? 0)%Z eqn:E0; [discriminate|]. apply Z.eqb_neq in E0.
    set (pl := if (num <? per)%Z then num else per) in *. destruct (pl =? 0)%Z eqn:E1; [discriminate|].
    set (rows := if (num mod pl =? 0)%Z then (num / pl)%Z else (num / pl + 1)%Z) in *. injection Ei as <-. cbn [g_html].
    assert (1 <= pl <= num)%Z as Hpl. { subst pl. destruct (num <? per)%Z eqn:L; [apply Z.ltb_lt in L|apply Z.ltb_ge in L]; lia. }
    assert (num <= rows * pl)%Z as Hrows.
    { pose proof (Z.div_mod num pl ltac:(lia)) as D. pose proof (Z.mod_pos_bound num pl ltac:(lia)) as B. subst rows.
      destruct (num mod pl =? 0)%Z eqn:Q; [apply Z.eqb_eq in Q|]; nia. }
    assert (0 <= rows)%Z as Hr0. { subst rows. assert (0 <= num / pl)%Z by (apply Z.div_pos; lia). destruct (num mod pl =? 0)%Z; lia. }
    assert (forall x y, graphs ([TTable] ++ match title with Some ((_ :: _) as t) => [TCaption t] | _ => [] end ++ lines uuid x 0 y ++ [TEndTable]) = map uuid (seq 0 (x * y))) as G.
    { intros x y. rewrite !graphs_app, graphs_lines. destruct title as [[|a b]|]; cbn; now rewrite app_nil_r. }
    assert (List.length fs <= Z.to_nat rows * Z.to_nat pl) as Hn. { rewrite <- Z2Nat.inj_mul by lia. subst num. lia. }
    split; [exists (Z.to_nat rows * Z.to_nat pl); split; [apply G|exact Hn]|]. split; [exact Hfig|].
    intros c dump Hc Ht Hu Hd. cbn [page_ok]. split; [exact Hc|]. split; [|split].
    - constructor; [exact I|]. apply Forall_app. split.
      + destruct title as [[|a b]|]; repeat constructor. exact Ht.
      + apply Forall_app. split; [|repeat constructor]. apply lines_toks; [exact I|exact I|]. intros i. split; apply Hu.
    - intros Q. pose proof (G (Z.to_nat rows) (Z.to_nat pl)) as G0. cbn [app] in G0, Q. rewrite Q in G0. symmetry in G0. clear Q. rename G0 into Q. apply map_eq_nil in Q. assert (Z.to_nat rows * Z.to_nat pl = 0) as Z0 by (rewrite <- (seq_length (Z.to_nat rows * Z.to_nat pl) 0), Q; reflexivity).
      subst num. lia.
    - apply Forall_forall. intros x Hx. apply in_map_iff in Hx as (s & <- & Hi). cbn [fst snd]. split; [|now apply Hd].
      assert (In (fst (fst s)) (map (fun s => fst (fst s)) r)) as Hin by (apply in_map_iff; eauto).
      rewrite Hfig in Hin. apply in_map_iff in Hin as (k & <- & _). apply Hu.
  Qed.
End Gen.
Lemma fig_by f h : f = $"fig_" ++ h -> Nat.eqb (List.length h) 32 = true -> forallb (fun c => existsb (Ascii.eqb c) $"0123456789abcdef") h = true -> FigName f.
Proof.
  intros -> L H. exists h. split; [reflexivity|]. split; [now apply Nat.eqb_eq|]. rewrite forallb_forall in H. apply Forall_forall. intros c Hc.
  specialize (H c Hc). apply existsb_exists in H as (d & Hd & E). apply Ascii.eqb_eq in E. subst d. exact Hd.
Qed.
