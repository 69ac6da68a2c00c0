(** Publishing the pages of interactive plots. *)
From Coq Require Import List Ascii String ZArith Bool Lia.
From Verif Require Import Lib.PyStr Lib.PyStrFacts Model.ILineGen Model.Export Model.Publish Model.Page Spec.Publish Spec.Export Spec.Page
  Proofs.ExportP Proofs.PublishP Proofs.PublishQ Proofs.PageP.
Import ListNotations.
Local Open Scope list_scope.

(** ** Text without the directory of the scripts (as in PageP) *)
Definition DIR : str := $"/plotter_scripts/".
Lemma rem_glue a c x : Remote_text a -> ~ In c DIR -> Remote_text x -> Remote_text (a ++ c :: x).
Proof. intros Ha Hc Hx H. destruct (has_sep c DIR a x ltac:(discriminate) Hc H) as [K|K]; [exact (Ha K)|exact (Hx K)]. Qed.
Lemma rem_skip x b : ~ In "/"%char x -> Remote_text b -> Remote_text (x ++ b).
Proof. intros Hx Hb H. apply Hb. eapply has_skip; [exact Hx|exact H]. Qed.
Lemma rem_by t : contains DIR t = false -> Remote_text t.
Proof. intros E H. apply has_iff in H. unfold DIR in E. congruence. Qed.
Lemma rem_app_l a b : Remote_text (a ++ b) -> Remote_text a.
Proof. intros H (u & v & ->). apply H. exists u, (v ++ b). now rewrite <- !app_assoc. Qed.
Lemma rem_app_r a b : Remote_text (a ++ b) -> Remote_text b.
Proof. intros H (u & v & ->). apply H. exists (a ++ u), v. now rewrite <- !app_assoc. Qed.
Lemma fig_rem f b : FigName f -> Remote_text b -> Remote_text (f ++ b).
Proof.
  intros (h & -> & _ & H) Hb. apply rem_skip; [|exact Hb]. intros I. apply in_app_or in I as [I|I].
  - cbn in I. repeat destruct I as [I|I]; try discriminate; exact I.
  - rewrite Forall_forall in H. specialize (H _ I). unfold hex_digit in H. cbn in H. repeat destruct H as [H|H]; try discriminate; exact H.
Qed.
Lemma rem_split t : Remote_text t -> Forall Remote_text (split_ch nl t).
Proof.
    intros C. assert (forall l, In l (split_ch nl t) -> exists a b, t = a ++ l ++ b) as H.
    { intros l Hl. rewrite <- (join_split_ch nl t). apply in_split in Hl as (l1 & l2 & E). rewrite E. clear.
      induction l1 as [|x l1 IH].
      - destruct l2 as [|y l2]; [exists [], []; cbn; now rewrite app_nil_r|]. exists [], ([nl] ++ join [nl] (y :: l2)). reflexivity.
      - destruct IH as (a & b & IH). cbn [app]. destruct (l1 ++ l :: l2) as [|y r] eqn:E; [destruct l1; discriminate|].
        exists (x ++ [nl] ++ a), b. change (join [nl] (x :: y :: r)) with (x ++ [nl] ++ join [nl] (y :: r)). rewrite IH. now rewrite <- !app_assoc. }
    apply Forall_forall. intros l Hl. destruct (H l Hl) as (a & b & ->). eapply rem_app_l, rem_app_r. exact C.
Qed.
Lemma opt_rem c : match c with Some t => Remote_text t | None => True end -> Remote_text (match c with Some t => $", " ++ t | None => [] end ++ $");").
Proof.
    intros H. destruct c as [t|]; [|now apply rem_by]. rewrite <- app_assoc. change ($", " ++ t ++ $");") with ($"," ++ " "%char :: t ++ ")"%char :: $";").
    apply rem_glue; [now apply rem_by|cbn; intuition discriminate|]. apply rem_glue; [exact H|cbn; intuition discriminate|now apply rem_by].
Qed.
Lemma call_rem fig c : FigName fig -> match c with Some t => Remote_text t | None => True end ->
    Remote_text ($"                ILinePlot.generate(" ++ fig ++ $"_data" ++ match c with Some t => $", " ++ t | None => [] end ++ $");").
Proof.
    intros Hf Hc. match goal with |- Remote_text (_ ++ ?t) => change (Remote_text ($"                ILinePlot.generate" ++ "("%char :: t)) end.
    apply rem_glue; [now apply rem_by|cbn; intuition discriminate|]. apply fig_rem; [exact Hf|].
    apply rem_skip; [cbn; intuition discriminate|now apply opt_rem].
Qed.
Section Event.
  Variable v4 : bool.
Lemma ecall_rem fig data : FigName fig -> Remote_text data -> Remote_text (event_call v4 fig data).
Proof.
    intros Hf Hd. unfold event_call. match goal with |- Remote_text (_ ++ ?t) => change (Remote_text ($"            EventPlot.generate(" ++ "'"%char :: t)) end.
    apply rem_glue; [now apply rem_by|cbn; intuition discriminate|]. apply fig_rem; [exact Hf|].
    match goal with |- Remote_text (?p ++ ?x ++ ?y ++ ?z ++ ?t) => replace (p ++ x ++ y ++ z ++ t) with ((p ++ x ++ $"',") ++ " "%char :: z ++ ")"%char :: $";") by (now rewrite <- !app_assoc) end.
    apply rem_glue; [destruct v4; now apply rem_by|cbn; intuition discriminate|]. apply rem_glue; [exact Hd|cbn; intuition discriminate|now apply rem_by].
Qed.
End Event.
Lemma div_rem fig : FigName fig -> Remote_text ($"<div id=""" ++ fig ++ $""" class=""eventplot"">").
Proof.
    intros Hf. match goal with |- Remote_text (_ ++ ?t) => change (Remote_text ($"<div id=" ++ """"%char :: t)) end.
    apply rem_glue; [now apply rem_by|cbn; intuition discriminate|]. apply fig_rem; [exact Hf|now apply rem_by].
Qed.
Definition tok_remote (t : tok str) : Prop := match t with TCaption s => Remote_text s | TGraph f | TLegend f => FigName f | _ => True end.
Lemma tok_rem t : tok_remote t -> Remote_text (tok_html t).
Proof.
  destruct t as [|s| |f|f| |]; intros H; cbn [tok_html]; try (now apply rem_by).
  - match goal with |- Remote_text (_ ++ ?t) => change (Remote_text ($"<caption style=""text-align:center; font: 24px sans-serif bold; color: black""" ++ ">"%char :: t)) end.
    apply rem_glue; [now apply rem_by|cbn; intuition discriminate|]. change (Remote_text (s ++ "<"%char :: $"/caption>")).
    apply rem_glue; [exact H|cbn; intuition discriminate|now apply rem_by].
  - match goal with |- Remote_text (_ ++ ?t) => change (Remote_text ($"<td style=""border-style: hidden;""><div class=""ilineplot"" id=" ++ """"%char :: t)) end.
    apply rem_glue; [now apply rem_by|cbn; intuition discriminate|]. apply fig_rem; [exact H|now apply rem_by].
  - match goal with |- Remote_text (_ ++ ?t) => change (Remote_text ($"<td style=""border-style: hidden;""><div style=""text-align:center"" id=" ++ """"%char :: t)) end.
    apply rem_glue; [now apply rem_by|cbn; intuition discriminate|]. apply fig_rem; [exact H|now apply rem_by].
Qed.
Lemma data_rem s : FigName (fst s) -> Remote_text (snd s) -> Forall Remote_text (data_lines s).
Proof.
  intros Hf Hd. unfold data_lines. constructor; [now apply rem_by|]. constructor; [|repeat constructor; now apply rem_by].
  change (Remote_text ($"var" ++ " "%char :: fst s ++ $"_data = " ++ snd s ++ $";")).
  apply rem_glue; [now apply rem_by|cbn; intuition discriminate|]. apply fig_rem; [exact Hf|].
  change (Remote_text ($"_data =" ++ " "%char :: snd s ++ ";"%char :: [])).
  apply rem_glue; [now apply rem_by|cbn; intuition discriminate|]. apply rem_glue; [exact Hd|cbn; intuition discriminate|now apply rem_by].
Qed.

(** ** Lines are published one by one *)
Lemma published_sep rs c : (forall k u, In (k, u) rs -> k <> [] /\ ~ In c k) -> forall a a' b b',
  Published rs a a' -> Published rs b b' -> Published rs (a ++ c :: b) (a' ++ c :: b').
Proof.
  intros Hk a a' b b' Ha Hb. induction Ha as [|k u r r' Hi _ IH|x r r' Hn _ IH]; cbn [app].
  - constructor; [|exact Hb]. intros k u t Hi E. destruct (Hk k u Hi) as [N Hc]. destruct k as [|y k]; [congruence|]. injection E as <- _. apply Hc. now left.
  - rewrite <- !app_assoc. now constructor.
  - constructor; [|exact IH]. intros k u t Hi E. destruct (Hk k u Hi) as [N Hc].
    change (x :: r ++ c :: b) with ((x :: r) ++ c :: b) in E. apply app_eq_app in E as (l & [[E1 E2]|[E1 E2]]).
    + exact (Hn k u l Hi E1).
    + destruct l as [|y l].
      * rewrite app_nil_r in E1. apply (Hn k u [] Hi). now rewrite app_nil_r, E1.
      * cbn in E2. injection E2 as <- _. apply Hc. rewrite E1. apply in_or_app. right. now left.
Qed.
Lemma keys_ok v4 k u : In (k, u) (replaced v4) -> k <> [] /\ ~ In nl k.
Proof.
  intros H. assert (forallb (fun e => negb (eqs (fst e) []) && negb (existsb (Ascii.eqb nl) (fst e))) (replaced v4) = true) as F by (destruct v4; vm_compute; reflexivity).
  rewrite forallb_forall in F. specialize (F _ H). cbn [fst] in F. apply andb_true_iff in F as [F1 F2]. apply negb_true_iff in F1, F2. split.
  - intros ->. discriminate.
  - intros I. rewrite <- not_true_iff_false in F2. apply F2. apply existsb_exists. exists nl. split; [exact I|apply Ascii.eqb_refl].
Qed.
Lemma publish_lines v4 ls : change_resource_paths v4 (join [nl] ls) = join [nl] (map (change_resource_paths v4) ls).
Proof.
  induction ls as [|l ls IH]; [destruct v4; reflexivity|]. destruct ls as [|l' ls]; [reflexivity|].
  change (join [nl] (l :: l' :: ls)) with (l ++ nl :: join [nl] (l' :: ls)).
  change (join [nl] (map (change_resource_paths v4) (l :: l' :: ls))) with (change_resource_paths v4 l ++ nl :: join [nl] (map (change_resource_paths v4) (l' :: ls))).
  rewrite <- IH. apply replaced_iff. apply published_sep; [apply keys_ok| |]; now apply replaced_iff.
Qed.

  Definition Good (v4 : bool) (l : str) : Prop := change_resource_paths v4 l = published_line v4 l.
  Lemma dir_key v4 k u : In (k, u) (replaced v4) -> Has DIR k.
  Proof.
    intros H. assert (forallb (fun e => contains DIR (fst e)) (replaced v4) = true) as F by (destruct v4; vm_compute; reflexivity).
    rewrite forallb_forall in F. specialize (F _ H). now apply has_iff.
  Qed.
  Lemma dir_changed v4 l l' : In (l, l') (changed_lines v4) -> Has DIR l.
  Proof.
    intros H. assert (forallb (fun e => contains DIR (fst e)) (changed_lines v4) = true) as F by (destruct v4; vm_compute; reflexivity).
    rewrite forallb_forall in F. specialize (F _ H). now apply has_iff.
  Qed.
  Lemma good_rem v4 l : Remote_text l -> Good v4 l.
  Proof.
    intros R. unfold Good, published_line. rewrite replaced_keeps.
    - destruct (dget eqs l (changed_lines v4)) as [l'|] eqn:E; [|reflexivity]. apply (dget_In eqs eqs_eq) in E. exfalso. apply R. exact (dir_changed _ _ _ E).
    - intros k u Hi O. apply R. eapply has_trans; [exact (dir_key _ _ _ Hi)|exact O].
  Qed.
  Lemma good_elem v4 x : Remote_text x -> Forall (Good v4) (split_ch nl x).
  Proof. intros R. apply rem_split in R. eapply Forall_impl; [|exact R]. exact (good_rem v4). Qed.
  Lemma good_elems v4 ls : Forall Remote_text ls -> Forall (Good v4) (flat_map (split_ch nl) ls).
  Proof. induction 1 as [|l ls H _ IH]; [constructor|]. cbn [flat_map]. apply Forall_app. split; [now apply good_elem|exact IH]. Qed.
  Definition good (v4 : bool) (l : str) : bool := eqs (change_resource_paths v4 l) (published_line v4 l).
  Lemma good_by v4 ls : forallb (good v4) ls = true -> Forall (Good v4) ls.
  Proof. intros H. rewrite forallb_forall in H. apply Forall_forall. intros l Hl. apply eqs_eq, H, Hl. Qed.
  Lemma good_graph v4 fig c : FigName fig -> match c with Some t => Remote_text t | None => True end -> Forall (Good v4) (split_ch nl (graph_js v4 fig c)).
  Proof.
    intros Hf Hc. unfold graph_js. rewrite split_joined by discriminate.
    match goal with |- Forall _ (flat_map _ (?u ++ ?l)) => set (urls := u); set (ls := l) end.
    replace (urls ++ ls) with ((urls ++ firstn 24 ls) ++ firstn 1 (skipn 24 ls) ++ skipn 25 ls) by reflexivity.
    rewrite !flat_map_app. subst urls ls. cbn [firstn skipn map].
    apply Forall_app. split; [rewrite <- flat_map_app; apply good_by; destruct v4; vm_compute; reflexivity|].
    apply Forall_app. split; [|apply good_by; destruct v4; vm_compute; reflexivity].
    cbn [flat_map]. rewrite app_nil_r. apply good_elem. now apply call_rem.
  Qed.
  Lemma good_event v4 fig data : FigName fig -> Remote_text data -> Forall (Good v4) (split_ch nl (event_div v4 fig data)).
  Proof.
    intros Hf Hd. set (dv := $"<div id=""" ++ fig ++ $""" class=""eventplot"">").
    assert (forall t, $"<div id=""" ++ fig ++ $""" class=""eventplot"">" ++ [nl] ++ t = dv ++ [nl] ++ t) as Ed by (intros t; subst dv; now rewrite <- !app_assoc).
    unfold event_div. rewrite Ed, split_break. apply Forall_app. split; [apply good_elem; now apply div_rem|].
    match goal with |- Forall _ (split_ch _ (join _ (?a ++ ?l) ++ _)) => set (urls := a); set (ls := l) end.
    replace (join [nl] (urls ++ ls) ++ $"</div>") with (join [nl] ((urls ++ firstn 28 ls) ++ firstn 1 (skipn 28 ls) ++ [$"        }); /* TRAPPY_PUBLISH_REMOVE_LINE */"; $"        </script>"; $"        </div>"])).
    2:{ replace (urls ++ ls) with ((urls ++ removelast ls) ++ [$"        "]) by (subst ls; now rewrite <- app_assoc). rewrite join_last. f_equal. }
    rewrite split_joined by discriminate. rewrite !flat_map_app. subst urls ls. cbn [firstn skipn map].
    apply Forall_app. split; [rewrite <- flat_map_app; apply good_by; destruct v4; vm_compute; reflexivity|].
    apply Forall_app. split; [|apply good_by; destruct v4; vm_compute; reflexivity].
    cbn [flat_map]. rewrite app_nil_r. apply good_elem. pose proof (ecall_rem v4 fig data Hf Hd) as E. destruct v4; exact E.
  Qed.
  Lemma good_page v4 css p : page_remote css p -> Forall (Good v4) (split_ch nl (text v4 css p)).
  Proof.
    destruct p as [c ts d|f d|t]; cbn [page_remote text].
    - intros (Hc & Ht & Hd). unfold line_html.
      set (all := map tok_html ts ++ flat_map data_lines d ++ map (fun f => graph_js v4 f c) (graphs ts)).
      assert (all = [] \/ all <> []) as [E|N] by (destruct all; [now left|right; discriminate]).
      { rewrite E. apply good_by. destruct v4; vm_compute; reflexivity. }
      rewrite split_joined by exact N. subst all. rewrite !flat_map_app. repeat (apply Forall_app; split).
      + apply good_elems, Forall_forall. intros x Hx. apply in_map_iff in Hx as (t & <- & Hi). rewrite Forall_forall in Ht. apply tok_rem. exact (Ht t Hi).
      + apply good_elems, Forall_forall. intros x Hx. apply in_flat_map in Hx as (t & Hi & Hx). rewrite Forall_forall in Hd. destruct (Hd t Hi) as [Hf Hj].
        pose proof (data_rem t Hf Hj) as H. rewrite Forall_forall in H. now apply H.
      + assert (Forall FigName (graphs ts)) as Hf.
        { clear -Ht. induction Ht as [|t ts H _ IH]; [constructor|]. cbn [graphs flat_map]. destruct t; auto. constructor; auto. }
        clear -Hf Hc. induction Hf as [|f fs H _ IH]; [constructor|]. cbn [map flat_map]. apply Forall_app. split; [now apply good_graph|exact IH].
    - intros (Hf & Hd & Hc). unfold event_html. rewrite split_joined by discriminate. rewrite !flat_map_app.
      apply Forall_app. split; [apply good_by; destruct v4; vm_compute; reflexivity|]. apply Forall_app. split.
      { apply good_elems. clear -Hc. unfold readlines_chopped. induction (rem_split css Hc) as [|l ls H _ IH]; [constructor|]. destruct ls as [|l' ls]; [|constructor; auto].
        destruct l as [|x l]; [constructor|]. constructor; [|constructor]. assert (x :: l <> []) as N by discriminate.
        rewrite (app_removelast_last " "%char N) in H. eapply rem_app_l. exact H. }
      apply Forall_app. split; [apply good_by; destruct v4; vm_compute; reflexivity|].
      cbn [flat_map]. rewrite app_nil_r. now apply good_event.
    - intros H. now apply good_elem.
  Qed.
  Theorem publish_page v4 css p : page_remote css p ->
    change_resource_paths v4 (text v4 css p) = join [LF] (map (published_line v4) (split_ch LF (text v4 css p))).
  Proof.
    intros H. change LF with nl. rewrite <- (join_split_ch nl (text v4 css p)) at 1. rewrite publish_lines. f_equal.
    apply map_ext_in. intros l Hl. pose proof (good_page v4 css p H) as G. rewrite Forall_forall in G. exact (G l Hl).
  Qed.
