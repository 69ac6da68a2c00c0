(** Proofs about signal definitions. *)
From Coq Require Import List Ascii String ZArith NArith Bool Lia.
From Verif Require Import Lib.PyStr Lib.PyStrFacts Lib.Regex Lib.RegexFacts Lib.SearchFacts.
From Verif Require Import Model.Signals Spec.Signals.
Import ListNotations.

Lemma not_ch_Forall d l : Forall (fun c => negb (Ascii.eqb c d) = true) l <-> ~ In d l.
Proof.
  rewrite Forall_forall. split.
  - intros H Hi. apply H in Hi. rewrite ascii_eqb_refl in Hi. discriminate.
  - intros H c Hc. apply negb_true_iff, ascii_eqb_neq. intros ->. exact (H Hc).
Qed.
Lemma longest (p : ascii -> bool) s : exists u v, s = u ++ v /\ Forall (fun c => p c = true) u /\ match v with [] => True | c :: _ => p c = false end.
Proof.
  exists (take_while p s), (drop_while p s). rewrite take_drop_while. split; auto. split; [apply take_while_Forall|].
  destruct (drop_while p s) eqn:E; auto. eapply drop_while_hd; eauto.
Qed.
Lemma not_nl_nl : not_nl NL = false. Proof. reflexivity. Qed.
Lemma not_nl_inv c : not_nl c = false -> c = NL.
Proof. unfold not_nl. intros H. apply negb_false_iff in H. now apply Ascii.eqb_eq in H. Qed.
Lemma not_colon_inv c : not_colon c = false -> c = ":"%char.
Proof. unfold not_colon. intros H. apply negb_false_iff in H. now apply Ascii.eqb_eq in H. Qed.
Lemma line_end_dec u : (u = [] \/ exists r, u = NL :: r) -> match u with [] => True | c :: _ => not_nl c = false end.
Proof. intros [-> | [r ->]]; [exact I|reflexivity]. Qed.

Definition pat_colour : re := RGrp 3 (RSeq (RCh ":") (RPlus (RCls not_nl))).
(** The head of the pattern: up to the column *)
Lemma sig_head {A} ev col rest (k : st -> option A) x : Name ev -> Name col -> match rest with [] => True | c :: _ => c = ":"%char end ->
  mt (ROpt pat_colour) (St (last_or (Some ":"%char) col) rest [(2, col); (1, ev)]) k = Some x ->
  mt pat_signal (St None (ev ++ ":"%char :: col ++ rest) []) k = Some x.
Proof.
  intros [He1 He2] [Hc1 Hc2] Hr H. unfold pat_signal. fold pat_colour. set (o := ROpt pat_colour) in *.
  change (RSeqs _) with (RSeq (RGrp 1 (RPlus (RCls not_colon))) (RSeq (RCh ":") (RSeq (RGrp 2 (RPlus (RCls not_colon))) o))).
  set (r1 := ":"%char :: col ++ rest).
  match goal with |- mt (RSeq (RGrp 1 ?r1) ?r2) ?s ?k = _ => set (s1 := s);
      change (mt (RSeq (RGrp 1 r1) r2) s1 k) with (mt r1 s1 (fun s' => mt r2 (cap_add 1 s1 s') k)) end.
  apply (plus_max not_colon s1 ev r1); [reflexivity|exact He1|now apply not_ch_Forall|reflexivity|].
  rewrite cap_add_adv by reflexivity.
  match goal with |- mt (RSeq ?a ?b) ?s ?k = _ => change (mt (RSeq a b) s k) with (mt a s (fun s' => mt b s' k)) end.
  unfold RCh. rewrite (cls_step _ _ ":"%char (col ++ rest)) by reflexivity.
  match goal with |- mt (RSeq (RGrp 2 ?r1) ?r2) ?s ?k = _ => set (s2 := s);
      change (mt (RSeq (RGrp 2 r1) r2) s2 k) with (mt r1 s2 (fun s' => mt r2 (cap_add 2 s2 s') k)) end.
  apply (plus_max not_colon s2 col rest); [reflexivity|exact Hc1|now apply not_ch_Forall| |].
  - destruct rest; auto. subst. reflexivity.
  - rewrite cap_add_adv by reflexivity. exact H.
Qed.
Lemma sig_match s ev col t : Signal s ev col t ->
  exists m, re_match pat_signal s = Some m /\ group 1 m = Some ev /\ group 2 m = Some col /\ group 3 m = option_map (cons ":"%char) t.
Proof.
  intros [ev' col' He Hc|ev' col' u He Hc Hu|ev' col' t' u He Hc Ht1 Ht2 Hu]; unfold re_match.
  - eexists. split.
    + replace col' with (col' ++ []) at 1 by apply app_nil_r. apply sig_head; auto.
      unfold ROpt. match goal with |- mt (RAlt ?a ?b) ?s ?k = _ => change (mt (RAlt a b) s k) with (match mt a s k with Some x => Some x | None => mt b s k end) end.
      replace (mt pat_colour _ _) with (@None mres) by reflexivity. reflexivity.
    + auto.
  - eexists. split.
    + apply sig_head; auto.
      unfold ROpt. match goal with |- mt (RAlt ?a ?b) ?s ?k = _ => change (mt (RAlt a b) s k) with (match mt a s k with Some x => Some x | None => mt b s k end) end.
      assert (N : forall k, mt pat_colour (St (last_or (Some ":"%char) col') (":"%char :: u) [(2, col'); (1, ev')]) k = @None mres).
      { intros k. unfold pat_colour. apply mt_None. intros s' Hm. exfalso. inversion Hm; subst; clear Hm.
        match goal with H : mat (RSeq _ _) _ _ |- _ => inversion H; subst; clear H end.
        match goal with H : mat (RPlus _) _ _ |- _ => apply mat_plus_cls in H as (v & E & Hn & Hv & _ & _) end.
        match goal with H : mat (RCh _) _ _ |- _ => inversion H; subst; clear H end. cbn [s_rest] in E.
        destruct Hu as [-> | [r ->]]; destruct v; try congruence; try discriminate. injection E as <- _.
        inversion Hv; subst. discriminate. }
      rewrite N. reflexivity.
    + auto.
  - eexists. split.
    + apply sig_head; auto.
      unfold ROpt. match goal with |- mt (RAlt ?a ?b) ?s ?k = _ => change (mt (RAlt a b) s k) with (match mt a s k with Some x => Some x | None => mt b s k end) end.
      match goal with |- match mt pat_colour ?s ?k with _ => _ end = _ => set (s1 := s); set (k1 := k) end.
      assert (E : mt pat_colour s1 k1 = k1 (St (last_or (Some ":"%char) t') u [(3, ":"%char :: t'); (2, col'); (1, ev')])).
      { unfold pat_colour.
        match goal with |- mt (RGrp 3 (RSeq ?a ?b)) ?s ?k = _ => change (mt (RGrp 3 (RSeq a b)) s k) with (mt a s (fun s' => mt b s' (fun s' => k (cap_add 3 s1 s')))) end.
        unfold RCh. rewrite (cls_step _ _ ":"%char (t' ++ u)) by reflexivity.
        assert (G : forall x, k1 (St (last_or (Some ":"%char) t') u [(3, ":"%char :: t'); (2, col'); (1, ev')]) = Some x ->
             mt (RPlus (RCls not_nl)) (adv s1 [":"%char] (t' ++ u)) (fun s' => k1 (cap_add 3 s1 s')) = Some x).
        { intros x Hx. apply (plus_max not_nl _ t' u); [reflexivity|exact Ht1|now apply not_ch_Forall|now apply line_end_dec|].
          rewrite adv_adv. rewrite cap_add_adv by reflexivity. rewrite <- Hx. f_equal. f_equal. cbn [s_prev s1]. cbn [app]. now rewrite last_or_cons. }
        destruct (k1 (St _ _ _)) eqn:Ek; [now apply G|]. discriminate Ek. }
      rewrite E. reflexivity.
    + auto.
Qed.
Lemma mat_seq_inv r1 r2 s s' : mat (RSeq r1 r2) s s' -> exists s1, mat r1 s s1 /\ mat r2 s1 s'.
Proof. intros H. inversion H; subst. eauto. Qed.
Lemma mat_grp_inv n r s s' : mat (RGrp n r) s s' -> exists s1, mat r s s1 /\ s' = cap_add n s s1.
Proof. intros H. inversion H; subst. eauto. Qed.
Lemma mat_ch_inv c s s' : mat (RCh c) s s' -> s_rest s = c :: s_rest s'.
Proof. intros H. unfold RCh in H. inversion H; subst. cbn. f_equal. now apply eq_sym, is_ch_eq. Qed.
Lemma sig_some s m : re_match pat_signal s = Some m -> exists ev col t, Signal s ev col t.
Proof.
  intros H. unfold re_match in H. apply mt_sound in H as (s' & H & _).
  unfold pat_signal in H. fold pat_colour in H. set (o := ROpt pat_colour) in *.
  change (RSeqs _) with (RSeq (RGrp 1 (RPlus (RCls not_colon))) (RSeq (RCh ":") (RSeq (RGrp 2 (RPlus (RCls not_colon))) o))) in H.
  apply mat_seq_inv in H as (s1 & H1 & H). apply mat_seq_inv in H as (s2 & H2 & H). apply mat_seq_inv in H as (s3 & H3 & _).
  apply mat_grp_inv in H1 as (s4 & H1 & ->). apply mat_grp_inv in H3 as (s5 & H3 & ->).
  apply mat_plus_cls in H1 as (ev & E1 & N1 & F1 & _). apply mat_plus_cls in H3 as (col & E3 & N3 & F3 & _). apply mat_ch_inv in H2.
  cbn [s_rest cap_add] in *. rewrite H2, E3 in E1. clear H2 E3. subst s.
  apply not_ch_Forall in F1. destruct (longest not_colon (s_rest s5)) as (c2 & rest & E & F2 & Hr). rewrite E.
  assert (Hc : Name (col ++ c2)).
  { split; [destruct col; [congruence|discriminate]|]. apply not_ch_Forall. apply Forall_app. auto. }
  assert (He : Name ev) by (split; auto).
  exists ev, (col ++ c2). rewrite (app_assoc col).
  destruct rest as [|c rest].
  - exists None. rewrite app_nil_r. now constructor.
  - apply not_colon_inv in Hr. subst c. destruct (longest not_nl rest) as (t & u & -> & Ft & Hu).
    assert (Hu' : u = [] \/ exists r, u = NL :: r).
    { destruct u as [|c u]; auto. right. apply not_nl_inv in Hu. subst. eauto. }
    destruct t as [|c t].
    + exists None. now constructor.
    + exists (Some (c :: t)). constructor; auto; [discriminate|]. now apply not_ch_Forall.
Qed.

(** ** Colours *)
Lemma comma_parts t : Parts t (split_comma2 t).
Proof.
  unfold split_comma2. destruct (split_once "," t) as [[a r]|] eqn:E.
  - apply split_once_Some in E as [-> N]. destruct (split_once "," r) as [[b c]|] eqn:E2.
    + apply split_once_Some in E2 as [-> N2]. now constructor.
    + apply split_once_None in E2. now constructor.
  - apply split_once_None in E. now constructor.
Qed.
Lemma split_once_app sep a b : ~ In sep a -> split_once sep (a ++ sep :: b) = Some (a, b).
Proof. intros H. now apply split_once_Some. Qed.
Lemma parts_fun t ps : Parts t ps -> ps = split_comma2 t.
Proof.
  intros [a H|a b H1 H2|a b c H1 H2]; unfold split_comma2.
  - apply split_once_None in H. now rewrite H.
  - rewrite split_once_app by auto. apply split_once_None in H2. now rewrite H2.
  - rewrite split_once_app by auto. now rewrite split_once_app.
Qed.
Lemma component_iff t z : Component t z <-> colour_num t = Ok z.
Proof.
  unfold Component, colour_num. destruct (is_prefix $"0x" t) eqn:E.
  - apply is_prefix_spec in E. split.
    + intros [[_ ->]|[H _]]; auto. destruct E as [r E]. now apply H in E.
    + intros H. left. split; auto. destruct (py_int16 t); congruence.
  - assert (N : forall r, t <> $"0x" ++ r) by (intros r Hr; enough (is_prefix $"0x" t = true) by congruence; apply is_prefix_spec; eauto).
    split.
    + intros [[[r H] _]|[_ ->]]; auto. now apply N in H.
    + intros H. right. split; auto. destruct (py_int10 t); congruence.
Qed.
Lemma components_iff ps zs : Forall2 Component ps zs <-> mapM colour_num ps = Ok zs.
Proof.
  revert zs. induction ps as [|p ps IH]; intros zs; cbn [mapM].
  - split; [inversion 1; auto|]. intros H. injection H as <-. constructor.
  - split.
    + inversion 1; subst. apply component_iff in H2. rewrite H2. cbn [bind]. apply IH in H4. now rewrite H4.
    + destruct (colour_num p) as [z|] eqn:E; cbn [bind]; [|discriminate]. destruct (mapM colour_num ps) as [zs'|] eqn:E2; cbn [bind]; [|discriminate].
      intros H. injection H as <-. constructor; [now apply component_iff|]. now apply IH.
Qed.
Lemma colour_err t e : colour_num t = Err e -> e = EValue.
Proof. unfold colour_num. destruct (if is_prefix _ _ then _ else _); congruence. Qed.
Lemma colours_err ps e : mapM colour_num ps = Err e -> e = EValue.
Proof.
  induction ps as [|p ps IH]; cbn [mapM]; [discriminate|]. destruct (colour_num p) eqn:E; cbn [bind].
  - destruct (mapM colour_num ps); cbn [bind]; [discriminate|]. intros H. injection H as <-. auto.
  - intros H. injection H as <-. eapply colour_err; eauto.
Qed.

(** ** Signals *)
Section Signals.
  Context {C : Type}.
  Notation trace := (list (str * C))%type.
  Lemma dget_none ev (t : trace) : dget eqs ev t = None <-> ~ In ev (map fst t).
  Proof. apply dget_None. intros. apply eqs_eq. Qed.
  Lemma first_def (traces : list trace) ev c : FirstDef traces ev c <-> find_class ev traces = Some c.
  Proof.
    split.
    - intros (before & t & after & -> & H & F). induction F as [|x before Hx F IH]; cbn [app find_class].
      + now rewrite H.
      + apply dget_none in Hx. now rewrite Hx.
    - induction traces as [|t r IH]; cbn [find_class]; [discriminate|]. destruct (dget eqs ev t) as [c'|] eqn:E.
      + intros H. injection H as <-. exists [], t, r. auto.
      + intros H. apply IH in H as (before & t' & after & -> & H & F). exists (t :: before), t', after. repeat split; auto.
        constructor; auto. now apply dget_none.
  Qed.
  Definition map_ok (traces : list trace) (emap : trace) : Prop := forall ev c, dget eqs ev emap = Some c -> find_class ev traces = Some c.

  Lemma parse_ok traces emap s : map_ok traces emap ->
    match parse_value traces emap s with
    | Ok (x, emap') => Means traces s x /\ map_ok traces emap'
    | Err e => e = EValue /\ forall x, ~ Means traces s x
    end.
  Proof.
    intros Hm. unfold parse_value. destruct (re_match pat_signal s) as [m|] eqn:E.
    2:{ split; auto. intros x (ev & t & Hs & _). apply sig_match in Hs as (m & E' & _). congruence. }
    destruct (sig_some s m E) as (ev & col & t & Hs). pose proof (sig_match _ _ _ _ Hs) as (m' & E' & G1 & G2 & G). rewrite E in E'. injection E' as <-. rewrite G1, G2.
    assert (U : forall x, Means traces s x -> exists zs, Colour t zs /\ x = (fst (fst x), col, zs) /\ find_class ev traces = Some (fst (fst x))).
    { intros [[c col'] zs] (ev' & t' & Hs' & Hc & Hf). cbn [fst snd] in *. apply sig_match in Hs' as (m' & E' & J1 & J2 & J3).
      pose proof (sig_match _ _ _ _ Hs) as (m2 & E2 & K1 & K2 & K3). rewrite E' in E2. injection E2 as <-.
      assert (ev' = ev) by congruence. assert (col' = col) by congruence. subst.
      assert (t' = t) by (rewrite J3 in K3; destruct t, t'; cbn in K3; congruence). subst.
      exists zs. split; auto. split; auto. now apply first_def. }
    rewrite G. destruct t as [t|]; cbn [option_map tl].
    - destruct (mapM colour_num (split_comma2 t)) as [zs|e] eqn:Ez; cbn [bind].
      + assert (HC : Colour (Some t) (Some zs)) by (exists (split_comma2 t); split; [apply comma_parts|now apply components_iff]).
        destruct (dget eqs ev emap) as [c|] eqn:Ed.
        * split; auto. exists ev, (Some t). cbn [fst snd]. split; auto. split; auto. apply first_def. now apply Hm.
        * destruct (find_class ev traces) as [c|] eqn:Ef.
          -- split; [exists ev, (Some t); cbn [fst snd]; split; auto; split; auto; now apply first_def|].
             intros ev' c'. rewrite (dget_dset eqs eqs_eq). destruct (eqs ev' ev) eqn:Ee; [|apply Hm]. apply eqs_eq in Ee. subst. congruence.
          -- split; auto. intros x Hx. apply U in Hx as (_ & _ & _ & Hx). congruence.
      + split; [eapply colours_err; eauto|]. intros x Hx. apply U in Hx as ([zs|] & Hx & _ & _); [|destruct Hx].
        destruct Hx as (ps & Hp & Hz). apply parts_fun in Hp. subst. apply components_iff in Hz. congruence.
    - cbn [bind]. destruct (dget eqs ev emap) as [c|] eqn:Ed.
      * split; auto. exists ev, None. cbn [fst snd]. split; auto. split; [exact I|]. apply first_def. now apply Hm.
      * destruct (find_class ev traces) as [c|] eqn:Ef.
        -- split; [exists ev, None; cbn [fst snd]; split; auto; split; [exact I|]; now apply first_def|].
           intros ev' c'. rewrite (dget_dset eqs eqs_eq). destruct (eqs ev' ev) eqn:Ee; [|apply Hm]. apply eqs_eq in Ee. subst. congruence.
        -- split; auto. intros x Hx. apply U in Hx as (_ & _ & _ & Hx). congruence.
  Qed.
  Lemma means_fun (traces : list trace) s x x' : Means traces s x -> Means traces s x' -> x = x'.
  Proof.
    destruct x as [[c col] zs], x' as [[c' col'] zs']. intros (ev & t & Hs & Hc & Hf) (ev' & t' & Hs' & Hc' & Hf'). cbn [fst snd] in *.
    apply sig_match in Hs as (m & E & G1 & G2 & G3). apply sig_match in Hs' as (m' & E' & G1' & G2' & G3'). rewrite E in E'. injection E' as <-.
    assert (ev' = ev) by congruence. assert (col' = col) by congruence. subst.
    assert (t' = t) by (rewrite G3 in G3'; destruct t, t'; cbn in G3'; congruence). subst.
    apply first_def in Hf, Hf'. assert (c = c') by congruence. subst.
    destruct t as [t|], zs as [zs|], zs' as [zs'|]; cbn in Hc, Hc'; try contradiction; auto.
    destruct Hc as (ps & P & F), Hc' as (ps' & P' & F'). apply parts_fun in P, P'. subst. apply components_iff in F, F'. congruence.
  Qed.
  Lemma parses_ok traces sigs : forall emap, map_ok traces emap ->
    match parse_values traces emap sigs with
    | Ok xs => Forall2 (Means traces) sigs xs
    | Err e => e = EValue /\ exists s, In s sigs /\ forall x, ~ Means traces s x
    end.
  Proof.
    induction sigs as [|s sigs IH]; intros emap Hm; cbn [parse_values]; [constructor|].
    pose proof (parse_ok traces emap s Hm) as H. destruct (parse_value traces emap s) as [[x emap']|e]; cbn [bind fst snd].
    - destruct H as [Hx Hm']. specialize (IH emap' Hm'). destruct (parse_values traces emap' sigs) as [xs|e]; cbn [bind].
      + now constructor.
      + destruct IH as [-> (s' & Hi & Hn)]. split; auto. exists s'. split; auto. now right.
    - destruct H as [-> H]. split; auto. exists s. split; auto. now left.
  Qed.
  Lemma means_truthy (traces : list trace) s x : Means traces s x -> truthy (snd x) = match snd x with Some _ => true | None => false end.
  Proof.
    destruct x as [[c col] [zs|]]; cbn [snd truthy]; auto. intros (ev & t & _ & Hc & _). cbn [snd] in Hc. destruct t as [t|]; [|destruct Hc].
    destruct Hc as (ps & P & F). destruct F; auto. inversion P.
  Qed.
  Lemma describe_ok has (traces : list trace) sigs ts cols colours : describe has traces sigs = Ok (ts, cols, colours) <->
    has = false /\ exists xs : list (C * str * option (list Z)), Forall2 (Means traces) sigs xs /\ ts = map (fun x => fst (fst x)) xs /\ cols = map (fun x => snd (fst x)) xs /\
      ((Forall (fun x => snd x = None) xs /\ colours = None) \/ (Exists (fun x => snd x <> None) xs /\ colours = Some (map (fun x => snd x) xs))).
  Proof.
    unfold describe. destruct has; [split; [discriminate|intros [H _]; discriminate]|].
    pose proof (parses_ok traces sigs [] (fun ev c (h : None = Some c) => match h with end)) as H.
    assert (B : forall xs : list (C * str * option (list Z)), Forall2 (Means traces) sigs xs ->
      (if existsb truthy (map (fun x => snd x) xs) then Some (map (fun x => snd x) xs) else None) = colours <->
      ((Forall (fun x => snd x = None) xs /\ colours = None) \/ (Exists (fun x => snd x <> None) xs /\ colours = Some (map (fun x => snd x) xs)))).
    { intros xs F. assert (T : existsb truthy (map (fun x => snd x) xs) = true <-> Exists (fun x => snd x <> None) xs).
      { clear -F. induction F as [|s x sigs xs H F IH]; cbn [map existsb]; [split; [discriminate|inversion 1]|].
        rewrite orb_true_iff, Exists_cons, IH, (means_truthy _ _ _ H). destruct (snd x); split; intros [K|K]; auto; try discriminate; try congruence. left. discriminate. }
      destruct (existsb truthy (map (fun x => snd x) xs)) eqn:E.
      - split; [intros <-; right; split; auto; now apply T|]. intros [[N _]|[_ ->]]; auto. exfalso.
        assert (X := proj1 T eq_refl). apply Exists_exists in X as (x & Hi & Hx). rewrite Forall_forall in N. apply Hx. now apply N.
      - split; [intros <-; left; split; auto|intros [[_ ->]|[X _]]; auto; apply T in X; discriminate].
        apply Forall_forall. intros x Hi. destruct (snd x) eqn:Ex; auto. exfalso. enough (false = true) by discriminate. apply T.
        apply Exists_exists. exists x. split; auto. congruence. }
    destruct (parse_values traces [] sigs) as [xs|e]; cbn [bind].
    - split.
      + intros K. injection K as <- <- K. split; auto. exists xs. split; auto. split; auto. split; auto. now apply B.
      + intros (_ & xs' & F & -> & -> & K). assert (xs' = xs).
        { clear -F H. revert xs H. induction F as [|s x sigs xs' Hx F IH]; intros xs H; inversion H; subst; auto. f_equal; [eapply means_fun; eauto|auto]. }
        subst. apply B in K; auto. now rewrite K.
    - split; [discriminate|]. intros (_ & xs & F & _). destruct H as [_ (s & Hi & Hn)]. exfalso.
      clear -F Hi Hn. induction F as [|s' x sigs xs Hx F IH]; [destruct Hi|]. destruct Hi as [<-|Hi]; auto. now apply Hn in Hx.
  Qed.
  Lemma describe_err has (traces : list trace) sigs e : describe has traces sigs = Err e -> e = EValue.
  Proof.
    unfold describe. destruct has; [congruence|]. pose proof (parses_ok traces sigs [] (fun ev c (h : None = Some c) => match h with end)) as H.
    destruct (parse_values traces [] sigs) as [xs|e']; cbn [bind]; [discriminate|]. intros K. injection K as <-. now destruct H.
  Qed.
End Signals.

(** ** The printed forms *)
Lemma component_dec n : Component (str_of_Z n) n.
Proof.
  right. split; [|apply py_int10_dec]. intros r E. destruct n as [|p|p]; [discriminate| |discriminate].
  assert (H : parse_digits 10 (str_of_Z (Zpos p)) = Some (N.pos p)) by exact (str_of_N_parse (N.pos p)). rewrite E in H. discriminate.
Qed.

(** ** Colour lists for dygraphs *)
Lemma join_sep_cons (c : ascii) (d : str) (x : str) l : join (c :: d) (x :: l) = join [c] (x :: map (app d) l).
Proof.
  revert x. induction l as [|y l IH]; intros x; [reflexivity|].
  change (join (c :: d) (x :: y :: l)) with (x ++ (c :: d) ++ join (c :: d) (y :: l)). rewrite IH.
  cbn [map]. change (join [c] (x :: (d ++ y) :: map (app d) l)) with (x ++ [c] ++ join [c] ((d ++ y) :: map (app d) l)).
  cbn [app]. do 2 f_equal. destruct (map (app d) l); cbn [join]; [reflexivity|]. now rewrite <- app_assoc.
Qed.
Lemma map_app_inj (d : str) l l' : map (app d) l = map (app d) l' -> l = l'.
Proof.
  revert l'. induction l as [|x l IH]; intros [|x' l'] H; cbn in H; try discriminate; auto.
  injection H as H1 H2. apply app_inv_head in H1. f_equal; auto.
Qed.
(** A list of texts without the first character of the separator can be read back, unless it is
    empty or consists of the empty text. *)
Lemma join_inj (c : ascii) (d : str) l l' : Forall (fun x => ~ In c x) l -> Forall (fun x => ~ In c x) l' -> ~ In c d ->
  l <> [] -> l' <> [] -> join (c :: d) l = join (c :: d) l' -> l = l'.
Proof.
  intros F F' Hd N N' E. destruct l as [|x l], l' as [|x' l']; try congruence. 
  assert (E2 : join [c] (x :: map (app d) l) = join [c] (x' :: map (app d) l')).
  { etransitivity; [symmetry; apply join_sep_cons|]. etransitivity; [exact E|apply join_sep_cons]. }
  clear E. rename E2 into E.
  assert (G : forall y k, Forall (fun x => ~ In c x) (y :: k) -> split_ch c (join [c] (y :: map (app d) k)) = y :: map (app d) k).
  { intros y k Fk. apply split_ch_join; [discriminate|]. inversion Fk; subst. constructor; auto. rewrite Forall_forall in *.
    intros z Hz. apply in_map_iff in Hz as (w & <- & Hw). rewrite in_app_iff. intros [H|H]; auto. eapply H2; eauto. }
  apply (f_equal (split_ch c)) in E. rewrite (G x l F), (G x' l' F') in E. injection E as -> E. f_equal. eapply map_app_inj; eauto.
Qed.
Lemma str_of_Z_inj a b : str_of_Z a = str_of_Z b -> a = b.
Proof. intros H. pose proof (py_int10_dec a) as A. rewrite H, py_int10_dec in A. congruence. Qed.
Lemma str_of_N_no c n : is_digit c = false -> ~ In c (str_of_N n).
Proof. intros H Hi. pose proof (str_of_N_digits n) as F. rewrite Forall_forall in F. apply F in Hi. congruence. Qed.
Lemma str_of_Z_no c z : is_digit c = false -> c <> "-"%char -> ~ In c (str_of_Z z).
Proof.
  intros H N. unfold str_of_Z. destruct z; try now apply str_of_N_no. intros [Hi|Hi]; [congruence|]. now apply str_of_N_no in Hi.
Qed.
Lemma join_no c sep l : ~ In c sep -> Forall (fun x => ~ In c x) l -> ~ In c (join sep l).
Proof.
  intros Hs F. induction F as [|x l Hx F IH]; [auto|]. destruct l as [|y l]; [exact Hx|].
  change (join sep (x :: y :: l)) with (x ++ sep ++ join sep (y :: l)). rewrite !in_app_iff. intuition.
Qed.
Lemma rgb_inj e e' t : rgb (Some e) = Ok t -> rgb (Some e') = Ok t -> e = e'.
Proof.
  unfold rgb. intros <- H. injection H as H. apply app_inv_tail in H.
  assert (F : forall l : list Z, Forall (fun x => ~ In ","%char x) (map str_of_Z l)).
  { intros l. apply Forall_forall. intros x Hx. apply in_map_iff in Hx as (z & <- & _). apply str_of_Z_no; [reflexivity|discriminate]. }
  assert (W : forall z l, join $", " (map str_of_Z (z :: l)) <> []).
  { intros z l K. assert (Z : str_of_Z z <> []) by apply str_of_Z_word. cbn [map] in K. destruct (map str_of_Z l); cbn [join] in K; [auto|].
    apply app_eq_nil in K as [K _]. auto. }
  destruct e as [|z e], e' as [|z' e']; auto.
  - exfalso. first [exact (W z' e' H)|exact (W z' e' (eq_sym H))].
  - exfalso. first [exact (W z e H)|exact (W z e (eq_sym H))].
  - apply (join_inj "," $" ") in H; auto; try discriminate; [|now intros [K|[]]].
    assert (M : forall a b, map str_of_Z a = map str_of_Z b -> a = b).
    { induction a as [|x a IH]; intros [|y b] K; cbn in K; try discriminate; auto. injection K as K1 K2. apply str_of_Z_inj in K1. f_equal; auto. }
    symmetry. now apply M.
Qed.
Lemma rgb_no_quote e t : rgb e = Ok t -> ~ In """"%char t /\ t <> [].
Proof.
  destruct e as [e|]; [|discriminate]. intros H.
  assert (E : t = $"rgb(" ++ join $", " (map str_of_Z e) ++ $")") by (cbn [rgb] in H; congruence). rewrite E. clear H E. split; [|discriminate].
  rewrite !in_app_iff. intros [H|[H|H]].
  - cbn in H. intuition discriminate.
  - revert H. apply join_no; [cbn; intuition discriminate|]. apply Forall_forall. intros x Hx. apply in_map_iff in Hx as (z & <- & _).
    apply str_of_Z_no; [reflexivity|discriminate].
  - cbn in H. intuition discriminate.
Qed.
Lemma dygraph_inj a b t : to_dygraph_colors a = Ok t -> to_dygraph_colors b = Ok t -> a = b.
Proof.
  unfold to_dygraph_colors.
  assert (R : forall l ts, mapM rgb l = Ok ts -> Forall2 (fun e t => rgb e = Ok t) l ts).
  { induction l as [|e l IH]; intros ts H; cbn [mapM] in H; [injection H as <-; constructor|].
    destruct (rgb e) as [x|] eqn:E; cbn [bind] in H; [|discriminate]. destruct (mapM rgb l) as [xs|]; cbn [bind] in H; [|discriminate].
    injection H as <-. constructor; auto. }
  destruct (mapM rgb a) as [ta|] eqn:Ea; cbn [bind]; [|discriminate]. destruct (mapM rgb b) as [tb|] eqn:Eb; cbn [bind]; [|discriminate].
  intros H1 H2. injection H1 as <-. injection H2 as H2. apply app_inv_tail in H2. apply R in Ea, Eb.
  assert (Q : forall l ts, Forall2 (fun e t => rgb e = Ok t) l ts -> Forall (fun x => ~ In """"%char x /\ x <> []) ts).
  { intros l ts F. induction F; constructor; auto. eapply rgb_no_quote; eauto. }
  assert (E : ta = tb).
  { pose proof (Q _ _ Ea) as Fa. pose proof (Q _ _ Eb) as Fb. assert (W : forall x l, Forall (fun x => ~ In """"%char x /\ x <> []) (x :: l) -> join $""", """ (x :: l) <> []).
    { intros x l Fx K. inversion Fx; subst. destruct H1 as [_ H1]. destruct l; cbn [join] in K; [auto|]. apply app_eq_nil in K as [K _]. auto. }
    destruct ta as [|x ta], tb as [|y tb]; auto.
    - exfalso. first [exact (W y tb Fb H2)|exact (W y tb Fb (eq_sym H2))].
    - exfalso. first [exact (W x ta Fa H2)|exact (W x ta Fa (eq_sym H2))].
    - assert (G : forall l, join $""", """ l = join $""", """ l) by reflexivity. symmetry.
      (* the separator starts and ends with a quote *)
      assert (S : forall l, Forall (fun x => ~ In """"%char x /\ x <> []) l -> l <> [] ->
                split_ch """" (join $""", """ l) = tl (flat_map (fun x => [$", "; x]) l)).
      { clear. induction l as [|x l IH]; intros F N; [congruence|]. inversion F; subst. destruct H1 as [H1 _]. destruct l as [|y l].
        - cbn [join flat_map tl app]. now apply split_ch_nosep.
        - change (join $""", """ (x :: y :: l)) with (x ++ """"%char :: ($", " ++ """"%char :: join $""", """ (y :: l))).
          rewrite split_ch_app by auto. rewrite split_ch_app by (cbn; intuition discriminate). rewrite IH by (auto; discriminate). reflexivity. }
      apply (f_equal (split_ch """")) in H2. rewrite !S in H2 by (auto; discriminate). clear -H2.
      cbn [flat_map app tl] in H2. injection H2 as <- H2. f_equal. revert tb H2. induction ta as [|v ta IH]; intros [|z tb] H; cbn in H; try discriminate; auto.
      injection H as -> H. f_equal. auto. }
  subst tb. clear -Ea Eb. revert b Eb. induction Ea as [|e x a ts H F IH]; intros b Eb; inversion Eb; subst; auto.
  f_equal; auto. destruct e as [e|], x0 as [e'|]; try discriminate. f_equal. eapply rgb_inj; eauto.
Qed.
Lemma dygraph_ok cm : (exists t, to_dygraph_colors cm = Ok t) <-> Forall (fun c => c <> None) cm.
Proof.
  unfold to_dygraph_colors. assert (G : (exists l, mapM rgb cm = Ok l) <-> Forall (fun c => c <> None) cm).
  { induction cm as [|c cm IH]; cbn [mapM]; [split; eauto|]. rewrite Forall_cons_iff, <- IH. destruct c as [e|]; cbn [rgb bind].
    - split; [intros [l H]; split; [discriminate|]; destruct (mapM rgb cm); eauto; discriminate|intros [_ [l ->]]; cbn [bind]; eauto].
    - split; [intros [l H]; discriminate|intros [H _]; congruence]. }
  rewrite <- G. split; intros [l H]; [destruct (mapM rgb cm); cbn in H; eauto; discriminate|rewrite H; cbn; eauto].
Qed.
Lemma dygraph_err cm : Exists (fun c => c = None) cm -> to_dygraph_colors cm = Err EType.
Proof.
  unfold to_dygraph_colors. intros H. assert (G : mapM rgb cm = Err EType); [|now rewrite G].
  induction H as [c cm -> |c cm H IH]; cbn [mapM]; [reflexivity|]. destruct c as [e|]; cbn [rgb bind]; [now rewrite IH|reflexivity].
Qed.
Lemma check_data_ok fs te si co : check_data fs te si co = Ok tt <->
  fs <> [] /\ (Forall (fun b => b = true) fs /\ co = true \/ Exists (fun b => b = false) fs /\ (te = true \/ si = true)).
Proof.
  unfold check_data. destruct fs as [|f fs]; [split; [discriminate|intros [H _]; congruence]|]. set (l := f :: fs).
  assert (N : l <> []) by discriminate. destruct (forallb (fun b : bool => b) l) eqn:E; cbn [negb andb].
  - assert (F : Forall (fun b => b = true) l) by (apply Forall_forall; intros b Hb; rewrite forallb_forall in E; now apply E).
    destruct co; cbn [negb]; split; auto; try discriminate. intros [_ [[_ H]|[H _]]]; [discriminate|].
    apply Exists_exists in H as (b & Hb & ->). rewrite Forall_forall in F. now apply F in Hb.
  - assert (F : Exists (fun b => b = false) l).
    { clear -E. induction l as [|b l IH]; [discriminate|]. destruct b; [right; apply IH; exact E|now left]. }
    assert (Nf : ~ Forall (fun b => b = true) l).
    { intros H. apply Exists_exists in F as (b & Hb & ->). rewrite Forall_forall in H. now apply H in Hb. }
    destruct te, si; cbn [orb negb]; split; auto; try discriminate. intros [_ [[H _]|[_ [H|H]]]]; try discriminate. contradiction.
Qed.
Lemma check_data_err fs te si co e : check_data fs te si co = Err e -> e = EValue.
Proof. unfold check_data. destruct fs; [congruence|]. destruct (_ && _); [congruence|]. destruct (_ && _); congruence. Qed.
