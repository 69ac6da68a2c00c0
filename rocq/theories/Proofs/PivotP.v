(** Pivoted tables hold the last known values. *)
From Coq Require Import List Ascii String ZArith NArith Bool Sorted Lia.
From Verif Require Import Lib.PyStr Lib.PyStrFacts Lib.TotalOrder Model.Power Spec.Power.
Import ListNotations.
Local Open Scope list_scope.

Section PivotP.
  Context {T K L V : Type} (leb : T -> T -> bool) (keq : K -> K -> bool) (leq : L -> L -> bool).
  Hypothesis TOT : total_order leb.
  Hypothesis keq_eq : forall a b, keq a b = true <-> a = b.
  Hypothesis leq_eq : forall a b, leq a b = true <-> a = b.
  Notation row := (T * K * option V)%type.
  Notation lt := (lt leb). Notation le := (le leb).

  (** Time order; rows of one key at different times. *)
  Definition before (r1 r2 : row) : Prop := le (p_time r1) (p_time r2) /\ (p_key r1 = p_key r2 -> lt (p_time r1) (p_time r2)).

  Lemma select_In (rows : list row) k t v : In (t, v) (select keq rows k) <-> In (t, k, v) rows.
  Proof.
    unfold select. rewrite in_map_iff. split.
    - intros ([[t' k'] v'] & E & H). apply filter_In in H as [H Hk]. apply keq_eq in Hk. cbn in *. now injection E as -> ->; subst.
    - intros H. exists (t, k, v). split; auto. apply filter_In. split; auto. now apply keq_eq.
  Qed.
  Lemma select_sorted (rows : list row) k : StronglySorted before rows -> StronglySorted lt (map fst (select keq rows k)).
  Proof.
    unfold select. rewrite map_map. induction 1 as [|r rows Hs IH Hf]; cbn [filter map]; [constructor|].
    destruct (keq (p_key r) k) eqn:E; auto. cbn [map fst]. constructor; auto.
    apply Forall_forall. intros x Hx. apply in_map_iff in Hx as (r' & <- & Hr). apply filter_In in Hr as [Hr Hk].
    rewrite Forall_forall in Hf. apply Hf in Hr as [_ Hr]. apply Hr. apply keq_eq in E, Hk. congruence.
  Qed.
  Lemma at_time_In (s : list (T * option V)) t v : NoDup (map fst s) -> In (t, v) s -> at_time leb s t = v.
  Proof.
    induction s as [|[t' v'] s IH]; cbn [map fst at_time]; intros Hn [].
    - injection H as -> ->. now rewrite teq_refl.
    - inversion Hn; subst. destruct (teq leb t t') eqn:E; auto. apply teq_eq in E; auto. subst. elim H2.
      apply in_map_iff. now exists (t', v).
  Qed.
  Lemma at_time_Some (s : list (T * option V)) t v : at_time leb s t = Some v -> In (t, Some v) s.
  Proof.
    induction s as [|[t' v'] s IH]; cbn [at_time]; [discriminate|].
    destruct (teq leb t t') eqn:E; [|right; auto]. apply teq_eq in E; auto. intros ->. subst. now left.
  Qed.

  (** The same with any set of times. *)
  Definition KnownP (rows : list row) (k : K) (P : T -> Prop) (c : option V) : Prop :=
    match c with
    | Some v => exists pre t' post, rows = pre ++ (t', k, Some v) :: post /\ P t' /\ forall t'' w, In (t'', k, Some w) post -> ~ P t''
    | None => forall t' w, In (t', k, Some w) rows -> ~ P t'
    end.
  Lemma KnownP_ext rows k (P Q : T -> Prop) c : (forall t w, In (t, k, Some w) rows -> (P t <-> Q t)) -> KnownP rows k P c -> KnownP rows k Q c.
  Proof.
    intros H. destruct c as [v|]; cbn.
    - intros (pre & t' & post & E & Hp & Hn). exists pre, t', post. split; auto. subst rows. split.
      + apply (H t' v); auto. apply in_elt.
      + intros t'' w Hi Hq. apply (Hn t'' w Hi). apply (H t'' w); auto. apply in_or_app. right. now right.
    - intros Hn t' w Hi Hq. apply (Hn t' w Hi). now apply (H t' w).
  Qed.
  Lemma pad_known (rows : list row) k : StronglySorted before rows ->
    forall idx (P : T -> Prop) last, StronglySorted lt idx -> (forall x y, P x -> In y idx -> lt x y) ->
    (forall t v, In (t, k, v) rows -> P t \/ In t idx) -> KnownP rows k P last ->
    Forall2 (fun t c => CellOf le rows k t c) idx (pad last (map (at_time leb (select keq rows k)) idx)).
  Proof.
    intros Hrows. assert (Hsel := select_sorted rows k Hrows). assert (Hnd := sorted_nodup leb TOT _ Hsel).
    induction idx as [|t idx IH]; intros P last Hs HP Hall Hl; [constructor|].
    apply StronglySorted_inv in Hs as [Hs Hf]. rewrite Forall_forall in Hf.
    assert (Eq : forall x w, In (x, k, Some w) rows -> (P x \/ x = t <-> le x t)).
    { intros x w Hi. split.
      - intros [Hp | ->]; [apply lt_le; auto; apply HP; auto; now left|now apply le_refl].
      - intros Hle. destruct (Hall x _ Hi) as [Hp|[Hp|Hp]]; auto. apply Hf in Hp.
        exfalso. apply (lt_not_le leb) in Hp; auto. }
    assert (Hcell : CellOf le rows k t (match at_time leb (select keq rows k) t with Some v => Some v | None => last end)).
    { assert (C : forall c, KnownP rows k (fun x => P x \/ x = t) c -> CellOf le rows k t c).
      { intros c H. apply (KnownP_ext _ _ _ (fun x => le x t)) in H; [destruct c; exact H|auto]. }
      apply C. destruct (at_time leb (select keq rows k) t) as [v|] eqn:E.
      - apply at_time_Some, select_In in E. apply in_split in E as (pre & post & ->). exists pre, t, post. split; auto. split; auto.
        intros t'' w Hi [Hp | ->].
        + assert (Ht : lt t t''). { 
            clear - Hrows Hi. induction pre as [|r pre IH]; cbn [app] in Hrows; apply StronglySorted_inv in Hrows as [H1 H2]; auto.
            rewrite Forall_forall in H2. apply H2 in Hi as [_ Hi]. now apply Hi. }
          assert (Ht' : lt t'' t) by (apply HP; auto; now left). destruct (lt_irrefl leb TOT t). eapply lt_trans; eauto.
        + clear - Hrows Hi TOT. induction pre as [|r pre IH]; cbn [app] in Hrows; apply StronglySorted_inv in Hrows as [H1 H2]; auto.
            rewrite Forall_forall in H2. apply H2 in Hi as [_ Hi]. apply (lt_irrefl leb TOT t). now apply Hi.
      - assert (Hno : forall w, ~ In (t, k, Some w) rows).
        { intros w Hw. apply select_In in Hw. now rewrite (at_time_In _ _ _ Hnd Hw) in E. }
        apply (KnownP_ext _ _ P); auto. intros x w Hx. split; auto. intros [Hp | ->]; auto. now apply Hno in Hx. }
    assert (Hnext : forall l', CellOf le rows k t l' ->
      Forall2 (fun t0 c => CellOf le rows k t0 c) idx (pad l' (map (at_time leb (select keq rows k)) idx))).
    { intros l' Hc. apply (IH (fun x => le x t)).
      - auto.
      - intros x y Hx Hy. eapply le_lt_trans; eauto.
      - intros x v Hx. destruct (Hall x v Hx) as [Hp|[Hp|Hp]]; auto.
        + left. apply lt_le; auto. apply HP; auto. now left.
        + left. subst. now apply le_refl.
      - destruct l'; exact Hc. }
    cbn [map pad]. destruct (at_time leb (select keq rows k) t) as [v|]; constructor; auto.
  Qed.

  (** Building the frame. *)
  Definition good (d : list (L * list (T * option V))) : Prop := Forall (fun ls => StronglySorted lt (map fst (snd ls))) d.
  Lemma frame_ok d : good d -> exists idx,
    frame_of leb d = Ok (idx, map (fun ls => (fst ls, map (at_time leb (snd ls)) idx)) d) /\
    StronglySorted lt idx /\ (forall t, In t idx <-> exists ls v, In ls d /\ In (t, v) (snd ls)).
  Proof.
    intros Hg. destruct d as [|[l s] d].
    - exists []. repeat split; [constructor|easy|]. now intros (? & ? & [] & _).
    - cbn [frame_of]. inversion Hg as [|? ? Hs Hd]; subst. cbn [snd] in Hs.
      destruct (forallb _ d) eqn:E.
      + rewrite forallb_forall in E. exists (map fst s).
        assert (Same : forall ls, In ls ((l, s) :: d) -> map fst (snd ls) = map fst s).
        { intros ls [<-|Hi]; auto. apply E in Hi. now apply eq_list_eq in Hi. }
        split; [|split; auto].
        * f_equal. f_equal. apply map_ext_in. intros ls Hi. f_equal. rewrite <- (Same ls Hi), map_map. apply map_ext_in.
          intros [t v] Ht. cbn. symmetry. apply at_time_In; auto. apply (sorted_nodup leb TOT). exact (eq_ind_r (StronglySorted lt) Hs (Same ls Hi)).
        * intros t. split.
          -- intros H. apply in_map_iff in H as ([t' v] & <- & H). exists (l, s), v. split; [now left|auto].
          -- intros (ls & v & Hi & H). rewrite <- (Same ls Hi). apply in_map_iff. now exists (t, v).
      + replace (forallb _ ((l, s) :: d)) with true.
        * eexists. split; [reflexivity|]. split; [now apply sort_u_sorted|]. intros t. rewrite sort_u_In by auto.
          rewrite in_concat. split.
          -- intros (x & Hx & Ht). apply in_map_iff in Hx as (ls & <- & Hi). apply in_map_iff in Ht as ([t' v] & <- & Ht). now exists ls, v.
          -- intros (ls & v & Hi & Ht). exists (map fst (snd ls)). split; [apply in_map_iff; now exists ls|apply in_map_iff; now exists (t, v)].
        * symmetry. apply forallb_forall. intros ls Hi. apply nodup_b_spec; auto. unfold good in Hg. rewrite Forall_forall in Hg.
          apply Hg in Hi. eapply sorted_nodup; eauto.
  Qed.

  Lemma ret_missing label (rows : list row) cols : forall acc, (exists k, In k cols /\ label k = None) -> ret_series keq leq label rows cols acc = Err EKey.
  Proof.
    induction cols as [|k cols IH]; intros acc (k' & Hi & E); [easy|]. cbn [ret_series]. destruct Hi as [->|Hi].
    - now rewrite E.
    - destruct (label k); auto. apply IH. eauto.
  Qed.
  Lemma ret_total (label : K -> option L) lab (rows : list row) cols : (forall k, In k cols -> label k = Some (lab k)) ->
    NoDup (map lab cols) -> forall acc, (forall k, In k cols -> ~ In (lab k) (map fst acc)) ->
    ret_series keq leq label rows cols acc = Ok (acc ++ map (fun k => (lab k, select keq rows k)) cols).
  Proof.
    intros Hl Hn. induction cols as [|k cols IH]; intros acc Ha; cbn [ret_series map].
    - now rewrite app_nil_r.
    - rewrite (Hl k) by now left. inversion Hn; subst.
      assert (E : dset leq (lab k) (select keq rows k) acc = acc ++ [(lab k, select keq rows k)]).
      { assert (Hk : ~ In (lab k) (map fst acc)) by (apply Ha; now left). clear - Hk leq_eq.
        induction acc as [|[l s] acc IH]; cbn [dset app]; auto. cbn [map fst In] in Hk.
        destruct (leq (lab k) l) eqn:E; [apply leq_eq in E; subst; tauto|]. rewrite IH; auto. }
      rewrite E, IH; auto.
      + now rewrite <- app_assoc.
      + intros k' Hk'. apply Hl. now right.
      + intros k' Hk'. rewrite map_app, in_app_iff. cbn. intros [Hi|[Hi|[]]].
        * now apply (Ha k'); [right|].
        * apply H1. rewrite Hi. apply in_map. auto.
  Qed.

  Lemma pivot_known cols (label : K -> option L) (rows : list row) :
    StronglySorted before rows -> NoDup cols -> (forall k, In k cols <-> exists t v, In (t, k, v) rows) ->
    (forall k, In k cols -> label k <> None) -> (forall k k', In k cols -> In k' cols -> label k = label k' -> k = k') ->
    exists idx tab, pivot_with_labels leb keq leq cols label rows = Ok (idx, tab) /\
      StronglySorted lt idx /\ (forall t, In t idx <-> exists k v, In (t, k, v) rows) /\
      map (fun lc => Some (fst lc)) tab = map label cols /\
      forall k l col, In (l, col) tab -> label k = Some l -> In k cols -> Forall2 (fun t c => CellOf le rows k t c) idx col.
  Proof.
    intros Hs Hn Hc Hl Hinj. unfold pivot_with_labels.
    destruct cols as [|k0 cols'].
    { cbn. exists [], []. repeat split; auto; try constructor; try easy. intros (k & v & H). destruct (proj2 (Hc k)). eauto. }
    set (cols := k0 :: cols') in *.
    assert (exists l0, label k0 = Some l0) as [l0 E0]. { destruct (label k0) eqn:E; eauto. elim (Hl k0); auto. now left. }
    set (lab := fun k => match label k with Some l => l | None => l0 end).
    assert (Hlab : forall k, In k cols -> label k = Some (lab k)).
    { intros k Hk. unfold lab. specialize (Hl k Hk). now destruct (label k). }
    rewrite (ret_total label lab).
    - cbn [bind app]. destruct (frame_ok (map (fun k => (lab k, select keq rows k)) cols)) as (idx & E & Hi & Hidx).
      { apply Forall_forall. intros ls H. apply in_map_iff in H as (k & <- & H). cbn [snd]. now apply select_sorted. }
      rewrite E. cbn [bind fst snd]. eexists idx, _. split; [reflexivity|]. split; auto.
      assert (Hidx' : forall t, In t idx <-> exists k v, In (t, k, v) rows).
      { intros t. rewrite Hidx. split.
        - intros (ls & v & H & Ht). apply in_map_iff in H as (k & <- & H). exists k, v. now apply select_In.
        - intros (k & v & H). exists (lab k, select keq rows k), v. split; [|now apply select_In].
          apply in_map_iff. exists k. split; auto. apply Hc. eauto. }
      split; auto. rewrite !map_map. cbn [fst]. split.
      + apply map_ext_in. intros k Hk. now rewrite Hlab.
      + intros k l col H Hk Hin. apply in_map_iff in H as (k' & H & Hk'). cbn [fst snd] in H. injection H as E1 <-.
        assert (k' = k) as ->. { apply Hinj; auto. rewrite Hlab by auto. congruence. }
        apply (pad_known rows k Hs idx (fun _ => False)); auto.
        * intros ? ? [].
        * intros t v Ht. right. apply Hidx'. eauto.
        * cbn. auto.
    - auto.
    - clear - Hn Hlab Hinj. revert Hlab Hinj Hn. generalize cols. clear. intros cols Hlab Hinj Hn. induction Hn as [|k cols Hk Hn IH]; cbn [map]; constructor.
      + intros Hi. apply in_map_iff in Hi as (k' & E & Hk'). assert (k' = k); [|congruence].
        apply Hinj; [now right|now left|]. rewrite !Hlab by (cbn; auto). congruence.
      + apply IH; intros; [apply Hlab; now right|apply Hinj; auto; now right].
    - auto.
  Qed.
  Lemma pivot_missing cols (label : K -> option L) (rows : list row) : (exists k, In k cols /\ label k = None) ->
    pivot_with_labels leb keq leq cols label rows = Err EKey.
  Proof. intros H. unfold pivot_with_labels. now rewrite ret_missing. Qed.
End PivotP.
