(** Constraints. *)
From Coq Require Import List Ascii String ZArith Bool Sorted Permutation Lia.
From Verif Require Import Lib.PyStr Lib.PyStrFacts Lib.TotalOrder Model.Stats Model.Accessor Spec.Accessor Proofs.AccessorP Model.Constraint Spec.Constraint.
Import ListNotations.
Local Open Scope list_scope.

Section P.
  Context {T V : Type} (veq : V -> V -> bool) (dflt : V).
  Hypothesis veq_eq : forall a b, veq a b = true <-> a = b.
  Notation row := (T * list (str * option V))%type.
  Lemma among_In vs c : among veq vs c = true <-> exists v, c = Some v /\ In v vs.
  Proof.
    destruct c as [v|]; cbn.
    - rewrite existsb_exists. split; [intros (x & Hx & E); apply veq_eq in E as <-; eauto|intros (x & [= <-] & Hx); exists v; split; auto; now apply veq_eq].
    - split; [discriminate|]. now intros (v & [=] & _).
  Qed.
  Lemma among_one x c : among veq [x] c = true <-> c = Some x.
  Proof. rewrite among_In. split; [intros (v & -> & [->|[]]); auto|intros ->; exists x; cbn; auto]. Qed.
  Lemma dget_nodup (filters : list (str * list V)) p wanted : NoDup (map fst filters) -> (dget eqs p filters = Some wanted <-> In (p, wanted) filters).
  Proof.
    induction filters as [|[k x] l IH]; cbn [dget map fst In]; intros H; [split; easy|]. inversion H as [|? ? H1 H2]; subst.
    destruct (eqs p k) eqn:E.
    - apply eqs_eq in E as ->. split; [intros [= ->]; auto|intros [[= ->]|Hi]; auto]. elim H1. now apply (in_map fst) in Hi.
    - rewrite IH by auto. split; [auto|]. intros [[= -> ->]|Hi]; auto. now rewrite eqs_refl in E.
  Qed.
  Lemma dget_none (filters : list (str * list V)) p : dget eqs p filters = None <-> forall wanted, ~ In (p, wanted) filters.
  Proof.
    induction filters as [|[k x] l IH]; cbn [dget In]; [split; auto|]. destruct (eqs p k) eqn:E.
    - apply eqs_eq in E as ->. split; [discriminate|]. intros H. elim (H x). now left.
    - rewrite IH. split; [|firstorder]. intros H wanted [[= -> ->]|Hi]; [now rewrite eqs_refl in E|now apply H in Hi].
  Qed.
  Lemma meets_some p filters (f : gframe T V) r : meets veq (Some p) filters f r = true <->
    forall c wanted, In (c, wanted) filters -> In c (g_cols f) -> c <> p -> exists v, gcell c r = Some v /\ In v wanted.
  Proof.
    unfold meets. rewrite forallb_forall. split.
    - intros H c wanted Hi Hc Hn. specialize (H _ Hi). cbn [fst snd] in H. apply has_col_In in Hc. rewrite Hc in H. cbn [negb] in H. rewrite orb_false_r in H.
      apply orb_true_iff in H as [H|H]; [now apply eqs_eq in H|]. now apply among_In.
    - intros H [c wanted] Hi. cbn [fst snd]. destruct (eqs c p) eqn:E; auto. destruct (has_col c (g_cols f)) eqn:Ec; auto. cbn [negb orb].
      apply among_In. apply H with (c := c); auto; [now apply has_col_In|]. intros ->. now rewrite eqs_refl in E.
  Qed.
  Lemma meets_none filters (f : gframe T V) r : meets veq None filters f r = true <-> Wanted filters (g_cols f) r.
  Proof.
    unfold meets, Wanted. rewrite forallb_forall. split.
    - intros H c wanted Hi Hc. specialize (H _ Hi). cbn [fst snd orb] in H. apply has_col_In in Hc. rewrite Hc in H. cbn [negb orb] in H. now apply among_In.
    - intros H [c wanted] Hi. cbn [fst snd orb]. destruct (has_col c (g_cols f)) eqn:Ec; auto. cbn [negb orb]. apply among_In. apply (H c); auto. now apply has_col_In.
  Qed.
  Lemma column_only (P : row -> Prop) (p : row -> bool) c rows s : (forall r, In r rows -> (p r = true <-> P r)) ->
    (Column P c rows s <-> s = column_of c (filter p rows)).
  Proof.
    intros H. pose proof (only_filter P p rows H) as O. split.
    - intros (sel & Hs & ->). now rewrite (only_fun _ _ _ Hs _ O).
    - intros ->. exists (filter p rows). auto.
  Qed.

  Section Pivot.
    Context (col p : str) (filters : list (str * list V)) (f : gframe T V) (order : list (option V)).
    Hypothesis Hcol : In col (g_cols f).
    Hypothesis Hp : In p (g_cols f).
    Hypothesis Hd : NoDup (map fst filters).
    Hypothesis Hord : forall v, In (Some v) order <-> is_pivot_val veq p filters f (Some v).
    Hypothesis Hdup : NoDup (present order).
    Hypothesis Hdf : forall r, In r (g_rows f) -> gcell p r <> Some dflt.
    Lemma mine_iff v r : In r (g_rows f) -> In (Some v) order ->
      (meets veq (Some p) filters f r && of_pivot veq dflt (Some p) (Some v) r = true <-> Mine p v filters (g_cols f) r).
    Proof.
      intros Hr Hv. apply Hord in Hv as (_ & Hv & Hw). rewrite andb_true_iff, meets_some. unfold of_pivot. replace (among veq [dflt] (Some v)) with false.
      - rewrite among_one. split.
        + intros [H1 H2]. split; auto. intros c wanted Hi Hc. destruct (eqs c p) eqn:E.
          * apply eqs_eq in E as ->. apply (dget_nodup _ _ _ Hd) in Hi. rewrite Hi in Hw. apply among_In in Hw as (x & [= <-] & Hx). eauto.
          * apply (H1 c); auto. intros ->. now rewrite eqs_refl in E.
        + intros [H1 H2]. split; auto.
      - symmetry. destruct (among veq [dflt] (Some v)) eqn:E; auto. apply among_one in E as [= ->]. apply in_map_iff in Hv as (r' & E & Hr'). now apply Hdf in Hr'.
    Qed.
    Lemma mine_order v r : In r (g_rows f) -> Mine p v filters (g_cols f) r -> In (Some v) order.
    Proof.
      intros Hr [H1 H2]. apply Hord. split; auto. split; [apply in_map_iff; eauto|]. destruct (dget eqs p filters) as [wanted|] eqn:E; auto.
      apply (dget_nodup _ _ _ Hd) in E. destruct (H1 p wanted E Hp) as (x & Ex & Hx). rewrite H2 in Ex. injection Ex as <-. apply among_In. eauto.
    Qed.
    Lemma apply_series v s : In (Some v, s) (apply_ veq dflt col (Some p) filters f order) <->
      Column (Mine p v filters (g_cols f)) col (g_rows f) s /\ s <> [].
    Proof.
      unfold apply_. rewrite (proj2 (has_col_In col (g_cols f)) Hcol). rewrite in_flat_map. split.
      - intros (x & Hx & Hs). destruct (filter _ (g_rows f)) as [|r rows] eqn:E; [easy|]. destruct Hs as [Hs|[]]. assert (x = Some v /\ s = column_of col (r :: rows)) as [-> ->] by (split; congruence). rewrite <- E. split.
        + apply (column_only _ (fun r => meets veq (Some p) filters f r && of_pivot veq dflt (Some p) (Some v) r)); auto. intros r' Hr'. now apply mine_iff.
        + rewrite E. discriminate.
      - intros [Hc Hn]. assert (Hv : In (Some v) order).
        { destruct Hc as (sel & Ho & ->). destruct sel as [|r sel]; [easy|]. destruct (proj1 (only_sub _ _ _ Ho r) (or_introl eq_refl)) as [Hr Hm]. now apply (mine_order v r). }
        exists (Some v). split; auto.
        apply (column_only _ (fun r => meets veq (Some p) filters f r && of_pivot veq dflt (Some p) (Some v) r)) in Hc; [|intros r' Hr'; now apply mine_iff].
        subst s. destruct (filter _ (g_rows f)) as [|r rows]; [easy|]. now left.
    Qed.
    Lemma apply_keys : NoDup (map fst (apply_ veq dflt col (Some p) filters f order)) /\
      (forall s, ~ In (None, s) (apply_ veq dflt col (Some p) filters f order)).
    Proof.
      unfold apply_. rewrite (proj2 (has_col_In col (g_cols f)) Hcol). split.
      - clear Hord. induction order as [|x l IH]; [constructor|]. cbn [flat_map]. rewrite map_app.
        assert (Hl : NoDup (present l)) by (destruct x; cbn [present flat_map app] in Hdup; [now apply NoDup_cons_iff in Hdup|auto]).
        specialize (IH Hl). destruct (filter _ (g_rows f)) as [|r rows] eqn:E; [exact IH|]. cbn [map fst app]. constructor; auto.
        intros Hi. apply in_map_iff in Hi as ([k s] & Ek & Hi). cbn [fst] in Ek. subst k. apply in_flat_map in Hi as (y & Hy & Hs).
        destruct (filter (fun r0 => meets veq (Some p) filters f r0 && of_pivot veq dflt (Some p) y r0) (g_rows f)) eqn:E'; [easy|]. destruct Hs as [[= -> _]|[]].
        destruct x as [v|].
        + cbn [present flat_map app] in Hdup. apply NoDup_cons_iff in Hdup as [Hd1 _]. apply Hd1. apply in_flat_map. exists (Some v). split; auto. now left.
        + assert (In r (filter (fun r0 => meets veq (Some p) filters f r0 && of_pivot veq dflt (Some p) None r0) (g_rows f))) as Hin by (rewrite E; now left).
          apply filter_In in Hin as [_ Hin]. cbn in Hin. rewrite andb_false_r in Hin. discriminate.
      - intros s Hi. apply in_flat_map in Hi as (y & Hy & Hs). destruct (filter _ (g_rows f)) as [|r rows] eqn:E; [easy|]. destruct Hs as [[= -> _]|[]].
        assert (In r (filter (fun r0 => meets veq (Some p) filters f r0 && of_pivot veq dflt (Some p) None r0) (g_rows f))) as Hin by (rewrite E; now left).
        apply filter_In in Hin as [_ Hin]. cbn in Hin. rewrite andb_false_r in Hin. discriminate.
    Qed.
  End Pivot.
  Lemma apply_default col filters (f : gframe T V) order s : In col (g_cols f) -> Column (Wanted filters (g_cols f)) col (g_rows f) s ->
    apply_ veq dflt col None filters f order = match s with [] => [] | _ => [(Some dflt, s)] end.
  Proof.
    intros Hc Hs. unfold apply_. rewrite (proj2 (has_col_In col (g_cols f)) Hc). cbn [flat_map]. rewrite app_nil_r.
    apply (column_only _ (fun r => meets veq None filters f r && of_pivot veq dflt None (Some dflt) r)) in Hs.
    - subst s. destruct (filter _ (g_rows f)) as [|r rows]; auto.
    - intros r _. rewrite andb_true_iff, meets_none. unfold of_pivot. rewrite (proj2 (among_one dflt (Some dflt)) eq_refl). tauto.
  Qed.
  Lemma apply_no_column col pivot filters (f : gframe T V) order : ~ In col (g_cols f) -> apply_ veq dflt col pivot filters f order = [].
  Proof.
    intros H. unfold apply_. destruct (has_col col (g_cols f)) eqn:E; auto. now apply has_col_In in E.
  Qed.
End P.

(** ** Windows *)
Section Window.
  Context {T V : Type} (leb : T -> T -> bool).
  Hypothesis TOT : total_order leb.
  Notation row := (T * list (str * option V))%type.
  Notation le := (fun a b => leb a b = true).
  Notation sorted := (StronglySorted le).
  Lemma leb_false a b : leb a b = false -> le b a /\ a <> b.
  Proof. intros H. destruct (to_total _ TOT a b) as [E|E]; [congruence|]. split; auto. intros ->. rewrite (le_refl leb TOT) in H. discriminate. Qed.
  Lemma drop_le t (rows : list row) : sorted (map fst rows) -> drop_before leb t rows = filter (fun r => leb t (fst r)) rows.
  Proof.
    induction rows as [|r rows IH]; intros H; cbn [drop_before filter]; auto. apply StronglySorted_inv in H as [H1 H2].
    destruct (leb t (fst r)) eqn:E; auto. f_equal. symmetry. rewrite <- (map_id rows) at 2. rewrite map_id. clear IH H1.
    induction rows as [|r' rows IH]; auto. cbn [filter map] in *. inversion H2; subst.
    replace (leb t (fst r')) with true by (symmetry; eapply (to_trans _ TOT); eauto). f_equal. now apply IH.
  Qed.
  Lemma take_le t (rows : list row) : sorted (map fst rows) -> take_until leb t rows = filter (fun r => leb (fst r) t) rows.
  Proof.
    induction rows as [|r rows IH]; intros H; cbn [take_until filter]; auto. apply StronglySorted_inv in H as [H1 H2].
    destruct (leb (fst r) t) eqn:E; [f_equal; auto|]. clear IH H1. induction rows as [|r' rows IH]; auto. cbn [filter map] in *. inversion H2; subst.
    destruct (leb (fst r') t) eqn:E'; [|now apply IH]. exfalso. rewrite (to_trans _ TOT _ _ _ H1 E') in E. discriminate.
  Qed.
  Lemma filter_le (p : row -> bool) rows : sorted (map fst rows) -> sorted (map fst (filter p rows)).
  Proof.
    induction rows as [|r rows IH]; intros H; cbn [filter]; auto. apply StronglySorted_inv in H as [H1 H2].
    destruct (p r); auto. cbn [map]. constructor; auto. rewrite Forall_forall in *. intros x Hx. apply H2. apply in_map_iff in Hx as (y & <- & Hy).
    apply filter_In in Hy as [Hy _]. now apply in_map.
  Qed.
  Lemma fold_max l : forall t, le t (fold_left (fun a b => if leb a b then b else a) l t) /\ (forall x, In x l -> le x (fold_left (fun a b => if leb a b then b else a) l t)) /\
    (fold_left (fun a b => if leb a b then b else a) l t = t \/ In (fold_left (fun a b => if leb a b then b else a) l t) l).
  Proof.
    induction l as [|y l IH]; intros t; cbn [fold_left In]; [split; [now apply le_refl|split; [easy|auto]]|].
    destruct (IH (if leb t y then y else t)) as (A & B & C). set (m := fold_left _ l _) in *. destruct (leb t y) eqn:E.
    - split; [eapply (to_trans _ TOT); eauto|]. split; [intros x [<-|Hx]; auto|]. destruct C as [-> | ]; auto.
    - apply leb_false in E as [E _]. split; auto. split; [intros x [<-|Hx]; auto; eapply (to_trans _ TOT); eauto|]. destruct C; auto.
  Qed.
  Lemma fold_min l : forall t, le (fold_left (fun a b => if leb a b then a else b) l t) t /\ (forall x, In x l -> le (fold_left (fun a b => if leb a b then a else b) l t) x) /\
    (fold_left (fun a b => if leb a b then a else b) l t = t \/ In (fold_left (fun a b => if leb a b then a else b) l t) l).
  Proof.
    induction l as [|y l IH]; intros t; cbn [fold_left In]; [split; [now apply le_refl|split; [easy|auto]]|].
    destruct (IH (if leb t y then t else y)) as (A & B & C). set (m := fold_left _ l _) in *. destruct (leb t y) eqn:E.
    - split; auto. split; [intros x [<-|Hx]; auto; eapply (to_trans _ TOT); eauto|]. destruct C; auto.
    - apply leb_false in E as [E _]. split; [eapply (to_trans _ TOT); eauto|]. split; [intros x [<-|Hx]; auto|]. destruct C as [-> | ]; auto.
  Qed.
  Lemma index_max_spec l m : index_max leb l = Some m -> In m l /\ forall x, In x l -> le x m.
  Proof.
    destruct l as [|t l]; [discriminate|]. cbn [index_max]. intros [= <-]. destruct (fold_max l t) as (A & B & C). split.
    - destruct C as [C|C]; [rewrite C; now left|now right].
    - intros x [<-|Hx]; auto.
  Qed.
  Lemma index_min_spec l m : index_min leb l = Some m -> In m l /\ forall x, In x l -> le m x.
  Proof.
    destruct l as [|t l]; [discriminate|]. cbn [index_min]. intros [= <-]. destruct (fold_min l t) as (A & B & C). split.
    - destruct C as [C|C]; [rewrite C; now left|now right].
    - intros x [<-|Hx]; auto.
  Qed.
  Lemma window_ok a b (rows : list row) : sorted (map fst rows) -> (exists r, In r rows /\ le (fst r) a) ->
    Only (In_window leb a b rows) rows (window_rows leb (Some (a, b)) rows).
  Proof.
    intros Hs (r0 & Hr0 & Ha). cbn [window_rows]. rewrite take_le, drop_le by auto.
    destruct (index_max leb _) as [lo|] eqn:E1.
    2: { assert (In r0 (filter (fun r => leb (fst r) a) rows)) as Hin by (apply filter_In; auto). destruct (filter _ rows); [easy|discriminate]. }
    apply index_max_spec in E1 as [L1 L2]. apply in_map_iff in L1 as (rl & El & L1). apply filter_In in L1 as [L1 L1'].
    assert (Lo : forall r, In r rows -> (leb lo (fst r) = true <-> forall r', In r' rows -> le (fst r') a -> le (fst r') (fst r))).
    { intros r Hr. split.
      - intros H r' Hr' Hl. apply (to_trans _ TOT _ lo); auto. apply L2. apply in_map. apply filter_In. auto.
      - intros H. rewrite <- El. now apply H. }
    destruct (index_min leb _) as [hi|] eqn:E2.
    - apply index_min_spec in E2 as [M1 M2]. apply in_map_iff in M1 as (rh & Eh & M1). apply filter_In in M1 as [M1 M1'].
      rewrite drop_le by auto. rewrite take_le by now apply filter_le. rewrite filter_filter. apply only_filter. intros r Hr. rewrite andb_true_iff, Lo by auto.
      unfold In_window. split; intros [H1 H2]; split; auto.
      + intros r' Hr' Hl. apply (to_trans _ TOT _ hi); auto. apply M2. apply in_map. apply filter_In. auto.
      + rewrite <- Eh. now apply H2.
    - rewrite drop_le by auto. apply only_filter. intros r Hr. rewrite Lo by auto. unfold In_window. split; [intros H; split; auto|now intros []].
      intros r' Hr' Hl. assert (In r' (filter (fun r => leb b (fst r)) rows)) as Hin by (apply filter_In; auto). destruct (filter (fun r => leb b (fst r)) rows); [easy|discriminate].
  Qed.
  Lemma window_early a b (rows : list row) : sorted (map fst rows) -> (forall r, In r rows -> ~ le (fst r) a) -> window_rows leb (Some (a, b)) rows = [].
  Proof.
    intros Hs H. cbn [window_rows]. rewrite take_le by auto. replace (filter (fun r => leb (fst r) a) rows) with (@nil row); auto.
    symmetry. clear Hs. induction rows as [|r rows IH]; auto. cbn [filter]. destruct (leb (fst r) a) eqn:E; [elim (H r); auto; now left|]. apply IH. intros r' Hr'. apply H. now right.
  Qed.
End Window.
