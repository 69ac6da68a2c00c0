(** Triggers, indexes, stored series. *)
From Coq Require Import List Ascii String ZArith Bool Sorted Lia.
From Verif Require Import Lib.PyStr Lib.PyStrFacts Lib.TotalOrder Lib.F64 Model.Base Model.Stats Spec.Stats.
Import ListNotations.
Local Open Scope list_scope.

(** ** Triggers *)
Lemma ceq_eq a b : ceq a b = true <-> a = b /\ b <> CNone.
Proof.
  destruct a as [x|x|], b as [y|y|]; cbn [ceq]; try (split; [discriminate|intros [E N]; congruence]).
  - rewrite Z.eqb_eq. split; [intros ->; split; auto; discriminate|intros [[= ->] _]; auto].
  - rewrite eqs_eq. split; [intros ->; split; auto; discriminate|intros [[= ->] _]; auto].
Qed.
Lemma ceq_has row key v : ceq (cell_at key row) v = true <-> has_value row key v.
Proof.
  rewrite ceq_eq. unfold cell_at, has_value. destruct (dget eqs key row) as [c|]; split; intros [H1 H2]; split; auto; try congruence.
Qed.
Lemma has_col_In key cols : has_col key cols = true <-> In key cols.
Proof.
  unfold has_col. rewrite existsb_exists. split.
  - intros (x & H & E). apply eqs_eq in E. now subst.
  - intros H. exists key. split; auto. now apply eqs_eq.
Qed.
Definition pass_b (cols : list str) (row : list (str * cell)) (kf : str * tfilter) : bool :=
  match snd kf with
  | FFun p => p (cell_at (fst kf) row)
  | FVal v => negb (has_col (fst kf) cols) || ceq (cell_at (fst kf) row) v
  | FVals vs => negb (has_col (fst kf) cols) || forallb (ceq (cell_at (fst kf) row)) vs
  end.
Lemma pass_b_iff cols row kf : pass_b cols row kf = true <-> passes cols row kf.
Proof.
  unfold pass_b, passes. destruct kf as [k [p|v|vs]]; cbn [fst snd]; [tauto| |].
  - rewrite orb_true_iff, negb_true_iff, <- not_true_iff_false, has_col_In, ceq_has.
    destruct (has_col k cols) eqn:E; [apply has_col_In in E|rewrite <- not_true_iff_false, has_col_In in E]; tauto.
  - rewrite orb_true_iff, negb_true_iff, <- not_true_iff_false, has_col_In, forallb_forall, Forall_forall.
    destruct (has_col k cols) eqn:E; [apply has_col_In in E|rewrite <- not_true_iff_false, has_col_In in E].
    + split.
      * intros [H|H]; [tauto|]. intros _ v Hv. apply ceq_has. auto.
      * intros H. right. intros v Hv. apply ceq_has. auto.
    + split; [tauto|]. auto.
Qed.

Section TriggerP.
  Context {T V : Type}.
  Notation row := (T * list (str * cell))%type.
  Lemma combine_mask (m : row -> bool) rows : combine (map m rows) rows = map (fun r => (m r, r)) rows.
  Proof. induction rows as [|r rows IH]; cbn; auto. now rewrite IH. Qed.
  Lemma step_mask cols (rows : list row) (m : row -> bool) kf : (forall p, snd kf = FFun p -> In (fst kf) cols) ->
    step_filter cols rows (map m rows) kf = Ok (map (fun r => m r && pass_b cols (snd r) kf) rows).
  Proof.
    intros H. destruct kf as [k [p|v|vs]]; cbn [step_filter fst snd] in *; unfold pass_b; cbn [fst snd].
    - rewrite (proj2 (has_col_In k cols)) by (eapply H; reflexivity). rewrite combine_mask, map_map. reflexivity.
    - destruct (has_col k cols); cbn [negb orb].
      + rewrite combine_mask, map_map. reflexivity.
      + f_equal. apply map_ext. intros r. now rewrite andb_true_r.
    - destruct (has_col k cols); cbn [negb orb].
      + rewrite combine_mask, map_map. reflexivity.
      + f_equal. apply map_ext. intros r. now rewrite andb_true_r.
  Qed.
  Lemma run_mask cols (rows : list row) fs : functions_ok cols fs -> forall m,
    run_filters cols rows (map m rows) fs = Ok (map (fun r => m r && forallb (pass_b cols (snd r)) fs) rows).
  Proof.
    intros H. induction fs as [|f fs IH]; intros m; cbn [run_filters forallb].
    - f_equal. apply map_ext. intros r. now rewrite andb_true_r.
    - rewrite step_mask. cbn [bind]. rewrite IH.
      + f_equal. apply map_ext. intros r. now rewrite andb_assoc.
      + intros k p Hi. apply (H k p). now right.
      + intros p E. destruct f as [k ?]. cbn in *. subst. apply (H k p). now left.
  Qed.
  Lemma keep_mask (m : row -> bool) rows : keep (map m rows) rows = filter m rows.
  Proof.
    unfold keep. rewrite combine_mask. induction rows as [|r rows IH]; cbn [map filter fst snd]; auto. destruct (m r); cbn [map snd]; now rewrite IH.
  Qed.
  Lemma filter_picked (P : row -> Prop) (p : row -> bool) l : (forall r, p r = true <-> P r) -> Picked P l (filter p l).
  Proof.
    intros H. induction l as [|a l IH]; cbn [filter]; [constructor|]. destruct (p a) eqn:E.
    - apply P_take; auto. now apply H.
    - apply P_skip; auto. intros Hp. apply H in Hp. congruence.
  Qed.
  Lemma filter_filter {B} (p q : B -> bool) l : filter p (filter q l) = filter (fun x => q x && p x) l.
  Proof. induction l as [|a l IH]; cbn [filter]; auto. destruct (q a); cbn [filter andb]; [destruct (p a)|]; now rewrite IH. Qed.
  Lemma generate_rows (g : trigger T V) node v : g_value g = VNum v -> In (g_pivot g) (f_cols (g_frame g)) ->
    functions_ok (f_cols (g_frame g)) (g_filters g) ->
    exists sel, generate g node = Ok (RSeries (map (fun r => (fst r, v)) sel)) /\
      Picked (fires (f_cols (g_frame g)) (g_pivot g) node (g_filters g)) (f_rows (g_frame g)) sel.
  Proof.
    intros Hv Hp Hf. unfold generate. rewrite (proj2 (has_col_In _ _) Hp), Hv.
    set (rows := filter _ (f_rows (g_frame g))).
    assert (E : repeat true (List.length rows) = map (fun _ : row => true) rows) by (induction rows; cbn; [auto|now f_equal]).
    rewrite E, run_mask by auto. cbn [bind andb]. rewrite keep_mask. eexists. split; [reflexivity|].
    unfold rows. rewrite filter_filter. apply filter_picked. intros r. rewrite andb_true_iff, ceq_has, forallb_forall. unfold fires.
    rewrite Forall_forall. split; intros [H1 H2]; split; auto; intros kf Hk; apply pass_b_iff; auto.
  Qed.
  Lemma generate_no_pivot (g : trigger T V) node : ~ In (g_pivot g) (f_cols (g_frame g)) -> generate g node = Err EKey.
  Proof. intros H. unfold generate. destruct (has_col _ _) eqn:E; auto. apply has_col_In in E. tauto. Qed.
  Lemma generate_no_column (g : trigger T V) node k p : In (k, FFun p) (g_filters g) -> ~ In k (f_cols (g_frame g)) ->
    generate g node = Err EKey.
  Proof.
    intros Hi Hk. unfold generate. destruct (has_col _ _); auto. set (rows := filter _ _).
    assert (forall m, run_filters (f_cols (g_frame g)) rows m (g_filters g) = Err EKey) as ->; [|reflexivity].
    induction (g_filters g) as [|f fs IH]; intros m; [easy|]. cbn [run_filters].
    assert (Hc : has_col k (f_cols (g_frame g)) = false). { destruct (has_col k _) eqn:E; auto. apply has_col_In in E. tauto. }
    destruct Hi as [->|Hi].
    - cbn [step_filter]. now rewrite Hc.
    - destruct f as [k' [p'|v'|vs']]; cbn [step_filter]; destruct (has_col k' _); cbn [bind]; auto.
  Qed.
  Lemma picked_none (P : row -> Prop) l sel : Picked P l sel -> (forall r, ~ P r) -> sel = [].
  Proof. induction 1; intros Hn; auto. now elim (Hn a). Qed.
  Lemma generate_list (g : trigger T V) node v k vs a b : g_value g = VNum v -> In (g_pivot g) (f_cols (g_frame g)) ->
    functions_ok (f_cols (g_frame g)) (g_filters g) -> In (k, FVals vs) (g_filters g) -> In k (f_cols (g_frame g)) ->
    In a vs -> In b vs -> a <> b -> generate g node = Ok (RSeries []).
  Proof.
    intros Hv Hp Hf Hi Hk Ha Hb Hn. destruct (generate_rows g node v Hv Hp Hf) as (sel & -> & Hs).
    assert (sel = []) as ->; auto. apply (picked_none _ _ _ Hs). intros r [_ Hr]. rewrite Forall_forall in Hr. apply Hr in Hi.
    cbn in Hi. specialize (Hi Hk). rewrite Forall_forall in Hi. apply Hi in Ha as [_ Ha]. apply Hi in Hb as [_ Hb]. congruence.
  Qed.
  Definition with_value (g : trigger T V) (v : tvalue V) : trigger T V := Trig (g_frame g) (g_filters g) v (g_pivot g).
  Lemma generate_name_ignored (g : trigger T V) node s s' : generate (with_value g (VName s)) node = generate (with_value g (VName s')) node.
  Proof. reflexivity. Qed.
  Lemma generate_name_unbound (g : trigger T V) node s : g_filters g = [] -> In (g_pivot g) (f_cols (g_frame g)) ->
    generate (with_value g (VName s)) node = Err EName.
  Proof. intros H Hp. unfold generate. cbn [g_frame g_filters g_value g_pivot with_value]. rewrite H, (proj2 (has_col_In _ _) Hp). reflexivity. Qed.
End TriggerP.

(** ** Indexes *)
Section IndexP.
  Context {T : Type} (leb : T -> T -> bool).
  Hypothesis TOT : total_order leb.
  Lemma union_In a b x : In x (idx_union leb a b) <-> In x a \/ In x b.
  Proof.
    unfold idx_union. destruct b as [|y b]; [cbn; tauto|]. destruct (eq_list leb a (y :: b)) eqn:E.
    - apply eq_list_eq in E as ->; auto. tauto.
    - destruct a as [|z a]; [cbn; tauto|]. rewrite sort_u_In, in_app_iff by auto. reflexivity.
  Qed.
  Lemma unions_In l : forall a x, In x (fold_left (idx_union leb) l a) <-> In x a \/ exists i, In i l /\ In x i.
  Proof.
    induction l as [|b l IH]; intros a x; cbn [fold_left].
    - split; auto. intros [H|(i & [] & _)]. auto.
    - rewrite IH, union_In. split.
      + intros [[H|H]|(i & H1 & H2)]; eauto; right; [exists b|exists i]; cbn; auto.
      + intros [H|(i & [->|H1] & H2)]; eauto.
  Qed.
  Lemma unify_ok l : StronglySorted (lt leb) (unify leb l) /\ forall x, In x (unify leb l) <-> exists i, In i l /\ In x i.
  Proof.
    unfold unify. split; [now apply sort_u_sorted|]. intros x. rewrite sort_u_In, unions_In by auto. cbn. split; auto. now intros [[]|H].
  Qed.
  Lemma union_sorted a b : StronglySorted (lt leb) a -> StronglySorted (lt leb) b -> StronglySorted (lt leb) (idx_union leb a b).
  Proof.
    intros Ha Hb. unfold idx_union. destruct b as [|y b]; auto. destruct (eq_list leb a (y :: b)); auto.
    destruct a; auto. now apply sort_u_sorted.
  Qed.
  Lemma unified_ok l : l <> [] -> Forall (StronglySorted (lt leb)) l ->
    exists u, unified_indexer leb l = Ok u /\ StronglySorted (lt leb) u /\ forall x, In x u <-> exists i, In i l /\ In x i.
  Proof.
    destruct l as [|i l]; [congruence|]. intros _ H. inversion H as [|? ? Hi Hl]; subst. exists (fold_left (idx_union leb) l i). split; [reflexivity|]. split.
    - clear H. revert i Hi. induction Hl as [|b l Hb Hl IH]; intros i Hi; cbn [fold_left]; auto. apply IH. now apply union_sorted.
    - intros x. rewrite unions_In. split.
      + intros [Hx|(j & H1 & H2)]; [exists i|exists j]; cbn; auto.
      + intros (j & [->|H1] & H2); eauto.
  Qed.

  (** ** Stored series *)
  Context {N V : Type} (neq : N -> N -> bool) (zero : V).
  Hypothesis neq_eq : forall a b, neq a b = true <-> a = b.
  Definition look (s : list (T * V)) (t : T) : option V := option_map snd (find (fun e => teq leb t (fst e)) s).
  Lemma teq_dec (a b : T) : {a = b} + {a <> b}.
  Proof.
    destruct (teq leb a b) eqn:Q; [left; now apply (teq_eq leb TOT) in Q|right; intros ->].
    now rewrite (teq_refl leb TOT) in Q.
  Qed.
  Lemma set_at_fst t (v : V) (s : list (T * V)) : In t (map fst s) -> map fst (set_at leb t v s) = map fst s.
  Proof.
    intros H. unfold set_at. replace (existsb _ s) with true.
    - rewrite map_map. apply map_ext. intros e. now destruct (teq leb t (fst e)).
    - symmetry. apply existsb_exists. apply in_map_iff in H as (e & <- & H). exists e. split; auto. now apply teq_eq.
  Qed.
  Lemma look_set t (v : V) (s : list (T * V)) t' : In t (map fst s) -> look (set_at leb t v s) t' = if teq leb t' t then Some v else look s t'.
  Proof.
    intros H. unfold set_at. replace (existsb _ s) with true.
    2: { symmetry. apply existsb_exists. apply in_map_iff in H as (e & <- & H). exists e. split; auto. now apply teq_eq. }
    unfold look. induction s as [|[u w] s IH]; [easy|]. cbn [map find fst].
    destruct (teq leb t u) eqn:E1; cbn [fst].
    - apply (teq_eq leb TOT) in E1. subst u. destruct (teq leb t' t) eqn:E2; [reflexivity|].
      destruct (in_dec teq_dec t (map fst s)) as [Hi|Hi].
      + specialize (IH Hi). rewrite IH. reflexivity.
      + clear IH H. f_equal. induction s as [|[u' w'] s IH]; auto. cbn [map find fst] in *.
        destruct (teq leb t u') eqn:E3; [apply (teq_eq leb TOT) in E3; subst; elim Hi; now left|].
        cbn [fst]. destruct (teq leb t' u'); auto. apply IH. intros Hi'. apply Hi. now right.
    - destruct (teq leb t' u) eqn:E2.
      + destruct (teq leb t' t) eqn:E3; auto. apply (teq_eq leb TOT) in E2, E3. subst. now rewrite (teq_refl leb TOT) in E1.
      + apply IH. cbn [map fst In] in H. destruct H as [->|H]; auto. now rewrite (teq_refl leb TOT) in E1.
  Qed.
  Definition puts (s : list (T * V)) (ser : list (T * V)) := fold_left (fun c tv => set_at leb (fst tv) (snd tv) c) ser s.
  Lemma puts_spec (ser : list (T * V)) : NoDup (map fst ser) -> forall s, (forall t, In t (map fst ser) -> In t (map fst s)) ->
    map fst (puts s ser) = map fst s /\ forall t, look (puts s ser) t = match look ser t with Some v => Some v | None => look s t end.
  Proof.
    unfold puts. induction ser as [|[t v] ser IH]; intros Hn s Hi; cbn [fold_left fst snd]; auto.
    inversion Hn; subst. assert (Ht : In t (map fst s)) by (apply Hi; now left).
    destruct (IH H2 (set_at leb t v s)) as [F L].
    { intros t' Ht'. rewrite set_at_fst by auto. apply Hi. now right. }
    split; [rewrite F; now apply set_at_fst|]. intros t'. rewrite L, look_set by auto. unfold look at 3. cbn [find fst].
    destruct (teq leb t' t) eqn:E.
    - apply (teq_eq leb TOT) in E. subst t'. cbn [option_map snd]. replace (look ser t) with (@None V); auto.
      symmetry. unfold look. destruct (find _ ser) as [e|] eqn:Ef; auto. apply find_some in Ef as [Hf He]. apply (teq_eq leb TOT) in He. subst t.
      elim H1. now apply in_map.
    - reflexivity.
  Qed.
  Lemma look_In (ser : list (T * V)) t v : NoDup (map fst ser) -> (look ser t = Some v <-> In (t, v) ser).
  Proof.
    intros Hn. unfold look. split.
    - destruct (find _ ser) as [[u w]|] eqn:Ef; [|discriminate]. intros [= <-]. apply find_some in Ef as [Hf He]. apply (teq_eq leb TOT) in He. cbn in He. now subst.
    - intros Hi. induction ser as [|[u w] ser IH]; [easy|]. cbn [find fst map] in *. inversion Hn; subst. destruct Hi as [[= -> ->]|Hi].
      + now rewrite (teq_refl leb TOT).
      + destruct (teq leb t u) eqn:E; auto. apply (teq_eq leb TOT) in E. subst. elim H1. apply in_map_iff. now exists (u, v).
  Qed.
  Lemma look_None (ser : list (T * V)) t : look ser t = None <-> ~ In t (map fst ser).
  Proof.
    unfold look. split.
    - destruct (find _ ser) eqn:Ef; [discriminate|]. intros _ Hi. apply in_map_iff in Hi as (e & <- & Hi). apply (find_none _ _ Ef) in Hi. now rewrite (teq_refl leb TOT) in Hi.
    - intros H. destruct (find _ ser) as [e|] eqn:Ef; auto. apply find_some in Ef as [Hf He]. apply (teq_eq leb TOT) in He. subst. elim H. now apply in_map.
  Qed.

  Definition cur (idx : list T) (result : list (N * list (T * V))) (n : N) : list (T * V) :=
    match dget neq n result with Some c => c | None => zero_series zero idx end.
  Lemma base_nodes_spec idx (ser : N -> list (T * V)) trig nodes : NoDup nodes -> (forall n, In n nodes -> trig n = Ok (ser n)) ->
    forall result, exists result', base_nodes leb neq idx zero trig nodes result = Ok result' /\
      forall n, dget neq n result' = if existsb (neq n) nodes then Some (puts (cur idx result n) (ser n)) else dget neq n result.
  Proof.
    intros Hn. induction Hn as [|m nodes Hm Hn IH]; intros Ht result; cbn [base_nodes existsb]; [eauto|].
    rewrite Ht by now left. cbn [bind]. destruct (IH ltac:(intros; apply Ht; now right) (add_result leb neq idx zero m (ser m) result)) as (result' & E & H).
    exists result'. split; auto. intros n. rewrite H. clear H E IH.
    destruct (neq n m) eqn:Em; cbn [orb].
    - apply neq_eq in Em. subst n. replace (existsb (neq m) nodes) with false.
      + unfold add_result. rewrite (dget_dset neq neq_eq), (proj2 (neq_eq m m) eq_refl). reflexivity.
      + symmetry. apply not_true_iff_false. intros He. apply existsb_exists in He as (y & Hy & E). apply neq_eq in E. now subst.
    - destruct (existsb (neq n) nodes).
      + f_equal. unfold cur, add_result. rewrite (dget_dset neq neq_eq), Em. reflexivity.
      + unfold add_result. now rewrite (dget_dset neq neq_eq), Em.
  Qed.
  Lemma base_spec idx (sers : list (N -> list (T * V))) trigs nodes : NoDup nodes ->
    Forall2 (fun g s => forall n, In n nodes -> g n = Ok (s n)) trigs sers ->
    forall result, exists result', aggregate_base leb neq idx zero trigs nodes result = Ok result' /\
      forall n, In n nodes -> trigs <> [] -> dget neq n result' = Some (fold_left (fun c s => puts c (s n)) sers (cur idx result n)).
  Proof.
    intros Hn H. induction H as [|g s trigs sers Hg H IH]; intros result; cbn [aggregate_base fold_left].
    - exists result. split; auto. congruence.
    - destruct (base_nodes_spec idx s g nodes Hn Hg result) as (r1 & E1 & H1). rewrite E1. cbn [bind].
      destruct (IH r1) as (r2 & E2 & H2). exists r2. split; auto. intros n Hi _.
      assert (En : existsb (neq n) nodes = true). { apply existsb_exists. exists n. split; auto. now apply neq_eq. }
      assert (Ec : cur idx r1 n = puts (cur idx result n) (s n)). { unfold cur at 1. rewrite H1, En. reflexivity. }
      destruct trigs as [|g' trigs].
      + inversion H; subst. cbn [fold_left]. cbn [aggregate_base] in E2. injection E2 as <-. rewrite H1, En. reflexivity.
      + rewrite H2 by (auto; discriminate). now rewrite Ec.
  Qed.
  Lemma look_zero idx t : In t idx -> look (zero_series zero idx) t = Some zero.
  Proof.
    intros H. unfold look, zero_series. destruct (find _ _) as [e|] eqn:E.
    - apply find_some in E as [E _]. apply in_map_iff in E as (x & <- & _). reflexivity.
    - exfalso. assert (Hi : In (t, zero) (map (fun x => (x, zero)) idx)) by now apply (in_map (fun x => (x, zero))).
      apply (find_none _ _ E) in Hi. cbn [fst] in Hi. now rewrite (teq_refl leb TOT) in Hi.
  Qed.
  Lemma folds_spec idx (sers : list (list (T * V))) : NoDup idx ->
    Forall (fun s => NoDup (map fst s) /\ forall t, In t (map fst s) -> In t idx) sers ->
    let r := fold_left puts sers (zero_series zero idx) in
    map fst r = idx /\ forall t v, In (t, v) r -> LastFired zero t sers v.
  Proof.
    intros Hn H. cbv zeta. induction sers as [|s sers IH] using rev_ind.
    - cbn [fold_left]. unfold zero_series. rewrite map_map. cbn. rewrite map_id. split; auto. intros t v Hi. right. apply in_map_iff in Hi as (x & [= <- <-] & _). auto.
    - apply Forall_app in H as [H1 H2]. inversion H2 as [|? ? [Hs Hsi] _]; subst. rewrite fold_left_app. cbn [fold_left].
      destruct (IH H1) as [I1 I2]. destruct (puts_spec s Hs (fold_left puts sers (zero_series zero idx))) as [P1 P2].
      { intros t Ht. rewrite I1. auto. }
      split; [congruence|]. intros t v Hi.
      assert (Nd : NoDup (map fst (puts (fold_left puts sers (zero_series zero idx)) s))) by (rewrite P1, I1; auto).
      apply look_In in Hi; auto. rewrite P2 in Hi. destruct (look s t) as [w|] eqn:E.
      + injection Hi as <-. left. exists sers, s, []. split; auto. split; [now apply look_In|constructor].
      + apply look_In in Hi; [|now rewrite I1]. apply look_None in E. destruct (I2 t v Hi) as [(pre & s0 & post & -> & Hv & Hp)|[-> Hp]].
        * left. exists pre, s0, (post ++ [s]). split; [now rewrite <- app_assoc|]. split; auto. apply Forall_app. auto.
        * right. split; auto. apply Forall_app. auto.
  Qed.
  Lemma base_last idx (sers : list (N -> list (T * V))) trigs nodes : NoDup idx -> NoDup nodes -> trigs <> [] ->
    Forall2 (fun g s => forall n, In n nodes -> g n = Ok (s n)) trigs sers ->
    (forall s n, In s sers -> In n nodes -> NoDup (map fst (s n)) /\ forall t, In t (map fst (s n)) -> In t idx) ->
    exists result, aggregate_base leb neq idx zero trigs nodes [] = Ok result /\
      forall n, In n nodes -> exists r, dget neq n result = Some r /\ map fst r = idx /\
        forall t v, In (t, v) r -> LastFired zero t (map (fun s => s n) sers) v.
  Proof.
    intros Hi Hn Ht H Hs. destruct (base_spec idx sers trigs nodes Hn H []) as (result & E & Hr). exists result. split; auto.
    intros n Hin. rewrite (Hr n Hin Ht). eexists. split; [reflexivity|].
    assert (Ef : forall c, fold_left (fun c s => puts c (s n)) sers c = fold_left puts (map (fun s => s n) sers) c).
    { clear. induction sers as [|s sers IH]; intros c; cbn [fold_left map]; auto. }
    rewrite Ef. apply folds_spec; auto. apply Forall_forall. intros x Hx. apply in_map_iff in Hx as (s & <- & Hx). auto.
  Qed.
End IndexP.
