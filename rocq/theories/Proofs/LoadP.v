(** Load tables. *)
From Coq Require Import List Ascii String ZArith NArith Bool Sorted Lia.
From Verif Require Import Lib.PyStr Lib.PyStrFacts Lib.TotalOrder Model.Power Spec.Power Proofs.PivotP.
Import ListNotations.
Local Open Scope list_scope.

Lemma oadd_None l : fold_left oadd l None = None.
Proof. induction l as [|[] l IH]; cbn; auto. Qed.
Lemma fold_oadd l : forall a, fold_left oadd l (Some a) = match sum_known l with Some s => Some (a + s)%Z | None => None end.
Proof.
  induction l as [|[x|] l IH]; intros a; cbn [fold_left sum_known].
  - f_equal. lia.
  - cbn [oadd]. rewrite IH. destruct (sum_known l); auto. f_equal. lia.
  - cbn [oadd]. apply oadd_None.
Qed.
Lemma max_list_spec l : forall m, is_max (max_list m l) (m :: l).
Proof.
  unfold is_max. induction l as [|x l IH]; intros m; cbn [max_list].
  - split; [now left|]. repeat constructor. lia.
  - destruct (IH (Z.max m x)) as [H1 H2]. inversion H2; subst. split.
    + destruct H1 as [H1|H1]; [|right; now right]. rewrite <- H1. destruct (Z.max_spec m x) as [[_ ->]|[_ ->]]; cbn; auto.
    + repeat constructor; auto; lia.
Qed.
Lemma is_max_unique l m m' : is_max m l -> is_max m' l -> m = m'.
Proof. unfold is_max. rewrite !Forall_forall. intros [H1 H2] [H3 H4]. apply H2 in H3. apply H4 in H1. lia. Qed.

Section LoadP.
  Context {T L F : Type} (leb : T -> T -> bool) (leq : L -> L -> bool).
  Hypothesis TOT : total_order leb.
  Hypothesis leq_eq : forall a b, leq a b = true <-> a = b.
  Notation lt := (lt leb). Notation le := (le leb).
  Notation irow := (@irow T).

  (** Columns whose name starts with "load". *)
  Definition loads (r : irow) : list (option Z) := map snd (filter (fun c => is_prefix $"load" (fst c)) (i_cols r)).
  Definition load_row (r : irow) : T * str * option Z := (i_time r, i_cpus r, sum_known (loads r)).
  Lemma load_of_sum (r : irow) : loads r <> [] -> load_of r = Ok (sum_known (loads r)).
  Proof.
    unfold load_of. change (load_cols r) with (loads r). destruct (loads r) as [|[x|] l]; intros H; [congruence| |].
    - now rewrite fold_oadd.
    - now rewrite oadd_None.
  Qed.
  Lemma load_of_none (r : irow) : loads r = [] -> load_of r = Err EIndex.
  Proof. intros H. unfold load_of. change (load_cols r) with (loads r). now rewrite H. Qed.
  Lemma mapM_map {A B} (f : A -> res B) (g : A -> B) l : (forall a, In a l -> f a = Ok (g a)) -> mapM f l = Ok (map g l).
  Proof.
    induction l as [|a l IH]; intros H; cbn [mapM map]; auto. rewrite (H a) by now left. cbn [bind].
    rewrite IH; auto. intros; apply H; now right.
  Qed.
  Lemma load_data cols (label : str -> option L) rows : rows <> [] -> (forall r, In r rows -> loads r <> []) ->
    get_load_data leb leq cols label rows = pivot_with_labels leb eqs leq cols label (map load_row rows).
  Proof.
    intros Hn H. unfold get_load_data. destruct rows as [|r0 rows]; [congruence|]. cbn [bind].
    rewrite (mapM_map _ load_row); auto. intros r Hr. rewrite load_of_sum by auto. reflexivity.
  Qed.
  Lemma load_data_none cols (label : str -> option L) rows : (exists r, In r rows /\ loads r = []) \/ rows = [] ->
    get_load_data leb leq cols label rows = Err EIndex.
  Proof.
    intros [(r & Hr & E)| ->]; [|reflexivity]. unfold get_load_data. destruct rows as [|r0 rows]; [easy|]. cbn [bind].
    set (rs := r0 :: rows) in *. clearbody rs.
    assert (Hm : mapM (fun r => do l <- load_of r ;; Ok (i_time r, i_cpus r, l)) rs = Err EIndex).
    { induction rs as [|x rs IH]; [easy|]. cbn [mapM]. destruct (loads x) eqn:Ex.
      - rewrite load_of_none by auto. reflexivity.
      - rewrite load_of_sum by congruence. cbn [bind]. destruct Hr as [->|Hr]; [congruence|]. now rewrite IH. }
    now rewrite Hm.
  Qed.

  Variables (div : Z -> Z -> F) (of_int : Z -> F).
  Definition freqs_of (m : str) (rows : list irow) : list Z := map i_freq (filter (fun r => eqs (i_cpus r) m) rows).
  Definition mx (l : list Z) : Z := match l with [] => 0%Z | x :: r => max_list x r end.
  Definition cnt (m : str) : nat := match num_cpus_in_mask m with Ok n => n | Err _ => O end.
  Definition step (rows : list irow) (r : irow) (w : option Z) (v : option F) (m : str) : option F :=
    if eqs (i_cpus r) m then option_map (fun w => div w (mx (freqs_of m rows) * Z.of_nat (cnt m))%Z) w else v.

  Lemma map_fst_combine {A B} (a : list A) (b : list B) : List.length a = List.length b -> map fst (combine a b) = a.
  Proof. revert b. induction a as [|x a IH]; intros [|y b] H; try discriminate; cbn; auto. f_equal. apply IH. now injection H. Qed.
  Lemma map_snd_combine {A B} (a : list A) (b : list B) : List.length a = List.length b -> map snd (combine a b) = b.
  Proof. revert b. induction a as [|x a IH]; intros [|y b] H; try discriminate; cbn; auto. f_equal. apply IH. now injection H. Qed.

  Lemma norm_mask m (rw : list (irow * option Z)) (g : irow * option Z -> option F) :
    num_cpus_in_mask m = Ok (cnt m) -> freqs_of m (map fst rw) <> [] ->
    normalize_mask div m (map (fun x => (fst x, g x)) rw) (map snd rw) =
    Ok (map (fun x => (fst x, step (map fst rw) (fst x) (snd x) (g x) m)) rw).
  Proof.
    intros Hm Hf. unfold normalize_mask. rewrite Hm. cbn [bind]. rewrite map_map. cbn [fst].
    change (map (fun x : irow * option Z => fst x) rw) with (map fst rw).
    fold (freqs_of m (map fst rw)). destruct (freqs_of m (map fst rw)) as [|f fs] eqn:E; [congruence|].
    f_equal. unfold step. rewrite E. cbn [mx]. clear E Hf. generalize (max_list f fs). intros z.
    induction rw as [|[r w] rw IH]; cbn [map combine fst snd]; auto. f_equal. apply IH.
  Qed.
  Lemma norm_all masks (rw : list (irow * option Z)) : 
    (forall m, In m masks -> num_cpus_in_mask m = Ok (cnt m) /\ freqs_of m (map fst rw) <> []) -> forall g,
    normalize_all div masks (map (fun x => (fst x, g x)) rw) (map snd rw) =
    Ok (map (fun x => (fst x, fold_left (step (map fst rw) (fst x) (snd x)) masks (g x))) rw).
  Proof.
    induction masks as [|m masks IH]; intros H g; cbn [normalize_all fold_left]; auto.
    destruct (H m (or_introl eq_refl)) as [H1 H2]. rewrite norm_mask by auto. cbn [bind].
    rewrite (IH ltac:(intros; apply H; now right) (fun x => step (map fst rw) (fst x) (snd x) (g x) m)). reflexivity.
  Qed.
  Lemma fold_step rows r w masks : forall v, In (i_cpus r) masks ->
    fold_left (step rows r w) masks v = option_map (fun w => div w (mx (freqs_of (i_cpus r) rows) * Z.of_nat (cnt (i_cpus r)))%Z) w.
  Proof.
    induction masks as [|m masks IH] using rev_ind; intros v Hi; [easy|]. rewrite fold_left_app. cbn [fold_left]. unfold step at 1.
    destruct (eqs (i_cpus r) m) eqn:E.
    - apply eqs_eq in E. now subst m.
    - apply in_app_or in Hi as [Hi|[->|[]]]; auto. now rewrite (proj2 (eqs_eq _ _) eq_refl) in E.
  Qed.

  Definition norm_row (rows : list irow) (r : irow) : T * str * option F :=
    (i_time r, i_cpus r,
     option_map (fun l => div (l * i_freq r) (mx (freqs_of (i_cpus r) rows) * Z.of_nat (cnt (i_cpus r))))%Z (sum_known (loads r))).
  Lemma norm_data cols (mapping : list (str * L)) rows : rows <> [] -> (forall r, In r rows -> loads r <> []) ->
    (forall m, In m (map fst mapping) -> num_cpus_in_mask m = Ok (cnt m) /\ freqs_of m rows <> []) ->
    (forall r, In r rows -> In (i_cpus r) (map fst mapping)) ->
    get_normalized_load_data leb leq div of_int cols mapping rows =
    pivot_with_labels leb eqs leq cols (fun k => dget eqs k mapping) (map (norm_row rows) rows).
  Proof.
    intros Hn Hl Hm Hr. unfold get_normalized_load_data. destruct rows as [|r0 rows0]; [congruence|]. cbn [bind].
    set (rows := r0 :: rows0) in *. clearbody rows. clear Hn r0 rows0.
    set (raw := fun r : irow => option_map (fun x => x * i_freq r)%Z (sum_known (loads r))).
    rewrite (mapM_map _ raw) by (intros r Hin; now rewrite load_of_sum by auto). cbn [bind].
    assert (E1 : combine rows (map (option_map of_int) (map raw rows)) = map (fun x : irow * option Z => (fst x, option_map of_int (snd x))) (map (fun r => (r, raw r)) rows)).
    { rewrite !map_map. cbn [fst snd]. clear. induction rows; cbn; auto. now f_equal. }
    assert (E2 : map raw rows = map snd (map (fun r => (r, raw r)) rows)) by (rewrite map_map; apply map_ext; auto).
    assert (E3 : map fst (map (fun r => (r, raw r)) rows) = rows) by (rewrite map_map; cbn; apply map_id).
    rewrite E1. rewrite E2. rewrite norm_all by (now rewrite E3). rewrite E3. cbn [bind]. f_equal. rewrite !map_map. cbn [fst snd].
    apply map_ext_in. intros r Hin. unfold norm_row. f_equal. rewrite fold_step by auto. unfold raw. destruct (sum_known (loads r)); reflexivity.
  Qed.
  (** A mask of the mapping that no row has. *)
  Lemma norm_absent cols (mapping : list (str * L)) rows m : rows <> [] -> (forall r, In r rows -> loads r <> []) ->
    (forall m', In m' (map fst mapping) -> num_cpus_in_mask m' = Ok (cnt m')) ->
    In m (map fst mapping) -> (forall r, In r rows -> i_cpus r <> m) ->
    get_normalized_load_data leb leq div of_int cols mapping rows = Err EValue.
  Proof.
    intros Hn Hl Hm Hi Ha. unfold get_normalized_load_data. destruct rows as [|r0 rows0]; [congruence|]. cbn [bind].
    set (rows := r0 :: rows0) in *. clearbody rows. clear Hn r0 rows0.
    set (raw := fun r : irow => option_map (fun x => x * i_freq r)%Z (sum_known (loads r))).
    rewrite (mapM_map _ raw) by (intros r Hin; now rewrite load_of_sum by auto). cbn [bind].
    assert (E1 : combine rows (map (option_map of_int) (map raw rows)) = map (fun x : irow * option Z => (fst x, option_map of_int (snd x))) (map (fun r => (r, raw r)) rows)).
    { rewrite !map_map. cbn [fst snd]. clear. induction rows; cbn; auto. now f_equal. }
    assert (E2 : map raw rows = map snd (map (fun r => (r, raw r)) rows)) by (rewrite map_map; apply map_ext; auto).
    assert (E3 : map fst (map (fun r => (r, raw r)) rows) = rows) by (rewrite map_map; cbn; apply map_id).
    rewrite E1. rewrite E2. set (rw := map (fun r => (r, raw r)) rows) in *. clearbody rw. clear E1 E2 raw.
    assert (Hno : freqs_of m rows = []).
    { unfold freqs_of. replace (filter _ rows) with (@nil irow); auto. symmetry. clear - Ha. induction rows as [|r rows IH]; auto. cbn [filter].
      destruct (eqs (i_cpus r) m) eqn:E; [apply eqs_eq in E; elim (Ha r); auto; now left|]. apply IH. intros; apply Ha; now right. }
    assert (K : forall masks, (forall m', In m' masks -> num_cpus_in_mask m' = Ok (cnt m')) -> In m masks -> forall g,
      normalize_all div masks (map (fun x => (fst x, g x)) rw) (map snd rw) = Err EValue).
    { clear Hm Hi. induction masks as [|m' masks IH]; intros Hm Hi g; [easy|]. cbn [normalize_all].
      destruct (freqs_of m' (map fst rw)) as [|f fs] eqn:E.
      - unfold normalize_mask. rewrite Hm by now left. cbn [bind]. rewrite map_map. cbn [fst].
        change (map (fun x : irow * option Z => fst x) rw) with (map fst rw). fold (freqs_of m' (map fst rw)). now rewrite E.
      - rewrite norm_mask; [|apply Hm; now left|congruence]. cbn [bind].
        apply (IH ltac:(intros; apply Hm; now right)) with (g := fun x => step (map fst rw) (fst x) (snd x) (g x) m').
        destruct Hi as [->|Hi]; auto. rewrite E3 in E. congruence. }
    now rewrite (K _ Hm Hi (fun x => option_map of_int (snd x))).
  Qed.
End LoadP.
