From Coq Require Import List Ascii String ZArith QArith Bool Sorted Lia Lqa.
From Verif Require Import Lib.PyStr Lib.PyStrFacts Lib.TotalOrder Model.Stats Spec.Stats Proofs.StatsP Proofs.AlignP Model.Correlate Spec.Correlate.
Import ListNotations.
Local Open Scope nat_scope.
Local Open Scope list_scope.

Section Pairs.
  Context {T V : Type} (leb : T -> T -> bool) (nonzero : V -> bool).
  Hypothesis TOT : total_order leb.
  Notation series := (list (T * option V)).

  Lemma combine_fst {A B} (a : list A) (b : list B) : List.length b = List.length a -> map fst (combine a b) = a.
  Proof. revert b. induction a as [|x a IH]; intros [|y b] H; cbn in *; try discriminate; auto. f_equal. auto. Qed.
  Lemma combine_snd {A B} (a : list A) (b : list B) : List.length b = List.length a -> map snd (combine a b) = b.
  Proof. revert b. induction a as [|x a IH]; intros [|y b] H; cbn in *; try discriminate; auto. f_equal. auto. Qed.
  Lemma with_fst (s : series) vs : List.length vs = List.length s -> map fst (with_values s vs) = map fst s.
  Proof. intros H. apply combine_fst. now rewrite map_length. Qed.
  Lemma with_snd (s : series) vs : List.length vs = List.length s -> map snd (with_values s vs) = vs.
  Proof. intros H. apply combine_snd. now rewrite map_length. Qed.
  Lemma shift_0 (l : list (option V)) : shift_right 0 l = l.
  Proof. unfold shift_right. apply firstn_all. Qed.
  Lemma shift_len k (l : list (option V)) : List.length (shift_right k l) = List.length l.
  Proof. apply (shift_moved k l). Qed.
  Lemma later_shift k (s : series) : Later k s (with_values s (shift_right k (map snd s))).
  Proof.
    split; [apply with_fst|rewrite with_snd]; rewrite ?shift_len, ?map_length; auto. apply shift_moved.
  Qed.
  Lemma with_self (s : series) : with_values s (map snd s) = s.
  Proof. unfold with_values. induction s as [|[t v] s IH]; cbn; congruence. Qed.
  Lemma shift_pair_eq (x y : series) s : shift_pair x y s =
    (with_values x (shift_right (Z.to_nat (- s)) (map snd x)), with_values y (shift_right (Z.to_nat s) (map snd y))).
  Proof.
    unfold shift_pair, shift_series. destruct (Z.ltb_spec 0 s).
    - replace (Z.to_nat (- s)) with 0%nat by lia. now rewrite shift_0.
    - replace (Z.to_nat s) with 0%nat by lia. now rewrite (shift_0 (map snd y)).
  Qed.
  Lemma shift_pair_ok (x y : series) s : Delayed s x y (fst (shift_pair x y s)) (snd (shift_pair x y s)).
  Proof. rewrite shift_pair_eq. split; apply later_shift. Qed.

  Lemma fnz_weight (l : list (option V)) : forall i, List.length (flatnonzero_from nonzero i l) = busy nonzero l.
  Proof.
    induction l as [|[v|] l IH]; intros i; cbn [flatnonzero_from busy nz]; auto; rewrite app_length, IH; auto. destruct (nonzero v); reflexivity.
  Qed.
  Definition shift_of (m : amode) (x y : series) : Z :=
    snd (align nonzero m (map snd x) (map snd y)).
  Lemma align_pair_eq m (x y : series) : align_pair nonzero m x y = (shift_pair x y (shift_of m x y), shift_of m x y).
  Proof.
    unfold align_pair, shift_of, shift_pair, align.
    assert (Z0 : shift_series (map snd x) (map snd y) 0 = (map snd x, map snd y)).
    { unfold shift_series. cbn. now rewrite shift_0. }
    destruct (flatnonzero nonzero (map snd x)) as [|px rx], (flatnonzero nonzero (map snd y)) as [|py ry]; cbn [snd]; rewrite ?Z0; auto.
    destruct (match m with Front => _ | Back => _ end) as [p q].
    destruct (shift_series (map snd x) (map snd y) (Z.of_nat p - Z.of_nat q)) as [a b] eqn:E. cbn [snd]. rewrite E. reflexivity.
  Qed.
  Lemma gap_shift m (x y : series) : Gap nonzero m x y (shift_of m x y).
  Proof.
    unfold shift_of, Gap, align. destruct (flatnonzero nonzero (map snd x)) as [|px rx] eqn:Ex.
    - right. split; auto. left. intros i Hi. apply (fnz_nil nonzero _ 0 Ex). now rewrite map_length.
    - destruct (flatnonzero nonzero (map snd y)) as [|py ry] eqn:Ey.
      + right. split; auto. right. intros i Hi. apply (fnz_nil nonzero _ 0 Ey). now rewrite map_length.
      + left. destruct m.
        * apply fnz_first in Ex as (p & -> & Hp). apply fnz_first in Ey as (q & -> & Hq). exists p, q. split; auto.
          cbn [Nat.add]. destruct (shift_series _ _ _); reflexivity.
        * destruct (fnz_last nonzero (map snd x) 0) as (p & Ep & Hp). { unfold flatnonzero in Ex. now rewrite Ex. }
          destruct (fnz_last nonzero (map snd y) 0) as (q & Eq & Hq). { unfold flatnonzero in Ey. now rewrite Ey. }
          fold (flatnonzero nonzero (map snd x)) in Ep. fold (flatnonzero nonzero (map snd y)) in Eq. rewrite Ex in Ep. rewrite Ey in Eq.
          exists p, q. split; auto. rewrite Ep, Eq. cbn [Nat.add]. destruct (shift_series _ _ _); reflexivity.
  Qed.
  Lemma swap_shift m (x y : series) : shift_of m y x = (- shift_of m x y)%Z.
  Proof.
    unfold shift_of, align. destruct (flatnonzero nonzero (map snd x)) as [|px rx], (flatnonzero nonzero (map snd y)) as [|py ry]; auto.
    destruct m; cbn [snd].
    - destruct (shift_series _ _ (Z.of_nat py - Z.of_nat px)), (shift_series _ _ (Z.of_nat px - Z.of_nat py)). cbn [snd]. lia.
    - destruct (shift_series _ _ (Z.of_nat (last (py :: ry) 0%nat) - _)), (shift_series _ _ (Z.of_nat (last (px :: rx) 0%nat) - _)). cbn [snd]. lia.
  Qed.
  Lemma swap_pair (x y : series) s : shift_pair y x (- s) = (snd (shift_pair x y s), fst (shift_pair x y s)).
  Proof. rewrite !shift_pair_eq. cbn [fst snd]. now rewrite Z.opp_involutive. Qed.

  Lemma resample_ok grid (s : series) : StronglySorted (lt leb) (map fst s) -> OnGrid leb grid s (resample leb grid s).
  Proof.
    intros H. unfold resample, OnGrid. assert (Hl : List.length (reindex_pad leb s grid) = List.length grid) by (unfold reindex_pad; apply map_length).
    rewrite combine_fst, combine_snd by auto. split; auto. now apply reindex_ok.
  Qed.
End Pairs.

Section CorrelateP.
  Context {T V St Ref KW : Type} (leb : T -> T -> bool) (nonzero : V -> bool).
  Hypothesis TOT : total_order leb.
  Notation series := (list (T * option V)).
  Variables (read : St -> Ref -> series) (uniform : list T -> res (list T)) (corr : series -> series -> option Q).
  Notation agg := (aggregator T St Ref KW).
  Notation correlator := (correlator leb nonzero read uniform corr).
  Notation correlate := (correlate leb nonzero read uniform corr).

  Definition best_shift (x y : series) : Z :=
    let f := shift_pair x y (shift_of nonzero Front x y) in let b := shift_pair x y (shift_of nonzero Back x y) in
    if Qle_bool (or_zero (corr (fst b) (snd b))) (or_zero (corr (fst f) (snd f))) then shift_of nonzero Front x y else shift_of nonzero Back x y.
  Lemma best_ok (x y : series) : Best nonzero corr x y (best_shift x y).
  Proof.
    unfold Best, best_shift. eexists _, _, _, _, _, _. split; [apply (gap_shift nonzero Front)|]. split; [apply (gap_shift nonzero Back)|].
    split; [apply shift_pair_ok|]. split; [apply shift_pair_ok|].
    fold (worth (corr (fst (shift_pair x y (shift_of nonzero Back x y))) (snd (shift_pair x y (shift_of nonzero Back x y))))).
    change or_zero with worth. destruct (Qle_bool _ _) eqn:E.
    - left. split; auto. now apply Qle_bool_iff.
    - right. split; auto. destruct (Qlt_le_dec (worth (corr (fst (shift_pair x y (shift_of nonzero Front x y))) (snd (shift_pair x y (shift_of nonzero Front x y)))))
        (worth (corr (fst (shift_pair x y (shift_of nonzero Back x y))) (snd (shift_pair x y (shift_of nonzero Back x y)))))) as [H|H]; auto.
      apply Qle_bool_iff in H. congruence.
  Qed.
  Lemma align_top_eq (a b : agg) index st l1 l2 x y grid : quiet a -> quiet b ->
    fst (aggregate a None $"all" st) = Ok (x :: l1) -> fst (aggregate b None $"all" st) = Ok (y :: l2) -> uniform index = Ok grid ->
    align_top leb nonzero read uniform corr a b index st = (Ok (best_shift (resample leb grid (read st x)) (resample leb grid (read st y))), st).
  Proof.
    intros Qa Qb Ea Eb Eg. unfold align_top. pose proof (Qa None $"all" st) as Ha. pose proof (Qb None $"all" st) as Hb.
    destruct (aggregate a None $"all" st) as [r1 st1]. cbn in Ha, Ea. subst.
    destruct (aggregate b None $"all" st) as [r2 st2]. cbn in Hb, Eb. subst. cbn [bind first]. rewrite Eg. cbn [bind first].
    rewrite !align_pair_eq. unfold best_shift. cbv zeta.
    destruct (shift_pair _ _ (shift_of nonzero Front _ _)) as [fx fy], (shift_pair _ _ (shift_of nonzero Back _ _)) as [bx by_]. reflexivity.
  Qed.
  Theorem correlator_ok (a b : agg) st l1 l2 x y grid index : quiet a -> quiet b ->
    fst (aggregate a None $"all" st) = Ok (x :: l1) -> fst (aggregate b None $"all" st) = Ok (y :: l2) ->
    StronglySorted (lt leb) (a_index a) -> StronglySorted (lt leb) (a_index b) ->
    StronglySorted (lt leb) (map fst (read st x)) -> StronglySorted (lt leb) (map fst (read st y)) ->
    StronglySorted (lt leb) index -> (forall t, In t index <-> In t (a_index a) \/ In t (a_index b)) -> uniform index = Ok grid ->
    exists s x' y', correlator a b st = (Ok (index, s), st) /\ OnGrid leb grid (read st x) x' /\ OnGrid leb grid (read st y) y' /\ Best nonzero corr x' y' s.
  Proof.
    intros Qa Qb Ea Eb Sa Sb Sx Sy Si Hi Eg. unfold Correlate.correlator. cbn [unified_indexer fold_left].
    assert (Hu : idx_union leb (a_index a) (a_index b) = index).
    { apply (sorted_ext leb TOT); auto; [now apply union_sorted|]. intros t. rewrite (union_In leb TOT), Hi. tauto. }
    rewrite Hu. rewrite (align_top_eq a b index st l1 l2 x y grid) by auto. cbn [bind].
    eexists _, _, _. split; [reflexivity|]. split; [now apply resample_ok|]. split; [now apply resample_ok|]. apply best_ok.
  Qed.

  Lemma group_ok grid shift (x y : series) : StronglySorted (lt leb) (map fst x) -> StronglySorted (lt leb) (map fst y) ->
    Group leb nonzero corr grid shift x y (one_group leb nonzero corr grid shift x y).
  Proof.
    intros Sx Sy. unfold one_group, Group.
    assert (H : exists x1 y1, match grid with Some g => (resample leb g x, resample leb g y) | None => (x, y) end = (x1, y1) /\
      match grid with Some g => OnGrid leb g x x1 /\ OnGrid leb g y y1 | None => x1 = x /\ y1 = y end).
    { destruct grid as [g|]; eexists _, _; (split; [reflexivity|]); auto. split; now apply resample_ok. }
    destruct H as (x1 & y1 & -> & H). pose proof (shift_pair_ok x1 y1 shift) as D. destruct (shift_pair x1 y1 shift) as [x2 y2]. cbn [fst snd] in D.
    exists x1, y1, x2, y2. split; auto. split; auto. split; auto. cbn [fst]. unfold weight, flatnonzero. now rewrite !fnz_weight.
  Qed.
  Lemma groups_ok grid shift xs : forall ys, List.length xs <= List.length ys ->
    Correlate.groups leb nonzero corr grid shift xs ys = Ok (map (fun p => one_group leb nonzero corr grid shift (fst p) (snd p)) (combine xs ys)).
  Proof.
    induction xs as [|x xs IH]; intros [|y ys] H; cbn [List.length] in H; try lia; auto. cbn [Correlate.groups]. rewrite IH by lia. reflexivity.
  Qed.
  Lemma groups_short grid shift xs : forall ys, List.length ys < List.length xs -> Correlate.groups leb nonzero corr grid shift xs ys = Err EIndex.
  Proof.
    induction xs as [|x xs IH]; intros [|y ys] H; cbn [List.length] in H; try lia; auto. cbn [Correlate.groups]. rewrite IH by lia. reflexivity.
  Qed.
  Definition the_grid (index : list T) (r : bool) : res (option (list T)) :=
    if r then do g <- uniform index ;; Ok (Some g) else Ok None.
  Lemma correlate_eq (a b : agg) kw c level r st l1 l2 grid : quiet a -> quiet b ->
    fst (aggregate a (Some kw) level st) = Ok l1 -> fst (aggregate b (Some kw) level st) = Ok l2 -> the_grid (fst c) r = Ok grid ->
    exists grid', correlate a b kw c level r st = (do cs <- Correlate.groups leb nonzero corr grid' (snd c) (map (read st) l1) (map (read st) l2) ;;
      do t <- total_of cs ;; Ok (map snd cs, t), st) /\ (l1 <> [] -> l2 <> [] -> grid' = grid).
  Proof.
    intros Qa Qb Ea Eb Eg. unfold Correlate.correlate. pose proof (Qa (Some kw) level st) as Ha. pose proof (Qb (Some kw) level st) as Hb.
    destruct (aggregate a (Some kw) level st) as [r1 st1]. cbn in Ha, Ea. subst.
    destruct (aggregate b (Some kw) level st) as [r2 st2]. cbn in Hb, Eb. subst. cbn [bind]. unfold the_grid in Eg.
    destruct l1 as [|x l1], l2 as [|y l2]; try (exists None; split; [reflexivity|congruence]).
    destruct r; rewrite ?Eg; cbn [bind].
    - exists grid. auto.
    - injection Eg as <-. exists None. auto.
  Qed.
  Lemma total_of_ok cs : Forall (fun c => 0 <= fst c)%Z cs -> total_of cs =
    if existsb (fun c => match snd c with Some _ => true | None => false end) cs && (weights cs =? 0)%Z then Err EZeroDiv else Ok (total cs).
  Proof.
    intros H. unfold total_of. replace (forallb (fun c => (fst c =? 0)%Z) cs) with (weights cs =? 0)%Z; auto.
    apply eq_true_iff_eq. rewrite Z.eqb_eq, forallb_forall.
    assert (P : Forall (fun c => 0 <= fst c)%Z cs -> (0 <= weights cs)%Z /\ (weights cs = 0%Z <-> forall x, In x cs -> (fst x =? 0)%Z = true)).
    { clear H. induction cs as [|c cs IH]; intros H; [cbn; split; [lia|]; split; [easy|auto]|]. inversion H as [|? ? H2 H3]; subst. destruct (IH H3) as [I1 I2].
      change (weights (c :: cs)) with (fst c + weights cs)%Z. split; [lia|]. split.
      - intros E x [<-|Hx]; [apply Z.eqb_eq; lia|]. apply I2; auto. lia.
      - intros Hx. assert (fst c = 0)%Z by (apply Z.eqb_eq, Hx; now left). assert (weights cs = 0)%Z by (apply I2; intros; apply Hx; now right).
        lia. }
    apply P. exact H.
  Qed.
  Lemma weight_pos grid shift (x y : series) : (0 <= fst (one_group leb nonzero corr grid shift x y))%Z.
  Proof.
    unfold one_group. destruct (match grid with Some g => _ | None => _ end) as [x1 y1]. destruct (shift_pair x1 y1 shift). cbn [fst]. unfold weight. lia.
  Qed.
  Theorem correlate_ok (a b : agg) kw c level r st l1 l2 grid : quiet a -> quiet b ->
    fst (aggregate a (Some kw) level st) = Ok l1 -> fst (aggregate b (Some kw) level st) = Ok l2 -> the_grid (fst c) r = Ok grid ->
    List.length l1 <= List.length l2 -> (forall x, In x (l1 ++ l2) -> StronglySorted (lt leb) (map fst (read st x))) ->
    exists cs, Forall2 (fun p wc => Group leb nonzero corr grid (snd c) (read st (fst p)) (read st (snd p)) wc) (combine l1 l2) cs /\
      ((weights cs = 0%Z /\ (exists q, In (Some q) (map snd cs)) /\ correlate a b kw c level r st = (Err EZeroDiv, st)) \/
       (~ (weights cs = 0%Z /\ exists q, In (Some q) (map snd cs)) /\
        exists t, correlate a b kw c level r st = (Ok (map snd cs, t), st) /\ (t == weighted cs / inject_Z (weights cs))%Q)).
  Proof.
    intros Qa Qb Ea Eb Eg Hl Hs. destruct (correlate_eq a b kw c level r st l1 l2 grid Qa Qb Ea Eb Eg) as (grid' & E & Hg).
    rewrite groups_ok in E by now rewrite !map_length.
    set (cs := map _ _) in E. exists cs.
    assert (HF : Forall2 (fun p wc => Group leb nonzero corr grid (snd c) (read st (fst p)) (read st (snd p)) wc) (combine l1 l2) cs).
    { assert (Eg' : combine l1 l2 <> [] -> grid' = grid). { intros H. apply Hg; intros ->; apply H; [reflexivity|destruct l1; reflexivity]. }
      assert (Ecs : cs = map (fun p => one_group leb nonzero corr grid' (snd c) (read st (fst p)) (read st (snd p))) (combine l1 l2)).
      { unfold cs. clear. revert l2. induction l1 as [|x l1 IH]; intros [|y l2]; cbn; auto. f_equal. apply IH. }
      rewrite Ecs. assert (Hin : forall p, In p (combine l1 l2) -> In (fst p) (l1 ++ l2) /\ In (snd p) (l1 ++ l2)).
      { intros [p q] H. split; apply in_or_app; [left; eapply in_combine_l|right; eapply in_combine_r]; eauto. }
      revert Eg' Hin. generalize (combine l1 l2) as ps. intros ps Eg'. destruct ps as [|p0 ps0] eqn:Eps; [constructor|]. rewrite Eg' by discriminate. rewrite <- Eps. clear Eps Eg' p0 ps0.
      induction ps as [|p ps IH]; intros Hin; cbn [map]; constructor; [|apply IH; intros; apply Hin; now right].
      destruct (Hin p (or_introl eq_refl)). apply group_ok; auto. }
    split; auto. assert (Hp : Forall (fun c => 0 <= fst c)%Z cs).
    { unfold cs. apply Forall_map. apply Forall_forall. intros p _. apply weight_pos. }
    cbn [bind] in E. rewrite (total_of_ok cs Hp) in E.
    assert (Hex : existsb (fun c => match snd c with Some _ => true | None => false end) cs = true <-> exists q, In (Some q) (map snd cs)).
    { rewrite existsb_exists. split.
      - intros ([w [q|]] & Hi & Hv); [|discriminate]. exists q. apply in_map_iff. now exists (w, Some q).
      - intros (q & Hq). apply in_map_iff in Hq as ([w o] & Ho & Hi). cbn in Ho. subst. exists (w, Some q). auto. }
    destruct (existsb _ cs && (weights cs =? 0)%Z) eqn:Ez.
    - left. apply andb_true_iff in Ez as [E1 E2]. apply Z.eqb_eq in E2. apply Hex in E1. split; auto.
    - right. split.
      + intros [H1 H2]. apply Hex in H2. rewrite H2, H1 in Ez. discriminate.
      + exists (total cs). split; auto. apply total_is.
  Qed.
  Theorem correlate_short (a b : agg) kw c level r st l1 l2 grid : quiet a -> quiet b ->
    fst (aggregate a (Some kw) level st) = Ok l1 -> fst (aggregate b (Some kw) level st) = Ok l2 -> the_grid (fst c) r = Ok grid ->
    List.length l2 < List.length l1 -> correlate a b kw c level r st = (Err EIndex, st).
  Proof.
    intros Qa Qb Ea Eb Eg Hl. destruct (correlate_eq a b kw c level r st l1 l2 grid Qa Qb Ea Eb Eg) as (grid' & E & Hg).
    rewrite E, groups_short by now rewrite !map_length. reflexivity.
  Qed.

  (** Symmetry. *)
  Lemma best_swap (x y : series) : (forall u v, corr u v = corr v u) -> best_shift y x = (- best_shift x y)%Z.
  Proof.
    intros C. unfold best_shift. rewrite !(swap_shift nonzero _ x y), !swap_pair. cbn [fst snd]. rewrite !(C (snd _) (fst _)). destruct (Qle_bool _ _); reflexivity.
  Qed.
  Lemma group_swap grid shift (x y : series) : (forall u v, corr u v = corr v u) ->
    one_group leb nonzero corr grid (- shift) y x = one_group leb nonzero corr grid shift x y.
  Proof.
    intros C. unfold one_group. destruct grid as [g|]; rewrite swap_pair; destruct (shift_pair _ _ shift) as [x2 y2]; cbn [fst snd]; rewrite C; f_equal; unfold weight; lia.
  Qed.
  Lemma groups_swap grid shift xs : (forall u v, corr u v = corr v u) -> forall ys, List.length xs = List.length ys ->
    Correlate.groups leb nonzero corr grid (- shift) ys xs = Correlate.groups leb nonzero corr grid shift xs ys.
  Proof.
    intros C. induction xs as [|x xs IH]; intros [|y ys] H; try discriminate; auto. cbn [Correlate.groups]. rewrite IH by (cbn in H; lia). now rewrite group_swap.
  Qed.
  Lemma union_swap a b : idx_union leb a b = idx_union leb b a.
  Proof.
    unfold idx_union. destruct a as [|x a], b as [|y b]; auto.
    destruct (eq_list leb (x :: a) (y :: b)) eqn:E.
    - apply eq_list_eq in E; auto. rewrite <- E. destruct (eq_list leb (x :: a) (x :: a)) eqn:E'; auto.
      assert (eq_list leb (x :: a) (x :: a) = true) by (now apply eq_list_eq). congruence.
    - destruct (eq_list leb (y :: b) (x :: a)) eqn:E'.
      + apply eq_list_eq in E'; auto. rewrite E' in E. assert (eq_list leb (x :: a) (x :: a) = true) by (now apply eq_list_eq). congruence.
      + apply (sorted_ext leb TOT); try now apply sort_u_sorted. intros t. rewrite !sort_u_In, !in_app_iff by auto. tauto.
  Qed.
  Lemma quiet_agg (a : agg) kw l st : quiet a -> aggregate a kw l st = (fst (aggregate a kw l st), st).
  Proof. intros Q. rewrite <- (Q kw l st) at 3. now destruct (aggregate a kw l st). Qed.
  Lemma correlator_quiet (a b : agg) st : quiet a -> quiet b -> correlator a b st =
    (do l1 <- fst (aggregate a None $"all" st) ;; do l2 <- fst (aggregate b None $"all" st) ;;
     do x <- first l1 ;; do grid <- uniform (idx_union leb (a_index a) (a_index b)) ;; do y <- first l2 ;;
     Ok (idx_union leb (a_index a) (a_index b), best_shift (resample leb grid (read st x)) (resample leb grid (read st y))), st).
  Proof.
    intros Qa Qb. unfold Correlate.correlator. cbn [unified_indexer fold_left]. set (index := idx_union leb (a_index a) (a_index b)). unfold align_top.
    rewrite (quiet_agg a None $"all" st Qa). destruct (fst (aggregate a None $"all" st)) as [l1|e]; [|reflexivity]; cbn [fst].
    rewrite (quiet_agg b None $"all" st Qb). destruct (fst (aggregate b None $"all" st)) as [l2|e]; [|reflexivity]. cbn [fst bind first].
    destruct l1 as [|x l1]; [reflexivity|]. cbn [fst first bind]. destruct (uniform index) as [grid|e] eqn:Eg; [|reflexivity]. cbn [bind].
    destruct l2 as [|y l2]; [reflexivity|]. cbn [fst first bind].
    rewrite !align_pair_eq. unfold best_shift. cbv zeta.
    destruct (shift_pair _ _ (shift_of nonzero Front _ _)) as [fx fy], (shift_pair _ _ (shift_of nonzero Back _ _)) as [bx by_]. reflexivity.
  Qed.
  Lemma correlate_quiet (a b : agg) kw c level r st : quiet a -> quiet b -> correlate a b kw c level r st =
    (do l1 <- fst (aggregate a (Some kw) level st) ;; do l2 <- fst (aggregate b (Some kw) level st) ;;
     do grid <- match l1, l2, r with _ :: _, _ :: _, true => do g <- uniform (fst c) ;; Ok (Some g) | _, _, _ => Ok None end ;;
     do cs <- Correlate.groups leb nonzero corr grid (snd c) (map (read st) l1) (map (read st) l2) ;;
     do t <- total_of cs ;; Ok (map snd cs, t), st).
  Proof.
    intros Qa Qb. unfold Correlate.correlate. rewrite (quiet_agg a (Some kw) level st Qa). destruct (fst (aggregate a (Some kw) level st)) as [l1|e]; [|reflexivity]; cbn [fst].
    rewrite (quiet_agg b (Some kw) level st Qb). reflexivity.
  Qed.
  Theorem symmetric (a b : agg) kw level r st out st' : quiet a -> quiet b -> (forall u v, corr u v = corr v u) ->
    (forall l1 l2, fst (aggregate a (Some kw) level st) = Ok l1 -> fst (aggregate b (Some kw) level st) = Ok l2 -> List.length l1 = List.length l2) ->
    build_and_correlate leb nonzero read uniform corr a b kw level r st = (Ok out, st') ->
    build_and_correlate leb nonzero read uniform corr b a kw level r st = (Ok out, st').
  Proof.
    intros Qa Qb C Hl. unfold build_and_correlate. rewrite !correlator_quiet by auto. rewrite (union_swap (a_index b) (a_index a)).
    set (index := idx_union leb (a_index a) (a_index b)).
    destruct (fst (aggregate a None $"all" st)) as [l1|e]; [|discriminate]. cbn [bind].
    destruct (fst (aggregate b None $"all" st)) as [l2|e]; [|discriminate]. cbn [bind].
    destruct l1 as [|x l1]; [discriminate|]. cbn [first bind]. destruct (uniform index) as [grid|e] eqn:Eg; [|discriminate]. cbn [bind].
    destruct l2 as [|y l2]; [discriminate|]. cbn [first bind]. rewrite !correlate_quiet by auto. cbn [fst snd]. rewrite best_swap by auto.
    destruct (fst (aggregate a (Some kw) level st)) as [k1|e]; [|discriminate]. cbn [bind].
    destruct (fst (aggregate b (Some kw) level st)) as [k2|e]; [|discriminate]. cbn [bind]. specialize (Hl k1 k2 eq_refl eq_refl).
    rewrite Eg. destruct k1 as [|p k1], k2 as [|q k2]; try discriminate; [exact (fun H => H)|].
    destruct r; cbn [bind]; rewrite groups_swap by (auto; now rewrite !map_length); exact (fun H => H).
  Qed.

  (** An aggregator against itself. *)
  Lemma self_shift m (x : series) : shift_of nonzero m x x = 0%Z.
  Proof. pose proof (swap_shift nonzero m x x). lia. Qed.
  Lemma best_self (x : series) : best_shift x x = 0%Z.
  Proof. unfold best_shift. rewrite !self_shift. destruct (Qle_bool _ _); reflexivity. Qed.
  Lemma pair_0 (x y : series) : shift_pair x y 0 = (x, y).
  Proof. rewrite shift_pair_eq. cbn. rewrite !shift_0, !with_self. reflexivity. Qed.
  Lemma weights_cons w o cs : weights ((w, o) :: cs) = (w + weights cs)%Z. Proof. reflexivity. Qed.
  Lemma weighted_some w q cs : weighted ((w, Some q) :: cs) = (inject_Z w * q + weighted cs)%Q. Proof. reflexivity. Qed.
  Lemma weighted_none w cs : weighted ((w, None) :: cs) = weighted cs. Proof. reflexivity. Qed.
  Lemma total_one cs : Forall (fun c => (exists q, snd c = Some q /\ (q == 1)%Q) \/ fst c = 0%Z) cs -> (0 < weights cs)%Z -> (weighted cs / inject_Z (weights cs) == 1)%Q.
  Proof.
    intros H Hw. assert (E : (weighted cs == inject_Z (weights cs))%Q).
    { clear Hw. induction H as [|[w o] cs [(q & E & Hq)|E] H IH]; [reflexivity| |]; cbn [fst snd] in E; subst; rewrite weights_cons.
      - rewrite weighted_some, IH, inject_Z_plus, Hq. ring.
      - destruct o; rewrite ?weighted_some, ?weighted_none, IH, inject_Z_plus; change (inject_Z 0) with 0%Q; ring. }
    rewrite E. field. intros H0. assert (H1 : (inject_Z 0 < inject_Z (weights cs))%Q) by now rewrite <- Zlt_Qlt. rewrite H0 in H1. now apply Qlt_irrefl in H1.
  Qed.
  Lemma union_self a : idx_union leb a a = a.
  Proof.
    unfold idx_union. destruct a as [|x a]; auto. assert (E : eq_list leb (x :: a) (x :: a) = true) by (now apply eq_list_eq). rewrite E. reflexivity.
  Qed.
  Definition sampled (grid : option (list T)) (x : series) : series := match grid with Some g => resample leb g x | None => x end.
  Lemma group_self grid (x : series) : one_group leb nonzero corr grid 0 x x =
    (weight nonzero (map snd (sampled grid x)) (map snd (sampled grid x)), corr (sampled grid x) (sampled grid x)).
  Proof. unfold one_group, sampled. destruct grid as [g|]; rewrite pair_0; reflexivity. Qed.
  Theorem self (a : agg) kw level (r : bool) st x l grid l1 : quiet a ->
    fst (aggregate a None $"all" st) = Ok (x :: l) -> uniform (a_index a) = Ok grid -> fst (aggregate a (Some kw) level st) = Ok l1 ->
    (forall u, In u l1 -> StronglySorted (lt leb) (map fst (read st u))) ->
    (forall u u', In u l1 -> (if r then OnGrid leb grid (read st u) u' else u' = read st u) -> (exists q, corr u' u' = Some q /\ (q == 1)%Q) \/ busy nonzero (map snd u') = 0%nat) ->
    (exists u, In u l1 /\ forall u', (if r then OnGrid leb grid (read st u) u' else u' = read st u) -> (0 < busy nonzero (map snd u'))%nat) ->
    exists cs t, build_and_correlate leb nonzero read uniform corr a a kw level r st = (Ok (cs, t), st) /\ (t == 1)%Q.
  Proof.
    intros Qa Ea Eg E1 Hs Hc (u0 & Hu0 & Hb0). unfold build_and_correlate. rewrite correlator_quiet, Ea, union_self by auto. cbn [bind first]. rewrite Eg. cbn [bind first].
    rewrite best_self, correlate_quiet, E1 by auto. cbn [bind fst snd]. rewrite Eg. cbn [bind].
    set (grid' := if r then Some grid else None).
    assert (Hg : match l1, l1, r with _ :: _, _ :: _, true => Ok (Some grid) | _, _, _ => Ok None end = Ok grid' \/ l1 = []).
    { destruct l1; auto. left. unfold grid'. destruct r; auto. }
    destruct Hg as [Hg| ->]; [|easy]. rewrite Hg. cbn [bind]. rewrite groups_ok by auto. cbn [bind]. set (cs := map _ (combine _ _)).
    assert (Ecs : cs = map (fun u => one_group leb nonzero corr grid' 0 (read st u) (read st u)) l1).
    { unfold cs. clear. induction l1 as [|u l1 IH]; cbn; congruence. }
    assert (Hsamp : forall u, In u l1 -> if r then OnGrid leb grid (read st u) (sampled grid' (read st u)) else sampled grid' (read st u) = read st u).
    { intros u Hu. unfold grid', sampled. destruct r; auto. apply resample_ok; auto. }
    assert (Hw : forall u : series, weight nonzero (map snd u) (map snd u) = (2 * Z.of_nat (busy nonzero (map snd u)))%Z).
    { intros u. unfold weight, flatnonzero. rewrite !fnz_weight. lia. }
    assert (Hp : Forall (fun c => 0 <= fst c)%Z cs).
    { rewrite Ecs. apply Forall_map, Forall_forall. intros u _. apply weight_pos. }
    assert (Hpos : (0 < weights cs)%Z).
    { assert (Hi : In (one_group leb nonzero corr grid' 0 (read st u0) (read st u0)) cs).
      { rewrite Ecs. apply in_map_iff. eauto. }
      assert (H0 : (0 < fst (one_group leb nonzero corr grid' 0 (read st u0) (read st u0)))%Z).
      { rewrite group_self. cbn [fst]. rewrite Hw. specialize (Hb0 _ (Hsamp u0 Hu0)). lia. }
      revert Hi H0. generalize (one_group leb nonzero corr grid' 0 (read st u0) (read st u0)). intros c Hi H0. clear -Hp Hi H0.
      induction Hp as [|[w o] cs Hw Hp IH]; [easy|]. rewrite weights_cons. cbn [fst] in Hw.
      assert (0 <= weights cs)%Z. { clear -Hp. induction Hp as [|[w o] cs Hw Hp IH]; [cbn; lia|]. rewrite weights_cons. cbn [fst] in Hw. lia. }
      destruct Hi as [<-|Hi]; [cbn [fst] in H0; lia|]. specialize (IH Hi). lia. }
    rewrite total_of_ok by auto. destruct (Z.eqb_spec (weights cs) 0); [lia|]. rewrite andb_false_r. cbn [bind].
    eexists _, _. split; [reflexivity|]. rewrite total_is. apply total_one; auto.
    rewrite Ecs. apply Forall_map, Forall_forall. intros u Hu. rewrite group_self. cbn [fst snd].
    destruct (Hc u _ Hu (Hsamp u Hu)) as [H|H]; auto. right. rewrite Hw, H. reflexivity.
  Qed.
End CorrelateP.
