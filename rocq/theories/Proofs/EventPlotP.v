(** Proofs about EventPlot. *)
From Coq Require Import List Ascii String ZArith QArith Bool Sorted Lia Lqa Permutation.
From Verif Require Import Lib.PyStr Lib.PyStrFacts Model.EventPlot Spec.EventPlot.
Import ListNotations.
Local Open Scope list_scope.

Lemma lane_eq a b : lane_eqb a b = true <-> a = b.
Proof.
  destruct a as [x|x], b as [y|y]; cbn; split; intros H; try discriminate.
  - apply Z.eqb_eq in H. congruence.
  - injection H as ->. apply Z.eqb_refl.
  - apply eqs_eq in H. congruence.
  - injection H as ->. apply eqs_refl.
Qed.
Lemma lane_refl a : lane_eqb a a = true. Proof. now apply lane_eq. Qed.

Lemma lane_dec (a b : lane) : {a = b} + {a <> b}.
Proof. destruct (lane_eqb a b) eqn:E; [left; now apply lane_eq|right; intros ->; rewrite lane_refl in E; discriminate]. Qed.

(** ** Averages *)
Lemma fold_total l : forall a, (fold_left Qplus l a == a + fold_right Qplus 0 l)%Q.
Proof. induction l as [|x l IH]; intros a; cbn [fold_left fold_right]; [ring|]. rewrite IH. ring. Qed.
Lemma total_fold evs : (fold_left Qplus (map (fun e => e_end e - e_start e) evs) 0 == total evs)%Q.
Proof.
  rewrite fold_total. unfold total. rewrite Qplus_0_l. induction evs as [|e evs IH]; cbn [map fold_right]; [reflexivity|]. now rewrite IH.
Qed.
Lemma avg_mean evs : (avg evs == mean1 evs)%Q.
Proof.
  unfold avg, mean1. rewrite total_fold. replace (Z.of_nat (S (List.length evs))) with (Z.of_nat (List.length evs) + 1)%Z by lia. reflexivity.
Qed.
Lemma mean_zero evs : (mean1 evs == 0)%Q <-> (total evs == 0)%Q.
Proof.
  unfold mean1. set (n := inject_Z _). assert (N : ~ n == 0).
  { unfold n. intros H. assert (Z.of_nat (S (List.length evs)) = 0%Z) by now apply inject_Z_injective. lia. }
  split; intros H.
  - rewrite <- (Qmult_div_r (total evs) n N). rewrite H. ring.
  - rewrite H. unfold Qdiv. ring.
Qed.

(** ** Ranking *)
Fixpoint insert_t (x : nat * (Q * str)) (l : list (nat * (Q * str))) : list (nat * (Q * str)) :=
  match l with [] => [x] | y :: r => if Qle_bool (fst (snd y)) (fst (snd x)) then x :: l else y :: insert_t x r end.
Lemma insert_map x l : map snd (insert_t x l) = insert_desc (snd x) (map snd l).
Proof. induction l as [|y l IH]; cbn [insert_t map insert_desc]; auto. destruct (Qle_bool _ _); cbn [map]; auto. now rewrite IH. Qed.
Lemma sort_map l : map snd (fold_right insert_t [] l) = fold_right insert_desc [] (map snd l).
Proof. induction l as [|x l IH]; cbn [fold_right map]; auto. rewrite insert_map. now rewrite IH. Qed.
Lemma insert_perm x l : Permutation (insert_t x l) (x :: l).
Proof.
  induction l as [|y l IH]; cbn [insert_t]; auto. destruct (Qle_bool _ _); auto. rewrite IH. apply perm_swap.
Qed.
Lemma sort_perm l : Permutation (fold_right insert_t [] l) l.
Proof. induction l as [|x l IH]; cbn [fold_right]; auto. rewrite insert_perm. now constructor. Qed.
Definition before (x y : nat * (Q * str)) : Prop :=
  (fst (snd y) < fst (snd x))%Q \/ (fst (snd x) == fst (snd y))%Q /\ (fst x < fst y)%nat.
Lemma insert_sorted x l : StronglySorted before l -> Forall (fun y => fst x < fst y)%nat l -> StronglySorted before (insert_t x l).
Proof.
  intros S F. induction S as [|y l S IH Hy]; cbn [insert_t]; [repeat constructor|]. inversion F as [|? ? F1 F2]; subst.
  destruct (Qle_bool (fst (snd y)) (fst (snd x))) eqn:E.
  - apply Qle_bool_iff in E. constructor; [now constructor|]. assert (B : before x y).
    { unfold before. destruct (Qlt_le_dec (fst (snd y)) (fst (snd x))) as [H|H]; auto. right. split; auto. now apply Qle_antisym. }
    constructor; auto. rewrite Forall_forall in *. intros z Hz. specialize (Hy z Hz). specialize (F2 z Hz). unfold before in *.
    destruct Hy as [H|[H H']]; destruct B as [K|[K K']]; auto; try (left; lra). right. split; [lra|auto].
  - assert (L : (fst (snd x) < fst (snd y))%Q).
    { apply Qnot_le_lt. intros H. apply Qle_bool_iff in H. congruence. }
    constructor; [now apply IH|]. rewrite Forall_forall in *. intros z Hz. apply (Permutation_in _ (insert_perm x l)) in Hz.
    destruct Hz as [<-|Hz]; [now left|now apply Hy].
Qed.
Lemma sort_sorted l : StronglySorted (fun x y => fst x < fst y)%nat l -> StronglySorted before (fold_right insert_t [] l).
Proof.
  induction 1 as [|x l S IH F]; cbn [fold_right]; [constructor|]. apply insert_sorted; auto.
  rewrite Forall_forall in *. intros y Hy. apply F. now apply (Permutation_in _ (sort_perm l)).
Qed.
Lemma number_nth {A} (l : list A) : forall i j a, In (j, a) (number i l) <-> (i <= j)%nat /\ nth_error l (j - i) = Some a.
Proof.
  induction l as [|x l IH]; intros i j a; cbn [number In].
  - split; [intros []|]. intros [_ H]. destruct (j - i)%nat; discriminate.
  - rewrite IH. split.
    + intros [H|[H1 H2]]; [injection H as -> ->; now rewrite Nat.sub_diag|]. split; [lia|]. replace (j - i)%nat with (S (j - S i)) by lia. exact H2.
    + intros [H1 H2]. destruct (Nat.eq_dec i j) as [-> | N]; [rewrite Nat.sub_diag in H2; injection H2 as ->; now left|].
      right. split; [lia|]. replace (j - i)%nat with (S (j - S i)) in H2 by lia. exact H2.
Qed.
Lemma number_sorted {A} (l : list A) : forall i, StronglySorted (fun x y => fst x < fst y)%nat (number i l).
Proof.
  induction l as [|x l IH]; intros i; cbn [number]; constructor; auto. apply Forall_forall. intros [j a] H. apply number_nth in H as [H _]. cbn. lia.
Qed.
Lemma number_snd {A} (l : list A) : forall i, map snd (number i l) = l.
Proof. induction l as [|x l IH]; intros i; cbn [number map snd]; auto. now rewrite IH. Qed.
Lemma filter_sorted {A} (R : A -> A -> Prop) p l : StronglySorted R l -> StronglySorted R (filter p l).
Proof.
  induction 1 as [|x l S IH F]; cbn [filter]; [constructor|]. destruct (p x); auto. constructor; auto.
  rewrite Forall_forall in *. intros y Hy. apply filter_In in Hy as [Hy _]. auto.
Qed.
Lemma sorted_map_in {A B} (f : A -> B) (R : A -> A -> Prop) (R' : B -> B -> Prop) l :
  (forall x y, In x l -> In y l -> R x y -> R' (f x) (f y)) -> StronglySorted R l -> StronglySorted R' (map f l).
Proof.
  intros H S. induction S as [|x l S IH F]; cbn [map]; constructor.
  - apply IH. intros. apply H; auto; now right.
  - rewrite Forall_forall in *. intros y Hy. apply in_map_iff in Hy as (z & <- & Hz). apply H; auto; [now left|now right].
Qed.
Lemma keys_ranked d : Ranked d (plot_keys d).
Proof.
  unfold plot_keys. set (f := fun ne : str * list event => (avg (snd ne), fst ne)).
  set (p := fun x : Q * str => negb (Qeq_bool (fst x) 0)).
  set (tagged := filter (fun x => p (snd x)) (number 0 (map f d))).
  assert (E : filter p (map f d) = map snd tagged).
  { unfold tagged. rewrite <- (number_snd (map f d) 0) at 1. generalize (number 0 (map f d)). intros l.
    induction l as [|x l IH]; cbn [map filter]; auto. destruct (p (snd x)); cbn [map]; now rewrite IH. }
  rewrite E, <- sort_map. set (srt := fold_right insert_t [] tagged).
  assert (I : forall x, In x srt <-> exists n e, nth_error d (fst x) = Some (n, e) /\ snd x = (avg e, n) /\ ~ (total e == 0)%Q).
  { intros [i q]. assert (H : In (i, q) srt <-> In (i, q) tagged).
    { unfold srt. split; intros H; [now apply (Permutation_in _ (sort_perm tagged))|]. apply (Permutation_in _ (Permutation_sym (sort_perm tagged))). exact H. }
    rewrite H. unfold tagged. rewrite filter_In, number_nth, Nat.sub_0_r, nth_error_map. cbn [fst snd]. unfold p. split.
    - intros [[_ K] N]. destruct (nth_error d i) as [[n e]|]; [|discriminate]. cbn in K. injection K as <-. exists n, e. split; auto. split; auto.
      intros Z. apply mean_zero in Z. rewrite <- avg_mean in Z. cbn [f fst snd] in N. apply Qeq_bool_iff in Z. now rewrite Z in N.
    - intros (n & e & -> & -> & N). split; [split; [lia|reflexivity]|]. cbn [fst]. destruct (Qeq_bool (avg e) 0) eqn:Z; auto.
      apply Qeq_bool_iff in Z. rewrite avg_mean in Z. now apply mean_zero in Z. }
  exists (map fst srt). split; [|split].
  - apply (sorted_map_in fst before).
    + intros x y Hx Hy B. apply I in Hx as (n & e & E1 & E2 & _). apply I in Hy as (n' & e' & E1' & E2' & _).
      exists n, e, n', e'. split; auto. split; auto. unfold before in B. rewrite E2, E2' in B. cbn [fst] in B. now rewrite !avg_mean in B.
    + apply sort_sorted. unfold tagged. apply filter_sorted, number_sorted.
  - intros i. rewrite in_map_iff. split.
    + intros (x & <- & Hx). apply I in Hx as (n & e & H & _ & N). eauto.
    + intros (n & e & H & N). exists (i, (avg e, n)). split; auto. apply I. eauto.
  - assert (A : Forall (fun x => exists e, nth_error d (fst x) = Some (snd (snd x), e)) srt).
    { apply Forall_forall. intros x Hx. apply I in Hx as (n & e & H & E2 & _). exists e. now rewrite E2. }
    rewrite map_map. clear -A. induction A; cbn [map]; constructor; auto.
Qed.

(** ** Grouping *)
Lemma add_events evs : forall m l, (forall l', match dget lane_eqb l' m with Some [] => False | _ => True end) ->
  Shown (fold_left add_event evs m) l (match dget lane_eqb l m with Some x => x | None => [] end ++ intervals (is_lane l) evs).
Proof.
  induction evs as [|e evs IH]; intros m l Hm; cbn [fold_left].
  - unfold Shown, intervals. cbn [filter map]. rewrite app_nil_r. specialize (Hm l). destruct (dget lane_eqb l m) as [[|]|]; auto. contradiction.
  - assert (Hm' : forall l', match dget lane_eqb l' (add_event m e) with Some [] => False | _ => True end).
    { intros l'. unfold add_event. rewrite (dget_dset lane_eqb lane_eq). destruct (lane_eqb l' (e_lane e)); [|apply Hm].
      destruct (match dget lane_eqb (e_lane e) m with Some l0 => l0 | None => [] end); exact I. }
    specialize (IH (add_event m e) l Hm').
    assert (E : match dget lane_eqb l m with Some x => x | None => [] end ++ intervals (is_lane l) (e :: evs) =
                match dget lane_eqb l (add_event m e) with Some x => x | None => [] end ++ intervals (is_lane l) evs).
    { unfold add_event. rewrite (dget_dset lane_eqb lane_eq). unfold intervals. cbn [filter]. change (is_lane l (e_lane e)) with (lane_eqb (e_lane e) l).
      destruct (lane_eqb l (e_lane e)) eqn:El.
      - apply lane_eq in El. subst l. rewrite lane_refl. cbn [map]. rewrite <- app_assoc. reflexivity.
      - assert (lane_eqb (e_lane e) l = false) as ->; [|reflexivity].
        destruct (lane_eqb (e_lane e) l) eqn:X; auto. apply lane_eq in X. subst. rewrite lane_refl in El. discriminate. }
    rewrite E. exact IH.
Qed.
Lemma add_nodup evs : forall m, NoDup (map fst m) -> NoDup (map fst (fold_left add_event evs m)).
Proof. induction evs as [|e evs IH]; intros m H; cbn [fold_left]; auto. apply IH. unfold add_event. now apply (dset_NoDup lane_eqb lane_eq). Qed.
Lemma group_shown evs l : Shown (fold_left add_event evs []) l (intervals (is_lane l) evs).
Proof. pose proof (add_events evs [] l (fun _ => I)) as H. exact H. Qed.

(** ** Lanes *)
Lemma lane_map_get ls : forall i m l, dget lane_eqb l (lane_map i ls m) =
  match dget lane_eqb l (lane_map i ls []) with Some k => Some k | None => dget lane_eqb l m end.
Proof.
  induction ls as [|x ls IH]; intros i m l; cbn [lane_map]; auto. rewrite IH, (IH _ (dset _ _ _ [])).
  destruct (dget lane_eqb l (lane_map (S i) ls [])); auto. rewrite !(dget_dset lane_eqb lane_eq). destruct (lane_eqb l x); auto.
Qed.
Lemma lane_map_spec ls : forall i l k, dget lane_eqb l (lane_map i ls []) = Some k <-> (i <= k)%nat /\ LastAt ls l (k - i).
Proof.
  induction ls as [|x ls IH]; intros i l k; cbn [lane_map].
  - split; [discriminate|]. intros [_ [H _]]. destruct (k - i)%nat; discriminate.
  - rewrite lane_map_get. destruct (dget lane_eqb l (lane_map (S i) ls [])) as [k'|] eqn:E.
    + apply IH in E as [Hk [E1 E2]]. split.
      * intros H. injection H as <-. split; [lia|]. replace (k' - i)%nat with (S (k' - S i)) by lia. split; [exact E1|].
        intros [|j] Hj; [lia|]. apply E2 in Hj. lia.
      * intros [H [F1 F2]]. specialize (F2 (S (k' - S i)) E1). destruct (k - i)%nat as [|j] eqn:Ej; [lia|]. apply E2 in F1. f_equal. lia.
    + assert (N : ~ In l ls).
      { intros Hi. assert (G : exists j, LastAt ls l j).
        { clear -Hi. induction ls as [|y ls IH]; [destruct Hi|]. destruct (in_dec lane_dec l ls) as [H|H].
          - apply IH in H as (j & H1 & H2). exists (S j). split; auto. intros [|k] Hk; [lia|]. apply H2 in Hk. lia.
          - destruct Hi as [-> | Hi]; [|contradiction]. exists 0%nat. split; auto. intros [|k] Hk; auto. cbn [nth_error] in Hk. apply nth_error_In in Hk. contradiction. }
        destruct G as [j G]. assert (X := proj2 (IH (S i) l (S i + j)%nat)). rewrite E in X. enough (None = Some (S i + j)%nat) by discriminate.
        apply X. split; [lia|]. now replace (S i + j - S i)%nat with j by lia. }
      cbn [dset dget]. destruct (lane_eqb l x) eqn:El.
      * apply lane_eq in El. subst x. split.
        -- intros H. injection H as <-. split; auto. rewrite Nat.sub_diag. split; auto. intros [|j] Hj; auto. cbn [nth_error] in Hj. apply nth_error_In in Hj. contradiction.
        -- intros [H [F1 _]]. destruct (k - i)%nat as [|j] eqn:Ej; [f_equal; lia|]. cbn [nth_error] in F1. apply nth_error_In in F1. contradiction.
      * split; [discriminate|]. intros [H [F1 _]]. destruct (k - i)%nat as [|j] eqn:Ej.
        -- injection F1 as ->. rewrite lane_refl in El. discriminate.
        -- cbn [nth_error] in F1. apply nth_error_In in F1. contradiction.
Qed.

Lemma lane_map_0 ls l k : dget lane_eqb l (lane_map 0 ls []) = Some k <-> LastAt ls l k.
Proof. rewrite lane_map_spec, Nat.sub_0_r. split; [now intros [_ H]|]. intros H. split; [lia|exact H]. Qed.
Lemma lane_map_none ls l : dget lane_eqb l (lane_map 0 ls []) = None <-> ~ In l ls.
Proof.
  split.
  - intros E Hi. enough (exists k, dget lane_eqb l (lane_map 0 ls []) = Some k) as [k K] by congruence.
    assert (G : exists j, LastAt ls l j).
    { clear E. induction ls as [|y ls IH]; [destruct Hi|]. destruct (in_dec lane_dec l ls) as [H|H].
      - apply IH in H as (j & H1 & H2). exists (S j). split; auto. intros [|k] Hk; [lia|]. apply H2 in Hk. lia.
      - destruct Hi as [-> | Hi]; [|contradiction]. exists 0%nat. split; auto. intros [|k] Hk; auto. cbn [nth_error] in Hk. apply nth_error_In in Hk. contradiction. }
    destruct G as [j G]. exists j. now apply lane_map_0.
  - intros N. destruct (dget lane_eqb l (lane_map 0 ls [])) as [k|] eqn:E; auto. apply lane_map_0 in E as [E _]. apply nth_error_In in E. contradiction.
Qed.

Definition Relaned (input : list lane) (e e' : event) : Prop :=
  e_start e' = e_start e /\ e_end e' = e_end e /\ exists i, LastAt input (e_lane e) i /\ e_lane e' = LZ (Z.of_nat i).
Lemma relane_ok input e e' : relane (lane_map 0 input []) e = Ok e' -> Relaned input e e'.
Proof.
  unfold relane. destruct (dget lane_eqb (e_lane e) (lane_map 0 input [])) as [i|] eqn:E; [|discriminate]. intros H. injection H as <-.
  apply lane_map_0 in E. repeat split; auto. exists i. auto.
Qed.
Lemma LastAt_fun ls l l' i j : LastAt ls l i -> LastAt ls l' j -> (i = j <-> l = l').
Proof.
  intros [A1 A2] [B1 B2]. split; [intros ->; congruence|]. intros ->. apply A2 in B1. apply B2 in A1. lia.
Qed.
Lemma relaned_intervals input l i evs evs' : LastAt input l i -> Forall2 (Relaned input) evs evs' ->
  intervals (is_lane (LZ (Z.of_nat i))) evs' = intervals (is_lane l) evs.
Proof.
  intros L. unfold intervals. induction 1 as [|e e' evs evs' (H1 & H2 & j & H3 & H4) _ IH]; cbn [filter]; auto.
  change (is_lane l (e_lane e)) with (lane_eqb (e_lane e) l).
  change (is_lane (LZ (Z.of_nat i)) (e_lane e')) with (lane_eqb (e_lane e') (LZ (Z.of_nat i))). rewrite H4. cbn [lane_eqb].
  destruct (Z.of_nat j =? Z.of_nat i)%Z eqn:E.
  - apply Z.eqb_eq, Nat2Z.inj in E. subst j. assert (e_lane e = l) as ->. { now apply (LastAt_fun input _ _ i i H3 L). }
    rewrite lane_refl. cbn [map]. now rewrite IH, H1, H2.
  - apply Z.eqb_neq in E. destruct (lane_eqb (e_lane e) l) eqn:X; auto. apply lane_eq in X. exfalso. apply E. f_equal.
    now apply (LastAt_fun input _ _ j i H3 L).
Qed.
Lemma mapM_inv {A B} (f : A -> res B) l : forall r, mapM f l = Ok r -> Forall2 (fun a b => f a = Ok b) l r.
Proof.
  induction l as [|a l IH]; intros r; cbn [mapM]; [intros H; injection H as <-; constructor|].
  destruct (f a) as [b|] eqn:E; cbn [bind]; [|discriminate]. destruct (mapM f l) as [bs|]; cbn [bind]; [|discriminate]. intros H. injection H as <-. constructor; auto.
Qed.
Lemma mapM_fails {A B} (f : A -> res B) (P : A -> Prop) ex l : (forall a, In a l -> (exists b, f a = Ok b) /\ ~ P a \/ f a = Err ex /\ P a) ->
  (exists r, mapM f l = Ok r) /\ ~ (exists a, In a l /\ P a) \/ mapM f l = Err ex /\ exists a, In a l /\ P a.
Proof.
  induction l as [|a l IH]; intros H; cbn [mapM].
  - left. split; [eauto|]. intros (a & [] & _).
  - destruct (H a (or_introl eq_refl)) as [[[b ->] N]|[-> Y]]; cbn [bind].
    + destruct IH as [[[r ->] M]|[-> (a' & Ha & Y)]]; [intros; apply H; now right| |]; cbn [bind].
      * left. split; [eauto|]. intros (a' & [<-|Ha] & Y); [contradiction|]. apply M. eauto.
      * right. split; auto. exists a'. split; [now right|auto].
    + right. split; auto. exists a. split; [now left|auto].
Qed.
Lemma dmem_keys (m : list (lane * list (Q * Q))) k : In k (map fst m) -> dget lane_eqb k m <> None.
Proof.
  induction m as [|[k' v] m IH]; intros H; [destruct H|]. cbn [dget]. destruct (lane_eqb k k') eqn:E; [discriminate|].
  destruct H as [H|H]; auto. cbn in H. subst. rewrite lane_refl in E. discriminate.
Qed.
Lemma number_at {A} (l : list A) : forall k i a, nth_error l i = Some a -> nth_error (number k l) i = Some ((k + i)%nat, a).
Proof.
  induction l as [|x l IH]; intros k [|i] a H; try discriminate; cbn [number nth_error] in *.
  - injection H as ->. now rewrite Nat.add_0_r.
  - rewrite (IH (S k) i a H). do 2 f_equal. lia.
Qed.
Lemma number_len {A} (l : list A) : forall k, List.length (number k l) = List.length l.
Proof. induction l; intros k; cbn; auto. Qed.

Lemma plot_ok d input prefix num g : event_plot d input prefix num = Ok g -> GraphOf d input prefix num g.
Proof.
  unfold event_plot, get_lanes. destruct input as [|l0 ls] eqn:Ei.
  - destruct (num =? 0)%Z; cbn [bind]; [discriminate|]. intros H. injection H as <-. split; [apply keys_ranked|]. cbn [g_lanes g_data fst snd]. split.
    + split; [now rewrite map_length, seq_length|]. intros i Hi. rewrite nth_error_map.
      assert (S : nth_error (seq 0 (Z.to_nat num)) i = Some i).
      { rewrite (nth_error_nth' _ 0%nat) by now rewrite seq_length. now rewrite seq_nth. }
      now rewrite S.
    + unfold group_lanes. induction d as [|[n evs] d IH]; cbn [map]; constructor; auto. cbn [fst snd]. split; auto. split.
      * apply add_nodup. constructor.
      * intros l. apply group_shown.
  - rewrite <- Ei. set (f := fun ne : str * list event => _). destruct (mapM f d) as [d'|] eqn:E; cbn [bind]; [|discriminate].
    intros H. injection H as <-. split; [apply keys_ranked|]. cbn [g_lanes g_data fst snd]. split.
    + unfold Labels. rewrite Ei, <- Ei. split; [apply number_len|]. intros i l H. now apply (number_at input 0).
    + apply mapM_inv in E. unfold group_lanes. induction E as [|[n evs] [n' evs'] d d' Ee _ IH]; cbn [map]; constructor; auto.
      unfold f in Ee. cbn [fst snd] in *. destruct (mapM (relane (lane_map 0 input [])) evs) as [x|] eqn:Em; cbn [bind] in Ee; [|discriminate].
      injection Ee as <- <-. split; auto. split; [apply add_nodup; constructor|].
      assert (F : Forall2 (Relaned input) evs x).
      { apply mapM_inv in Em. clear -Em. induction Em; constructor; auto. now apply relane_ok. }
      unfold Lanes. rewrite Ei, <- Ei. split.
      * intros l i L. rewrite <- (relaned_intervals input l i evs x L F). apply group_shown.
      * intros id Hid. apply dmem_keys in Hid. rewrite (group_shown x id) in Hid.
        assert (N : exists e', In e' x /\ e_lane e' = id).
        { unfold intervals in Hid. clear -Hid. induction x as [|e x IH]; cbn [filter map] in Hid; [contradiction|].
          unfold is_lane in Hid. destruct (lane_eqb (e_lane e) id) eqn:X.
          - apply lane_eq in X. exists e. split; [now left|auto].
          - destruct (IH Hid) as (e' & H1 & H2). exists e'. split; [now right|auto]. }
        destruct N as (e' & He & <-). clear -F He. induction F as [|e e2 evs x (H1 & H2 & j & H3 & H4) _ IH]; [destruct He|].
        destruct He as [<-|He]; auto. exists (e_lane e), j. auto.
Qed.
Lemma plot_cases d input prefix num :
  (exists g, event_plot d input prefix num = Ok g) /\ ~ NoLanes d input num \/
  event_plot d input prefix num = Err ERuntime /\ NoLanes d input num.
Proof.
  unfold event_plot, get_lanes, NoLanes. destruct input as [|l0 ls] eqn:Ei.
  - destruct (num =? 0)%Z eqn:E; cbn [bind].
    + right. apply Z.eqb_eq in E. auto.
    + left. apply Z.eqb_neq in E. split; [eauto|]. intros [[_ H]|[H _]]; contradiction.
  - rewrite <- Ei. set (f := fun ne : str * list event => _).
    destruct (mapM_fails f (fun ne => exists e, In e (snd ne) /\ ~ In (e_lane e) input) ERuntime d) as [[[r ->] N]|[-> Y]]; cbn [bind].
    + intros [n evs] _. unfold f. cbn [fst snd].
      destruct (mapM_fails (relane (lane_map 0 input [])) (fun e => ~ In (e_lane e) input) ERuntime evs) as [[[r ->] N]|[-> Y]]; cbn [bind]; eauto.
      intros e _. unfold relane. destruct (dget lane_eqb (e_lane e) (lane_map 0 input [])) as [i|] eqn:E.
      * left. split; [eauto|]. intros N. apply lane_map_none in N. congruence.
      * right. split; auto. now apply lane_map_none.
    + left. split; [eauto|]. intros [[H _]|[_ (n & evs & e & H1 & H2 & H3)]]; [subst; discriminate|]. apply N. exists (n, evs). split; auto. exists e. auto.
    + right. split; auto. right. split; [subst; discriminate|]. destruct Y as ([n evs] & H1 & e & H2 & H3). exists n, evs, e. auto.
Qed.
Lemma plot_fails d input prefix num e : event_plot d input prefix num = Err e <-> e = ERuntime /\ NoLanes d input num.
Proof.
  destruct (plot_cases d input prefix num) as [[[g ->] N]|[-> Y]]; split.
  - discriminate.
  - intros [_ H]. contradiction.
  - intros H. injection H as <-. auto.
  - now intros [-> _].
Qed.
Lemma sorted_unique {A} (R : A -> A -> Prop) : (forall x y, R x y -> R y x -> False) -> (forall x, ~ R x x) ->
  forall l l', StronglySorted R l -> StronglySorted R l' -> (forall x, In x l <-> In x l') -> l = l'.
Proof.
  intros As Ir l l' S. revert l'. induction S as [|x l S IH F]; intros l' S' E.
  - destruct l' as [|y l']; auto. exfalso. apply (E y). now left.
  - destruct S' as [|y l' S' F']; [exfalso; apply (E x); now left|]. rewrite Forall_forall in F, F'.
    assert (x = y) as ->.
    { destruct (proj1 (E x) (or_introl eq_refl)) as [H|H]; auto. destruct (proj2 (E y) (or_introl eq_refl)) as [K|K]; auto.
      exfalso. apply (As x y); auto. }
    f_equal. apply IH; auto. intros z. split; intros H.
    + destruct (proj1 (E z) (or_intror H)) as [<-|K]; auto. exfalso. apply (Ir y). auto.
    + destruct (proj2 (E z) (or_intror H)) as [<-|K]; auto. exfalso. apply (Ir y). auto.
Qed.
Lemma ranked_unique d k k' : Ranked d k -> Ranked d k' -> k = k'.
Proof.
  intros (idx & S & I & F) (idx' & S' & I' & F'). assert (idx = idx') as <-.
  { eapply sorted_unique; [| |exact S|exact S'|].
    - intros i j (n & e & n' & e' & E1 & E2 & H) (m' & f' & m & f & G1 & G2 & K).
      assert (f' = e') by congruence. assert (f = e) by congruence. subst f' f. destruct H as [H|[H H']], K as [K|[K K']]; try lra. lia.
    - intros i (n & e & n' & e' & E1 & E2 & H). assert (e' = e) by congruence. subst e'. destruct H as [H|[H H']]; [lra|lia].
    - intros i. rewrite I, I'. reflexivity. }
  clear -F F'. revert k' F'. induction F as [|i x idx k [e E] _ IH]; intros k' F'; inversion F' as [|? ? ? ? [e' E'] ? ]; subst; auto.
  f_equal; [congruence|auto].
Qed.
