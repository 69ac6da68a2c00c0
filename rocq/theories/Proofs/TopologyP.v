(** Topology queries. *)
From Coq Require Import List Ascii String ZArith Bool Permutation Lia.
From Verif Require Import Lib.PyStr Lib.PyStrFacts Model.Topology Spec.Topology.
Import ListNotations.
Local Open Scope list_scope.

Section TopologyP.
  Context {A : Type} (aeq : A -> A -> bool) (enum : list A -> list A).
  Hypothesis aeq_eq : forall a b, aeq a b = true <-> a = b.
  Hypothesis EN : enumerates enum.
  Notation topo := (@topology A).

  Definition nodes_ok (t : topo) (S : list A) : Prop := NoDup (t_nodes t) /\ forall a, In a (t_nodes t) <-> In a S.
  Lemma add_node_ok ns a : NoDup ns -> NoDup (add_node aeq ns a) /\ forall x, In x (add_node aeq ns a) <-> In x ns \/ x = a.
  Proof.
    intros Hn. unfold add_node. destruct (existsb (aeq a) ns) eqn:E.
    - split; auto. intros x. apply existsb_exists in E as (y & Hy & E). apply aeq_eq in E. subst y. intuition. now subst.
    - assert (Ha : ~ In a ns). { intros H. rewrite <- not_true_iff_false in E. apply E, existsb_exists. exists a. split; auto. now apply aeq_eq. }
      split.
      + apply NoDup_rev in Hn. rewrite <- (rev_involutive (ns ++ [a])). apply NoDup_rev. rewrite rev_app_distr. cbn. constructor; auto. now rewrite <- in_rev.
      + intros x. rewrite in_app_iff. cbn. intuition.
  Qed.
  Lemma add_nodes_ok l : forall ns, NoDup ns -> NoDup (fold_left (add_node aeq) l ns) /\
    forall x, In x (fold_left (add_node aeq) l ns) <-> In x ns \/ In x l.
  Proof.
    induction l as [|a l IH]; intros ns Hn; cbn [fold_left].
    - split; auto. cbn. tauto.
    - destruct (add_node_ok ns a Hn) as [H1 H2]. destruct (IH _ H1) as [H3 H4]. split; auto.
      intros x. rewrite H4, H2. cbn. intuition.
  Qed.
  Definition call_nodes (calls : list (str * list (list A))) : list A := List.concat (List.concat (map snd calls)).
  Lemma run_nodes calls : forall t S, nodes_ok t S ->
    nodes_ok (fold_left (fun t c => add_to_level aeq (fst c) (snd c) t) calls t) (S ++ call_nodes calls).
  Proof.
    induction calls as [|[n v] calls IH]; intros t S H; cbn [fold_left].
    - unfold call_nodes. cbn. now rewrite app_nil_r.
    - replace (S ++ call_nodes ((n, v) :: calls)) with ((S ++ List.concat v) ++ call_nodes calls).
      + apply IH. destruct H as [H1 H2]. unfold nodes_ok. cbn [t_nodes add_to_level fst snd].
        destruct (add_nodes_ok (List.concat v) _ H1) as [H3 H4]. split; auto. intros a. rewrite H4, in_app_iff, H2. tauto.
      + unfold call_nodes. cbn [map snd List.concat]. rewrite concat_app. now rewrite app_assoc.
  Qed.
  Lemma flatten_ok t S : nodes_ok t S -> NoDup (flatten enum t) /\ forall a, In a (flatten enum t) <-> In a S.
  Proof.
    intros [H1 H2]. unfold flatten. assert (P := EN _ H1). split.
    - eapply Permutation_NoDup; [apply Permutation_sym; exact P|auto].
    - intros a. rewrite <- H2. split; apply Permutation_in; auto. now apply Permutation_sym.
  Qed.

  (** Levels. *)
  Definition lev (t : topo) (n : str) := dget eqs n (t_levels t).
  Lemma lev_add n v t m : lev (add_to_level aeq n v t) m =
    if eqs m n then Some (match lev t n with Some gs => gs ++ v | None => v end) else lev t m.
  Proof.
    unfold lev. cbn [t_levels add_to_level]. rewrite (dget_dset eqs eqs_eq). destruct (eqs m n) eqn:E; auto.
    apply eqs_eq in E as ->. now destruct (dget eqs n (t_levels t)).
  Qed.
  Definition join_groups (a b : option (list (list A))) : option (list (list A)) :=
    match a, b with None, _ => b | _, None => a | Some x, Some y => Some (x ++ y) end.
  Lemma run_levels name calls gs : Groups name calls gs -> forall t,
    lev (fold_left (fun t c => add_to_level aeq (fst c) (snd c) t) calls t) name = join_groups (lev t name) gs.
  Proof.
    induction 1 as [|n vals calls gs Hn H IH|vals calls H IH|vals calls gs H IH]; intros t; cbn [fold_left fst snd].
    - now destruct (lev t name).
    - rewrite IH, lev_add. destruct (eqs name n) eqn:E; auto. apply eqs_eq in E. congruence.
    - rewrite IH, lev_add, (proj2 (eqs_eq name name) eq_refl). cbn. now destruct (lev t name).
    - rewrite IH, lev_add, (proj2 (eqs_eq name name) eq_refl). cbn. destruct (lev t name); auto. cbn. now rewrite app_assoc.
  Qed.
  Lemma new_is_calls clusters : exists singles, singles_of clusters singles /\
    forall calls, built aeq enum clusters calls = fold_left (fun t c => add_to_level aeq (fst c) (snd c) t) (initial clusters singles ++ calls) (Topo [] []).
  Proof.
    destruct clusters as [|g gs].
    - exists []. split.
      + exists []. repeat split; auto using NoDup_nil.
      + intros calls. unfold built, topology_new, initial. reflexivity.
    - set (cl := g :: gs). set (t := add_to_level aeq $"cluster" cl (Topo [] [])).
      exists (map (fun a => [a]) (flatten enum t)). split.
      + destruct (flatten_ok t (List.concat cl)) as [H1 H2].
        { assert (H := run_nodes [($"cluster", cl)] (Topo [] []) []). unfold call_nodes in H. cbn [map snd List.concat] in H. rewrite app_nil_r in H.
          apply H. split; [constructor|]. reflexivity. }
        exists (flatten enum t). auto.
      + intros calls. reflexivity.
  Qed.
  Lemma levels_spec clusters : exists singles, singles_of clusters singles /\ forall calls name gs, name <> $"all" ->
    Groups name (initial clusters singles ++ calls) gs ->
    get_level enum (built aeq enum clusters calls) name = match gs with Some g => Ok g | None => Err EKey end /\
    level_span (built aeq enum clusters calls) name = match gs with Some g => Ok (List.length g) | None => Err EKey end /\
    has_level (built aeq enum clusters calls) name = match gs with Some _ => true | None => false end.
  Proof.
    destruct (new_is_calls clusters) as (singles & H1 & H2). exists singles. split; auto. intros calls name gs Hn Hg.
    assert (E : eqs name $"all" = false). { destruct (eqs name $"all") eqn:E; auto. now apply eqs_eq in E. }
    assert (L := run_levels name _ _ Hg (Topo [] [])). rewrite <- H2 in L. cbn in L. change (lev (Topo [] []) name) with (@None (list (list A))) in L. cbn [join_groups] in L.
    unfold get_level, level_span, has_level, dmem. rewrite E. unfold lev in L. rewrite L. destruct gs; auto.
  Qed.
  Lemma groups_total (name : str) (calls : list (str * list (list A))) : exists gs, Groups name calls gs.
  Proof.
    induction calls as [|[n v] calls (gs & IH)]; [exists None; constructor|].
    destruct (eqs n name) eqn:E.
    - apply eqs_eq in E as ->. destruct gs as [gs|]; eexists; [apply G_more|apply G_first]; eauto.
    - exists gs. apply G_other; auto. intros ->. now rewrite (proj2 (eqs_eq name name) eq_refl) in E.
  Qed.
  Lemma all_spec clusters calls : get_level enum (built aeq enum clusters calls) $"all" = Ok [flatten enum (built aeq enum clusters calls)] /\
    NoDup (flatten enum (built aeq enum clusters calls)) /\
    (forall a, In a (flatten enum (built aeq enum clusters calls)) <-> exists g, In a g /\ (In g clusters \/ exists c, In c calls /\ In g (snd c))) /\
    level_span (built aeq enum clusters calls) $"all" = Ok (List.length (flatten enum (built aeq enum clusters calls))).
  Proof.
    destruct (new_is_calls clusters) as (singles & (ns & Es & Hs & Hin) & H2). split; [reflexivity|].
    assert (N := run_nodes (initial clusters singles ++ calls) (Topo [] []) []). rewrite <- H2 in N. cbn [app] in N.
    assert (N' : nodes_ok (built aeq enum clusters calls) (call_nodes (initial clusters singles ++ calls))).
    { apply N. split; [constructor|reflexivity]. }
    destruct (flatten_ok _ _ N') as [F1 F2]. split; auto. split.
    - intros a. rewrite F2. unfold call_nodes. rewrite map_app, concat_app, concat_app, in_app_iff.
      assert (Hi : In a (List.concat (List.concat (map snd (initial clusters singles)))) <-> In a (List.concat clusters)).
      { unfold initial. destruct clusters as [|g gs]; [reflexivity|]. set (cl := g :: gs) in *. cbn [map snd List.concat]. rewrite app_nil_r, concat_app, in_app_iff.
        subst singles. assert (Hc : In a (List.concat (map (fun a => [a]) ns)) <-> In a ns).
        { rewrite in_concat. split.
          - intros (x & Hx & Ha). apply in_map_iff in Hx as (y & <- & Hy). destruct Ha as [->|[]]. auto.
          - intros Ha. exists [a]. split; [apply in_map_iff; eauto|now left]. }
        rewrite Hc, Hin. tauto. }
      rewrite Hi. rewrite !in_concat. split.
      + intros [(g & Hg & Ha)|(g & Hg & Ha)]; [eauto|]. apply in_concat in Hg as (v & Hv & Hg). apply in_map_iff in Hv as (c & <- & Hc). eauto 6.
      + intros (g & Ha & [Hg|(c & Hc & Hg)]); [left; eauto|]. right. exists g. split; auto. apply in_concat. exists (snd c). split; auto. now apply in_map.
    - unfold level_span. change (eqs $"all" $"all") with true. cbv iota. f_equal. unfold flatten. apply Permutation_length. apply Permutation_sym, EN. apply N'.
  Qed.

  (** Positions. *)
  Lemma geq_eq a b : geq aeq a b = true <-> a = b.
  Proof.
    revert b. induction a as [|x a IH]; intros [|y b]; cbn [geq]; try (split; congruence).
    rewrite andb_true_iff, aeq_eq, IH. split; [intros [-> ->]|intros [= -> ->]]; auto.
  Qed.
  Lemma py_nth_nat {B} (l : list B) n : py_nth l (Z.of_nat n) = match nth_error l n with Some b => Ok b | None => Err EIndex end.
  Proof.
    unfold py_nth. destruct (Z.ltb_spec (Z.of_nat n) 0); [lia|]. destruct (Z.ltb_spec (Z.of_nat n) 0); [lia|]. now rewrite Nat2Z.id.
  Qed.
  Lemma index_nat g gs : forall i, index_of aeq g gs = Ok i <-> exists n, i = Z.of_nat n /\ nth_error gs n = Some g /\ forall m, (m < n)%nat -> nth_error gs m <> Some g.
  Proof.
    induction gs as [|h gs IH]; intros i; cbn [index_of].
    - split; [discriminate|]. intros (n & _ & H & _). now destruct n.
    - destruct (geq aeq h g) eqn:E.
      + apply geq_eq in E as ->. split.
        * intros [= <-]. exists O. repeat split; auto. intros m Hm. lia.
        * intros ([|n] & -> & H & Hm); auto. exfalso. apply (Hm O); [lia|reflexivity].
      + assert (h <> g). { intros ->. now rewrite (proj2 (geq_eq g g) eq_refl) in E. } split.
        * destruct (index_of aeq g gs) as [j|] eqn:Ei; [|discriminate]. cbn. intros [= <-].
          destruct (proj1 (IH j) eq_refl) as (n & -> & H1 & H2). exists (S n). split; [lia|]. split; auto. intros [|m] Hm; cbn; [congruence|]. apply H2. lia.
        * intros ([|n] & -> & H1 & Hm); [cbn in H1; congruence|]. cbn in H1.
          rewrite (proj2 (IH (Z.of_nat n))); [cbn; f_equal; lia|]. exists n. split; auto. split; auto. intros m Hlt. apply (Hm (S m)). lia.
  Qed.
  Lemma index_spec (t : topo) name g i : get_index aeq enum t name g = Ok i <->
    (0 <= i)%Z /\ get_node enum t name i = Ok g /\ forall j, (0 <= j < i)%Z -> get_node enum t name j <> Ok g.
  Proof.
    unfold get_index, get_node. destruct (get_level enum t name) as [gs|e]; cbn [bind].
    - rewrite index_nat. split.
      + intros (n & -> & H1 & H2). split; [lia|]. rewrite py_nth_nat, H1. split; auto. intros j Hj.
        rewrite <- (Z2Nat.id j) by lia. rewrite py_nth_nat. specialize (H2 (Z.to_nat j) ltac:(lia)). destruct (nth_error gs (Z.to_nat j)); congruence.
      + intros (H0 & H1 & H2). exists (Z.to_nat i). split; [lia|]. rewrite <- (Z2Nat.id i) in H1 by lia. rewrite py_nth_nat in H1. split.
        * destruct (nth_error gs (Z.to_nat i)); congruence.
        * intros m Hm He. apply (H2 (Z.of_nat m)); [lia|]. now rewrite py_nth_nat, He.
    - split; [discriminate|]. now intros (_ & H & _).
  Qed.
  Lemma index_found (t : topo) name gs g : get_level enum t name = Ok gs -> (In g gs <-> exists i, get_index aeq enum t name g = Ok i).
  Proof.
    intros E. unfold get_index. rewrite E. cbn [bind]. clear E. induction gs as [|h gs IH]; cbn [index_of].
    - split; [easy|]. now intros (i & H).
    - destruct (geq aeq h g) eqn:E.
      + apply geq_eq in E as ->. split; [eauto|now left].
      + destruct IH as [I1 I2]. split.
        * intros [->|H]; [now rewrite (proj2 (geq_eq g g) eq_refl) in E|]. destruct (I1 H) as (i & ->). eexists; reflexivity.
        * intros (i & H). destruct (index_of aeq g gs); [|discriminate]. right. apply I2. eauto.
  Qed.
  Lemma index_error (t : topo) name gs g : get_level enum t name = Ok gs -> ~ In g gs -> get_index aeq enum t name g = Err EValue.
  Proof.
    intros E. unfold get_index. rewrite E. cbn [bind]. clear E. induction gs as [|h gs IH]; cbn [index_of]; intros H; auto.
    destruct (geq aeq h g) eqn:E; [apply geq_eq in E as ->; elim H; now left|]. rewrite IH; auto. intros Hi. apply H. now right.
  Qed.
  (** Positions from the start, or from the end. *)
  Lemma node_spec (t : topo) name gs i : get_level enum t name = Ok gs ->
    get_node enum t name i =
    match (if (i <? 0)%Z then nth_error (rev gs) (Z.to_nat (- i - 1)) else nth_error gs (Z.to_nat i)) with
    | Some g => Ok g
    | None => Err EIndex
    end.
  Proof.
    intros E. unfold get_node. rewrite E. cbn [bind]. unfold py_nth. destruct (i <? 0)%Z eqn:Ei; [|now rewrite Ei].
    apply Z.ltb_lt in Ei. destruct (i + Z.of_nat (List.length gs) <? 0)%Z eqn:Ej.
    - apply Z.ltb_lt in Ej. rewrite (proj2 (nth_error_None (rev gs) _)); auto. rewrite rev_length. lia.
    - apply Z.ltb_ge in Ej.
      assert (L : (Z.to_nat (- i - 1) < List.length gs)%nat) by lia.
      assert (R : nth_error (rev gs) (Z.to_nat (- i - 1)) = nth_error gs (Z.to_nat (i + Z.of_nat (List.length gs)))); [|now rewrite R].
      destruct gs as [|g0 gs0]; [cbn in L; lia|]. set (gs := g0 :: gs0) in *.
      rewrite (nth_error_nth' (rev gs) g0) by now rewrite rev_length.
      rewrite rev_nth by lia. rewrite (nth_error_nth' gs g0) by lia. f_equal. f_equal. lia.
  Qed.
  Lemma node_unknown (t : topo) name i e : get_level enum t name = Err e -> get_node enum t name i = Err e.
  Proof. intros E. unfold get_node. now rewrite E. Qed.
End TopologyP.

Theorem node_all : forall {A : Type} (enum : list A -> list A) (t : @topology A) name i,
  get_node enum t name i =
  match get_level enum t name with
  | Err e => Err e
  | Ok gs =>
    match (if (i <? 0)%Z then nth_error (rev gs) (Z.to_nat (- i - 1)) else nth_error gs (Z.to_nat i)) with
    | Some g => Ok g
    | None => Err EIndex
    end
  end.
Proof.
  intros A enum t name i. destruct (get_level enum t name) as [gs|e] eqn:E; [now apply node_spec|now apply node_unknown].
Qed.
