(** Level aggregation, alignment, correlation totals, resampling. *)
From Coq Require Import List ZArith QArith Bool Sorted Lia Lqa.
From Verif Require Import Lib.PyStr Lib.PyStrFacts Lib.TotalOrder Lib.F64 Model.Base Model.Stats Spec.Stats.
Import ListNotations.
Local Open Scope list_scope.

Section AggP.
  Context {N S R : Type} (neq : N -> N -> bool).
  Hypothesis neq_eq : forall a b, neq a b = true <-> a = b.
  Lemma mapM_ok {A B} (f : A -> res B) (g : A -> B) l : (forall a, In a l -> f a = Ok (g a)) -> mapM f l = Ok (map g l).
  Proof.
    induction l as [|a l IH]; intros H; cbn [mapM map]; auto. rewrite H by now left. cbn [bind]. rewrite IH by (intros; apply H; now right). reflexivity.
  Qed.
  Lemma group_fun_ok (f : S -> R) add st (val : N -> S) n rest : (forall m, In m (n :: rest) -> dget neq m st = Some (val m)) ->
    group_fun neq f add st (n :: rest) = Ok (fold_left add (map (fun m => f (val m)) rest) (f (val n))).
  Proof.
    intros H. unfold group_fun, get_stored. rewrite H by now left. cbn [bind].
    rewrite (mapM_ok _ (fun m => f (val m))); [reflexivity|]. intros m Hm. rewrite H by now right. reflexivity.
  Qed.
  Lemma aggregate_fun_ok (f : S -> R) add st (val : N -> S) groups :
    (forall g, In g groups -> g <> []) -> (forall g m, In g groups -> In m g -> dget neq m st = Some (val m)) ->
    exists rs, aggregate_fun neq f add groups st = (Ok rs, st) /\
      Forall2 (fun g r => exists n rest, g = n :: rest /\ r = fold_left add (map (fun m => f (val m)) rest) (f (val n))) groups rs.
  Proof.
    intros He Hs. unfold aggregate_fun. induction groups as [|g groups IH]; cbn [mapM]; [exists []; auto|].
    destruct g as [|n rest]; [elim (He []); cbn; auto|]. rewrite (group_fun_ok f add st val).
    2: { intros m Hm. eapply Hs; [now left|auto]. }
    cbn [bind]. destruct IH as (rs & E & F); [intros; apply He; now right|intros; eapply Hs; [right|]; eauto|].
    injection E as E. rewrite E. cbn [bind]. eexists. split; [reflexivity|]. constructor; eauto.
  Qed.

  Notation "st .[ n ]" := (dget neq n st) (at level 2, left associativity, format "st .[ n ]").
  Lemma add_nodes_ok (add : S -> S -> S) n rest : ~ In n rest -> forall st (val : N -> S),
    (forall m, In m (n :: rest) -> dget neq m st = Some (val m)) ->
    exists st', add_nodes neq add n rest st = (Ok tt, st') /\
      forall m, dget neq m st' = if neq m n then Some (fold_left add (map val rest) (val n)) else dget neq m st.
  Proof.
    induction rest as [|r rest IH]; intros Hn st val H; cbn [add_nodes map fold_left].
    - exists st. split; auto. intros m. destruct (neq m n) eqn:E; auto. apply neq_eq in E. subst. apply H. now left.
    - unfold get_stored. rewrite (H n) by now left. rewrite (H r) by (right; now left).
      set (st1 := dset neq n (add (val n) (val r)) st).
      destruct (IH ltac:(intros Hi; apply Hn; now right) st1 (fun m => if neq m n then add (val n) (val r) else val m)) as (st' & E & H').
      { intros m Hm. unfold st1. rewrite (dget_dset neq neq_eq). destruct (neq m n) eqn:E; auto. apply H. destruct Hm; [now left|right; now right]. }
      exists st'. split; auto. intros m. rewrite H'. destruct (neq m n) eqn:E1; [|unfold st1; now rewrite (dget_dset neq neq_eq), E1].
      rewrite (proj2 (neq_eq n n) eq_refl). f_equal. f_equal. apply map_ext_in. intros x Hx.
      destruct (neq x n) eqn:E2; auto. apply neq_eq in E2. subst. elim Hn. now right.
  Qed.
  (** What one call leaves under each node. *)
  Definition bump (add : S -> S -> S) (groups : list (list N)) (val : N -> S) (m : N) : S :=
    match find (fun g => match g with n :: _ => neq m n | [] => false end) groups with
    | Some (n :: rest) => fold_left add (map val rest) (val n)
    | _ => val m
    end.
  Lemma bump_ext add groups (v v' : N -> S) m : (forall x, In x (concat groups) -> v x = v' x) -> v m = v' m -> bump add groups v m = bump add groups v' m.
  Proof.
    intros H Hm. unfold bump. destruct (find _ groups) as [[|n rest]|] eqn:E; auto. apply find_some in E as [E _].
    assert (Hg : forall x, In x (n :: rest) -> v x = v' x). { intros x Hx. apply H. apply in_concat. eauto. }
    rewrite (Hg n) by now left. f_equal. apply map_ext_in. intros x Hx. apply Hg. now right.
  Qed.
  Lemma nodup_app {A} (l l' : list A) : NoDup (l ++ l') -> NoDup l /\ NoDup l' /\ forall x, In x l -> ~ In x l'.
  Proof.
    induction l as [|a l IH]; cbn [app]; intros H; [split; [constructor|split; auto]|]. inversion H; subst. destruct (IH H3) as (I1 & I2 & I3).
    rewrite in_app_iff in H2. split; [constructor; tauto|]. split; auto. intros x [->|Hx]; [tauto|auto].
  Qed.
  Lemma aggregate_none_ok (add : S -> S -> S) groups : (forall g, In g groups -> g <> []) -> NoDup (concat groups) -> forall st (val : N -> S),
    (forall m, In m (concat groups) -> dget neq m st = Some (val m)) ->
    exists st', aggregate_none neq add groups st = (Ok (concat (map (firstn 1) groups)), st') /\
      (forall m, In m (concat groups) -> dget neq m st' = Some (bump add groups val m)) /\
      (forall m, ~ In m (concat groups) -> dget neq m st' = dget neq m st).
  Proof.
    induction groups as [|g groups IH]; intros He Hn st val H; cbn [aggregate_none].
    - exists st. split; [reflexivity|]. split; [intros m []|auto].
    - destruct g as [|n rest]; [elim (He []); cbn; auto|]. cbn [concat] in Hn, H.
      apply nodup_app in Hn as (Hg & Hgs & Hd). inversion Hg as [|? ? Hnr _]; subst.
      unfold get_stored at 1. rewrite (H n) by (now left).
      destruct (add_nodes_ok add n rest Hnr st val) as (st1 & E1 & H1). { intros m Hm. apply H. apply in_or_app. now left. }
      rewrite E1.
      destruct (IH ltac:(intros; apply He; now right) Hgs st1 val) as (st2 & E2 & H2 & H3).
      { intros m Hm. rewrite H1. destruct (neq m n) eqn:E.
        - apply neq_eq in E. subst. elim (Hd n); [now left|auto].
        - apply H. apply in_or_app. now right. }
      rewrite E2. cbn [bind]. exists st2. split; [reflexivity|]. split.
      + intros m Hm. cbn [concat] in Hm. unfold bump. cbn [find]. destruct (neq m n) eqn:E.
        * apply neq_eq in E. subst m. rewrite H3 by (apply Hd; now left). rewrite H1, (proj2 (neq_eq n n) eq_refl). reflexivity.
        * apply in_app_or in Hm as [Hm|Hm].
          -- assert (Hm' : ~ In m (concat groups)) by now apply Hd. rewrite H3, H1, E by auto.
             rewrite H by (apply in_or_app; now left). f_equal.
             destruct (find _ groups) as [[|n' rest']|] eqn:Ef; auto. apply find_some in Ef as [Ef En]. apply neq_eq in En. subst n'.
             elim Hm'. apply in_concat. exists (m :: rest'). split; auto. now left.
          -- rewrite H2 by auto. reflexivity.
      + intros m Hm. cbn [concat] in Hm. rewrite in_app_iff in Hm. rewrite H3 by tauto. rewrite H1. destruct (neq m n) eqn:E; auto.
        apply neq_eq in E. subst. elim Hm. left. now left.
  Qed.
  Lemma find_group groups n rest : NoDup (concat groups) -> In (n :: rest) groups ->
    find (fun g => match g with n' :: _ => neq n n' | [] => false end) groups = Some (n :: rest).
  Proof.
    induction groups as [|g groups IH]; intros Hn Hi; [easy|]. cbn [concat find] in *. apply nodup_app in Hn as (H1 & H2 & H3).
    destruct Hi as [->|Hi]; [now rewrite (proj2 (neq_eq n n) eq_refl)|].
    assert (Hc : In n (concat groups)) by (apply in_concat; exists (n :: rest); split; auto; now left).
    destruct g as [|n' r']; auto. destruct (neq n n') eqn:E; auto. apply neq_eq in E. subst. elim (H3 n'); [now left|auto].
  Qed.
  Lemma not_first groups m g : NoDup (concat groups) -> In g groups -> In m (tl g) ->
    find (fun g => match g with n' :: _ => neq m n' | [] => false end) groups = None.
  Proof.
    intros Hn Hg Hm. destruct (find _ groups) as [[|n r]|] eqn:E; auto; [now apply find_some in E as [_ E]|].
    apply find_some in E as [Hi E]. apply neq_eq in E. subst n. exfalso. clear -Hn Hg Hm Hi.
    induction groups as [|g0 groups IH]; [easy|]. cbn [concat] in Hn. apply nodup_app in Hn as (H1 & H2 & H3).
    assert (Hin : forall h, In h groups -> In m h -> In m (concat groups)) by (intros; apply in_concat; eauto).
    assert (Hmg : In m g) by (destruct g; [easy|now right]).
    destruct Hg as [->|Hg], Hi as [->|Hi]; auto.
    - cbn in Hm. inversion H1; auto.
    - apply (H3 m); auto. apply (Hin (m :: r)); auto. now left.
    - apply (H3 m); [now left|]. eapply Hin; eauto.
  Qed.
  Lemma calls_ok (add : S -> S -> S) groups st (val : N -> S) k : (forall g, In g groups -> g <> []) -> NoDup (concat groups) ->
    (forall m, In m (concat groups) -> dget neq m st = Some (val m)) ->
    fst (aggregate_none neq add groups (calls_none neq add groups k st)) = Ok (concat (map (firstn 1) groups)) /\
    (forall n rest, In (n :: rest) groups ->
       dget neq n (calls_none neq add groups k st) = Some (fold_left add (concat (repeat (map val rest) k)) (val n)) /\
       forall m, In m rest -> dget neq m (calls_none neq add groups k st) = Some (val m)).
  Proof.
    intros He Hn H.
    assert (Hk : exists vk, (forall m, In m (concat groups) -> dget neq m (calls_none neq add groups k st) = Some (vk m)) /\
       forall n rest, In (n :: rest) groups -> vk n = fold_left add (concat (repeat (map val rest) k)) (val n) /\ forall m, In m rest -> vk m = val m).
    { induction k as [|k (vk & H1 & H2)]; cbn [calls_none repeat concat].
      - exists val. split; auto.
      - destruct (aggregate_none_ok add groups He Hn _ vk H1) as (st' & E & H3 & _). rewrite E. cbn [snd].
        exists (bump add groups vk). split; auto. intros n rest Hi. destruct (H2 n rest Hi) as [H4 H5]. split.
        + unfold bump. rewrite (find_group groups n rest Hn Hi), H4. rewrite (map_ext_in vk val rest) by auto.
          rewrite <- fold_left_app. f_equal. clear. induction k as [|k IH]; cbn [repeat concat]; [now rewrite app_nil_r|].
          rewrite <- app_assoc, IH. reflexivity.
        + intros m Hm. unfold bump. rewrite (not_first groups m (n :: rest)) by auto. auto. }
    destruct Hk as (vk & H1 & H2). split.
    - destruct (aggregate_none_ok add groups He Hn _ vk H1) as (st' & E & _). now rewrite E.
    - intros n rest Hi. destruct (H2 n rest Hi) as [H3 H4].
      assert (Hc : forall m, In m (n :: rest) -> In m (concat groups)) by (intros; apply in_concat; eauto). split.
      + rewrite H1 by (apply Hc; now left). now rewrite H3.
      + intros m Hm. rewrite H1 by (apply Hc; now right). now rewrite H4.
  Qed.
End AggP.

Section AlignP.
  Context {V : Type} (nonzero : V -> bool).
  Notation zero_at := (zero_at nonzero).
  Lemma nz_at l i : (i < List.length l)%nat -> (zero_at l i <-> exists o, nth_error l i = Some o /\ nz nonzero o = false).
  Proof.
    intros _. unfold Spec.Stats.zero_at. split.
    - intros (v & E & H). exists (Some v). auto.
    - intros ([v|] & E & H); [eauto|discriminate].
  Qed.
  Lemma fnz_first l : forall i p r, flatnonzero_from nonzero i l = p :: r -> exists k, p = (i + k)%nat /\ first_nz nonzero l k.
  Proof.
    induction l as [|v l IH]; intros i p r; cbn [flatnonzero_from]; [discriminate|]. destruct (nz nonzero v) eqn:E; cbn [app].
    - intros [= <- _]. exists 0%nat. split; [lia|]. split; [cbn; lia|]. split; [|intros j Hj; lia].
      intros (w & Hw & Hz). cbn in Hw. injection Hw as ->. cbn in E. congruence.
    - intros H. destruct (IH _ _ _ H) as (k & -> & H1 & H2 & H3). exists (S k). split; [lia|]. split; [cbn; lia|]. split; [exact H2|].
      intros j Hj. destruct j as [|j]; [|apply (H3 j); lia]. destruct v as [w|]; [|discriminate]. exists w. auto.
  Qed.
  Lemma fnz_nil l : forall i, flatnonzero_from nonzero i l = [] -> forall j, (j < List.length l)%nat -> zero_at l j.
  Proof.
    induction l as [|v l IH]; intros i H j Hj; cbn in Hj; [lia|]. cbn [flatnonzero_from] in H. destruct (nz nonzero v) eqn:E; [discriminate|].
    destruct j as [|j]; [destruct v as [w|]; [|discriminate]; now exists w|]. apply (IH _ H j). lia.
  Qed.
  Lemma fnz_last l : forall i, flatnonzero_from nonzero i l <> [] -> exists k, last (flatnonzero_from nonzero i l) 0%nat = (i + k)%nat /\ last_nz nonzero l k.
  Proof.
    induction l as [|v l IH]; intros i H; cbn [flatnonzero_from] in *; [easy|].
    destruct (flatnonzero_from nonzero (S i) l) as [|p r] eqn:F.
    - destruct (nz nonzero v) eqn:E; [|easy]. exists 0%nat. cbn [app last]. split; [lia|]. split; [cbn; lia|]. split.
      + intros (w & Hw & Hz). cbn in Hw. injection Hw as ->. cbn in E. congruence.
      + intros j Hj. cbn in Hj. destruct j as [|j]; [lia|]. apply (fnz_nil l (S i) F j). lia.
    - destruct (IH (S i)) as (k & E & H1 & H2 & H3); [rewrite F; discriminate|]. rewrite F in E. exists (S k). split.
      + transitivity (last (p :: r) 0%nat); [destruct (nz nonzero v); reflexivity|lia].
      + split; [cbn; lia|]. split; [exact H2|]. intros j Hj. cbn in Hj. destruct j as [|j]; [lia|]. apply (H3 j). lia.
  Qed.
  Lemma first_unique l p q : first_nz nonzero l p -> first_nz nonzero l q -> p = q.
  Proof.
    intros (A1 & A2 & A3) (B1 & B2 & B3). destruct (Nat.lt_trichotomy p q) as [H|[H|H]]; auto; [elim A2; auto|elim B2; auto].
  Qed.
  Lemma last_unique l p q : last_nz nonzero l p -> last_nz nonzero l q -> p = q.
  Proof.
    intros (A1 & A2 & A3) (B1 & B2 & B3). destruct (Nat.lt_trichotomy p q) as [H|[H|H]]; auto; [elim B2; apply A3; lia|elim A2; apply B3; lia].
  Qed.
  Lemma nonempty l p : (p < List.length l)%nat -> ~ zero_at l p -> flatnonzero nonzero l <> [].
  Proof. intros H H1 E. apply H1. now apply (fnz_nil l 0 E). Qed.
  Lemma shift_moved k (l : list (option V)) : Moved k l (shift_right k l).
  Proof.
    unfold shift_right. split; [rewrite firstn_length, app_length, repeat_length; lia|].
    assert (Hf : forall n (m : list (option V)) i, (i < n)%nat -> nth_error (firstn n m) i = nth_error m i).
    { induction n as [|n IH]; intros m i Hi; [lia|]. destruct m; [now destruct i|]. destruct i; cbn; auto. apply IH. lia. }
    split; intros i H1 H2; rewrite Hf by auto.
    - rewrite nth_error_app1 by (rewrite repeat_length; auto). now rewrite nth_error_repeat.
    - rewrite nth_error_app2 by (rewrite repeat_length; auto). now rewrite repeat_length.
  Qed.
  Lemma moved_0 (l : list (option V)) : Moved 0 l l.
  Proof. split; auto. split; [lia|]. intros i _ _. now rewrite Nat.sub_0_r. Qed.
  Lemma shift_series_ok (x y : list (option V)) p q :
    exists x' y', shift_series x y (Z.of_nat p - Z.of_nat q) = (x', y') /\ Moved (Nat.max p q - p) x x' /\ Moved (Nat.max p q - q) y y'.
  Proof.
    unfold shift_series. destruct (Z.ltb_spec 0 (Z.of_nat p - Z.of_nat q)).
    - eexists _, _. split; [reflexivity|]. replace (Nat.max p q - p)%nat with 0%nat by lia. split; [apply moved_0|].
      replace (Nat.max p q - q)%nat with (Z.to_nat (Z.of_nat p - Z.of_nat q)) by lia. apply shift_moved.
    - eexists _, _. split; [reflexivity|]. replace (Nat.max p q - q)%nat with 0%nat by lia. split; [|apply moved_0].
      replace (Nat.max p q - p)%nat with (Z.to_nat (- (Z.of_nat p - Z.of_nat q))) by lia. apply shift_moved.
  Qed.
  Lemma align_front x y p q : first_nz nonzero x p -> first_nz nonzero y q ->
    exists x' y', align nonzero Front x y = (x', y', (Z.of_nat p - Z.of_nat q)%Z) /\ Moved (Nat.max p q - p) x x' /\ Moved (Nat.max p q - q) y y'.
  Proof.
    intros Hx Hy. unfold align. destruct (flatnonzero nonzero x) as [|px rx] eqn:Ex; [elim (nonempty x p); auto; apply Hx|].
    destruct (flatnonzero nonzero y) as [|py ry] eqn:Ey; [elim (nonempty y q); auto; apply Hy|].
    destruct (fnz_first _ _ _ _ Ex) as (k & -> & Hk). destruct (fnz_first _ _ _ _ Ey) as (j & -> & Hj). cbn [Nat.add].
    rewrite (first_unique x k p), (first_unique y j q) by auto. destruct (shift_series_ok x y p q) as (x' & y' & E & H1 & H2).
    rewrite E. eauto.
  Qed.
  Lemma align_back x y p q : last_nz nonzero x p -> last_nz nonzero y q ->
    exists x' y', align nonzero Back x y = (x', y', (Z.of_nat p - Z.of_nat q)%Z) /\ Moved (Nat.max p q - p) x x' /\ Moved (Nat.max p q - q) y y'.
  Proof.
    intros Hx Hy. unfold align. pose proof (fnz_last x 0) as Lx. pose proof (fnz_last y 0) as Ly. fold (flatnonzero nonzero x) in Lx. fold (flatnonzero nonzero y) in Ly.
    destruct (flatnonzero nonzero x) as [|px rx] eqn:Ex; [elim (nonempty x p); auto; apply Hx|].
    destruct (flatnonzero nonzero y) as [|py ry] eqn:Ey; [elim (nonempty y q); auto; apply Hy|].
    destruct Lx as (k & Ek & Hk); [discriminate|]. destruct Ly as (j & Ej & Hj); [discriminate|]. rewrite Ek, Ej. cbn [Nat.add].
    rewrite (last_unique x k p), (last_unique y j q) by auto. destruct (shift_series_ok x y p q) as (x' & y' & E & H1 & H2).
    rewrite E. eauto.
  Qed.
  Lemma align_zero m x y : (forall i, (i < List.length x)%nat -> zero_at x i) \/ (forall i, (i < List.length y)%nat -> zero_at y i) ->
    align nonzero m x y = (x, y, 0%Z).
  Proof.
    assert (Hz : forall l, (forall i, (i < List.length l)%nat -> zero_at l i) -> flatnonzero nonzero l = []).
    { intros l H. unfold flatnonzero. destruct (flatnonzero_from nonzero 0 l) as [|p r] eqn:E; auto.
      destruct (fnz_first _ _ _ _ E) as (k & _ & H1 & H2 & _). elim H2. auto. }
    unfold align. intros [H|H]; rewrite (Hz _ H); auto. now destruct (flatnonzero nonzero x).
  Qed.
  Lemma moved_zero k l l' i : Moved k l l' -> (k <= i)%nat -> (i < List.length l)%nat -> zero_at l (i - k) -> zero_at l' i.
  Proof. intros (_ & _ & H) H1 H2 (v & E & Hz). exists v. split; auto. now rewrite H. Qed.
  Lemma front_one x x' p d : first_nz nonzero x p -> (p <= d < List.length x)%nat -> Moved (d - p) x x' ->
    nth_error x' d = nth_error x p /\ forall i, (i < d)%nat -> zero_at x' i \/ nth_error x' i = Some None.
  Proof.
    intros (H1 & H2 & H3) Hd M. pose proof M as (M1 & M2 & M3). split; [rewrite M3 by lia; f_equal; lia|].
    intros i Hi. destruct (Nat.lt_ge_cases i (d - p)); [right; apply M2; lia|left]. apply (moved_zero (d - p) x); auto; [lia|apply H3; lia].
  Qed.
  Lemma back_one x x' p d : last_nz nonzero x p -> (p <= d < List.length x)%nat -> Moved (d - p) x x' ->
    nth_error x' d = nth_error x p /\ forall i, (d < i < List.length x)%nat -> zero_at x' i.
  Proof.
    intros (H1 & H2 & H3) Hd M. pose proof M as (M1 & M2 & M3). split; [rewrite M3 by lia; f_equal; lia|].
    intros i Hi. apply (moved_zero (d - p) x); auto; try lia. apply H3; lia.
  Qed.
  Lemma front_meet x y p q : List.length x = List.length y -> first_nz nonzero x p -> first_nz nonzero y q ->
    exists x' y' s d, align nonzero Front x y = (x', y', s) /\ List.length x' = List.length x /\ List.length y' = List.length y /\
      nth_error x' d = nth_error x p /\ nth_error y' d = nth_error y q /\
      forall i, (i < d)%nat -> (zero_at x' i \/ nth_error x' i = Some None) /\ (zero_at y' i \/ nth_error y' i = Some None).
  Proof.
    intros L Hx Hy. destruct (align_front x y p q Hx Hy) as (x' & y' & E & Mx & My). exists x', y', (Z.of_nat p - Z.of_nat q)%Z, (Nat.max p q).
    pose proof (proj1 Hx) as Lx. pose proof (proj1 Hy) as Ly. assert (Ld : (p <= Nat.max p q < List.length x)%nat) by lia. assert (Ld' : (q <= Nat.max p q < List.length y)%nat) by lia.
    destruct (front_one x x' p _ Hx Ld Mx) as [A1 A2]. destruct (front_one y y' q _ Hy Ld' My) as [B1 B2].
    split; [exact E|]. split; [apply Mx|]. split; [apply My|]. split; [exact A1|]. split; [exact B1|]. auto.
  Qed.
  Lemma back_meet x y p q : List.length x = List.length y -> last_nz nonzero x p -> last_nz nonzero y q ->
    exists x' y' s d, align nonzero Back x y = (x', y', s) /\ List.length x' = List.length x /\ List.length y' = List.length y /\
      nth_error x' d = nth_error x p /\ nth_error y' d = nth_error y q /\
      forall i, (d < i < List.length x)%nat -> zero_at x' i /\ zero_at y' i.
  Proof.
    intros L Hx Hy. destruct (align_back x y p q Hx Hy) as (x' & y' & E & Mx & My). exists x', y', (Z.of_nat p - Z.of_nat q)%Z, (Nat.max p q).
    pose proof (proj1 Hx) as Lx. pose proof (proj1 Hy) as Ly. assert (Ld : (p <= Nat.max p q < List.length x)%nat) by lia. assert (Ld' : (q <= Nat.max p q < List.length y)%nat) by lia.
    destruct (back_one x x' p _ Hx Ld Mx) as [A1 A2]. destruct (back_one y y' q _ Hy Ld' My) as [B1 B2].
    split; [exact E|]. split; [apply Mx|]. split; [apply My|]. split; [exact A1|]. split; [exact B1|]. split; auto. apply B2. lia.
  Qed.
End AlignP.

Section TotalP.
  Local Open Scope Q_scope.
  Lemma total_fold W c : forall t, fold_left (fun t (c : Z * option Q) => match snd c with None => t | Some r => t + (inject_Z (fst c) * r) / W end) c t == t + weighted c / W.
  Proof.
    induction c as [|[w [r|]] c IH]; intros t; cbn [fold_left snd fst weighted].
    - unfold Qdiv. ring.
    - rewrite IH. unfold Qdiv. ring.
    - apply IH.
  Qed.
  Lemma total_is c : total c == weighted c / inject_Z (weights c).
  Proof. unfold total. fold (weights c). rewrite total_fold. ring. Qed.
  Lemma weighted_bound c : Forall (fun x => (0 <= fst x)%Z /\ forall r, snd x = Some r -> -(1) <= r <= 1) c ->
    - inject_Z (weights c) <= weighted c <= inject_Z (weights c).
  Proof.
    induction 1 as [|[w o] c [Hw Hr] H IH]; cbn [weighted weights fold_right fst snd] in *; [split; cbv; discriminate|].
    fold (weights c). rewrite inject_Z_plus. assert (0 <= inject_Z w) by (change 0 with (inject_Z 0); rewrite <- Zle_Qle; auto).
    destruct o as [r|]; [|lra]. destruct (Hr r eq_refl). nra.
  Qed.
  Lemma total_bound c : Forall (fun x => (0 <= fst x)%Z /\ forall r, snd x = Some r -> -(1) <= r <= 1) c -> (0 < weights c)%Z ->
    -(1) <= total c <= 1.
  Proof.
    intros H Hw. rewrite total_is. assert (0 < inject_Z (weights c)) by (change 0 with (inject_Z 0); rewrite <- Zlt_Qlt; auto).
    destruct (weighted_bound c H). split; [apply Qle_shift_div_l|apply Qle_shift_div_r]; auto; lra.
  Qed.
End TotalP.

Section ResampleP.
  Context {T V : Type} (leb : T -> T -> bool).
  Hypothesis TOT : total_order leb.
  Lemma pad_ok (s : list (T * option V)) t : StronglySorted (lt leb) (map fst s) -> forall acc,
    (exists pre t' post, s = pre ++ (t', pad_at leb acc s t) :: post /\ leb t' t = true /\ Forall (fun e => leb (fst e) t = false) post) \/
    (pad_at leb acc s t = acc /\ Forall (fun e => leb (fst e) t = false) s).
  Proof.
    induction s as [|[u v] s IH]; intros Hs acc; cbn [pad_at]; [right; auto|]. cbn [map fst] in Hs. inversion Hs as [|? ? Hs' Hf]; subst.
    destruct (leb u t) eqn:E.
    - left. destruct (IH Hs' v) as [(pre & t' & post & Eq & H1 & H2)|[Eq H]].
      + exists ((u, v) :: pre), t', post. split; [cbn; now rewrite <- Eq|auto].
      + exists [], u, s. rewrite Eq. auto.
    - right. split; auto. constructor; auto. apply Forall_forall. intros e He. rewrite Forall_forall in Hf.
      specialize (Hf (fst e) (in_map fst _ _ He)). destruct (leb (fst e) t) eqn:E2; auto.
      assert (leb u t = true); [|congruence]. apply (to_trans leb TOT u (fst e) t); auto. now apply (lt_le leb TOT).
  Qed.
  Lemma reindex_ok (s : list (T * option V)) grid : StronglySorted (lt leb) (map fst s) -> Forall2 (InForce leb s) grid (reindex_pad leb s grid).
  Proof.
    intros H. unfold reindex_pad. induction grid as [|t grid IH]; cbn [map]; constructor; auto. apply (pad_ok s t H None).
  Qed.
  Local Open Scope Q_scope.
  Lemma qceil_lt q (i : Z) : (i < qceil q)%Z <-> inject_Z i < q.
  Proof.
    unfold qceil. split; intros H.
    - apply Qnot_le_lt. intros Hq. assert (inject_Z (- i) <= - q) by (rewrite inject_Z_opp; lra).
      apply Qround.Qfloor_resp_le in H0. rewrite Qround.Qfloor_Z in H0. lia.
    - pose proof (Qround.Qfloor_le (- q)). assert (inject_Z (Qround.Qfloor (- q)) < inject_Z (- i)) by (rewrite inject_Z_opp; lra).
      rewrite <- Zlt_Qlt in H1. lia.
  Qed.
  Lemma uniform_ok delta s rest : 0 < delta ->
    exists grid, get_uniform delta (s :: rest) = Ok grid /\
      forall x, In x grid <-> exists i : nat, x = s + inject_Z (Z.of_nat i) * delta /\ s + inject_Z (Z.of_nat i) * delta < last (s :: rest) s.
  Proof.
    intros Hd. cbn [get_uniform]. eexists. split; [reflexivity|]. intros x. rewrite in_map_iff. set (e := last (s :: rest) s).
    assert (K : forall i, (i < Z.to_nat (qceil ((e - s) / delta)))%nat <-> s + inject_Z (Z.of_nat i) * delta < e).
    { intros i. transitivity (Z.of_nat i < qceil ((e - s) / delta))%Z; [lia|]. rewrite qceil_lt. split; intros H.
      - apply (Qmult_lt_r _ _ delta Hd) in H. unfold Qdiv in H. rewrite <- Qmult_assoc, (Qmult_comm (/ delta)), Qmult_inv_r in H; lra.
      - apply Qlt_shift_div_l; auto. lra. }
    split.
    - intros (i & <- & H). apply in_seq in H. exists i. split; auto. apply K. lia.
    - intros (i & -> & H). exists i. split; auto. apply in_seq. apply K in H. lia.
  Qed.
End ResampleP.
