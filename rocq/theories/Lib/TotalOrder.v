(** Totally ordered types, sorted lists without repetition. *)
From Coq Require Import List Bool Sorted Lia.
Import ListNotations.

Record total_order {T} (leb : T -> T -> bool) : Prop := TO {
  to_total : forall a b, leb a b = true \/ leb b a = true;
  to_antisym : forall a b, leb a b = true -> leb b a = true -> a = b;
  to_trans : forall a b c, leb a b = true -> leb b c = true -> leb a c = true }.

Section Order.
  Context {T : Type} (leb : T -> T -> bool).
  Definition ltb (a b : T) : bool := negb (leb b a).
  Definition teq (a b : T) : bool := leb a b && leb b a.
  (** Insert, unless already present. *)
  Fixpoint insert_u (x : T) (l : list T) : list T :=
    match l with
    | [] => [x]
    | y :: r => if ltb x y then x :: l else if leb x y then l else y :: insert_u x r
    end.
  (** [np.unique]: sorted, without repetitions. *)
  Definition sort_u (l : list T) : list T := fold_right insert_u [] l.
  Definition lt (a b : T) : Prop := ltb a b = true.
  Definition le (a b : T) : Prop := leb a b = true.
  Definition mem (x : T) (l : list T) : bool := existsb (teq x) l.
  Fixpoint eq_list (a b : list T) : bool :=
    match a, b with
    | [], [] => true
    | x :: a', y :: b' => teq x y && eq_list a' b'
    | _, _ => false
    end.
  Fixpoint nodup_b (l : list T) : bool :=
    match l with [] => true | x :: r => negb (mem x r) && nodup_b r end.

  Hypothesis TOT : total_order leb.
  Lemma le_refl a : leb a a = true.
  Proof. now destruct (to_total _ TOT a a). Qed.
  Lemma teq_eq a b : teq a b = true <-> a = b.
  Proof.
    unfold teq. rewrite andb_true_iff. split.
    - intros [H1 H2]. now apply (to_antisym _ TOT).
    - intros <-. split; apply le_refl.
  Qed.
  Lemma teq_refl a : teq a a = true.
  Proof. now apply teq_eq. Qed.
  Lemma lt_le a b : lt a b -> le a b.
  Proof. unfold lt, le, ltb. intros H. apply negb_true_iff in H. destruct (to_total _ TOT a b); congruence. Qed.
  Lemma lt_irrefl a : ~ lt a a.
  Proof. unfold lt, ltb. now rewrite le_refl. Qed.
  Lemma lt_not_le a b : lt a b <-> ~ le b a.
  Proof. unfold lt, le, ltb. destruct (leb b a); cbn; split; intros; congruence. Qed.
  Lemma le_lt_trans a b c : le a b -> lt b c -> lt a c.
  Proof. rewrite !lt_not_le. intros H1 H2 H3. apply H2. eapply (to_trans _ TOT); eauto. Qed.
  Lemma lt_le_trans a b c : lt a b -> le b c -> lt a c.
  Proof. rewrite !lt_not_le. intros H1 H2 H3. apply H1. eapply (to_trans _ TOT); eauto. Qed.
  Lemma lt_trans a b c : lt a b -> lt b c -> lt a c.
  Proof. intros H1 H2. eapply lt_le_trans; eauto using lt_le. Qed.
  Lemma le_lt_eq a b : le a b -> lt a b \/ a = b.
  Proof.
    intros H. unfold lt, ltb. destruct (leb b a) eqn:E; auto. right. now apply (to_antisym _ TOT).
  Qed.
  Lemma lt_total a b : lt a b \/ a = b \/ lt b a.
  Proof. destruct (to_total _ TOT a b) as [H|H]; apply le_lt_eq in H as [H|H]; auto. Qed.
  Lemma mem_In x l : mem x l = true <-> In x l.
  Proof.
    unfold mem. rewrite existsb_exists. split.
    - intros (y & H & E). apply teq_eq in E. now subst.
    - intros H. exists x. split; auto. apply teq_refl.
  Qed.
  Lemma eq_list_eq a b : eq_list a b = true <-> a = b.
  Proof.
    revert b. induction a as [|x a IH]; intros [|y b]; cbn [eq_list]; try (split; congruence).
    rewrite andb_true_iff, teq_eq, IH. split; [intros [-> ->]|intros [= -> ->]]; auto.
  Qed.
  Lemma nodup_b_spec l : nodup_b l = true <-> NoDup l.
  Proof.
    induction l as [|x l IH]; cbn [nodup_b].
    - split; auto using NoDup_nil.
    - rewrite andb_true_iff, negb_true_iff, IH. rewrite <- not_true_iff_false, mem_In. split.
      + intros [H1 H2]. now constructor.
      + intros H. inversion H; auto.
  Qed.

  Lemma insert_u_In x l y : In y (insert_u x l) <-> y = x \/ In y l.
  Proof.
    induction l as [|z l IH]; cbn [insert_u].
    - cbn. intuition.
    - destruct (ltb x z) eqn:E1; [cbn; intuition|].
      destruct (leb x z) eqn:E2.
      + assert (x = z) as ->. { apply (le_lt_eq x z) in E2 as [E2|E2]; auto. unfold lt in E2. congruence. }
        cbn. intuition.
      + cbn [In]. rewrite IH. intuition.
  Qed.
  Lemma sort_u_In l y : In y (sort_u l) <-> In y l.
  Proof.
    induction l as [|x l IH]; cbn [sort_u fold_right]; [tauto|]. change (fold_right insert_u [] l) with (sort_u l). rewrite insert_u_In, IH. cbn. intuition.
  Qed.
  Lemma insert_u_sorted x l : StronglySorted lt l -> StronglySorted lt (insert_u x l).
  Proof.
    induction 1 as [|y l Hs IH Hf]; cbn [insert_u].
    - repeat constructor.
    - destruct (ltb x y) eqn:E1.
      + constructor; [now constructor|]. constructor; auto. eapply Forall_impl; [|exact Hf]. intros z Hz. eapply lt_trans; eauto.
      + destruct (leb x y) eqn:E2; [now constructor|]. constructor; auto.
        apply Forall_forall. intros z Hz. apply insert_u_In in Hz as [->|Hz].
        * unfold lt, ltb. rewrite E2. reflexivity.
        * rewrite Forall_forall in Hf. auto.
  Qed.
  Lemma sort_u_sorted l : StronglySorted lt (sort_u l).
  Proof. induction l; cbn [sort_u fold_right]; [constructor|]. now apply insert_u_sorted. Qed.
  Lemma sorted_nodup l : StronglySorted lt l -> NoDup l.
  Proof.
    induction 1 as [|x l Hs IH Hf]; constructor; auto. intros Hi. rewrite Forall_forall in Hf. now apply Hf, lt_irrefl in Hi.
  Qed.
  Lemma sorted_ext l1 l2 : StronglySorted lt l1 -> StronglySorted lt l2 -> (forall x, In x l1 <-> In x l2) -> l1 = l2.
  Proof.
    intros H1. revert l2. induction H1 as [|x l1 Hs IH Hf]; intros l2 H2 He.
    - destruct l2 as [|y l2]; auto. destruct (proj2 (He y)). now left.
    - destruct H2 as [|y l2 H2 Hf2]; [destruct (proj1 (He x)); now left|].
      rewrite Forall_forall in Hf, Hf2.
      assert (x = y) as ->.
      { destruct (lt_total x y) as [H|[H|H]]; auto.
        - destruct (proj1 (He x) (or_introl eq_refl)) as [E|E]; auto. apply Hf2 in E. destruct (lt_irrefl x). eapply lt_trans; eauto.
        - destruct (proj2 (He y) (or_introl eq_refl)) as [E|E]; auto. apply Hf in E. destruct (lt_irrefl x). eapply lt_trans; eauto. }
      f_equal. apply IH; auto. intros z. split; intros Hz.
      + destruct (proj1 (He z) (or_intror Hz)) as [E|E]; auto. subst z. now apply Hf, lt_irrefl in Hz.
      + destruct (proj2 (He z) (or_intror Hz)) as [E|E]; auto. subst z. now apply Hf2, lt_irrefl in Hz.
  Qed.
  Lemma sort_u_id l : StronglySorted lt l -> sort_u l = l.
  Proof. intros H. apply sorted_ext; auto using sort_u_sorted. intros; apply sort_u_In. Qed.
End Order.
