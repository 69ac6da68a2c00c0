From Coq Require Import List Ascii String ZArith NArith Bool Lia.
From Verif Require Import Lib.PyStr Lib.PyStrFacts Model.Grammar Spec.Words.
Import ListNotations.
Local Open Scope list_scope.

Lemma In_existsb (c : ascii) l : In c l <-> existsb (Ascii.eqb c) l = true.
Proof.
  rewrite existsb_exists. split.
  - intros H. exists c. split; auto. apply Ascii.eqb_refl.
  - intros (x & H & E). apply Ascii.eqb_eq in E. now subst.
Qed.
Lemma ws_b c : is_ws c = existsb (Ascii.eqb c) spaces.
Proof. destruct c as [[] [] [] [] [] [] [] []]; vm_compute; reflexivity. Qed.
Lemma digit_b c : is_digit c = existsb (Ascii.eqb c) figures.
Proof. destruct c as [[] [] [] [] [] [] [] []]; vm_compute; reflexivity. Qed.
Lemma start_b c : id_start c = existsb (Ascii.eqb c) (small ++ capital ++ $"_").
Proof. destruct c as [[] [] [] [] [] [] [] []]; vm_compute; reflexivity. Qed.
Lemma char_b c : id_char c = existsb (Ascii.eqb c) (small ++ capital ++ $"_" ++ figures).
Proof. destruct c as [[] [] [] [] [] [] [] []]; vm_compute; reflexivity. Qed.
Lemma chars c :
  (is_ws c = true <-> In c spaces) /\ (is_digit c = true <-> In c figures) /\
  (id_start c = true <-> In c (small ++ capital ++ $"_")) /\
  (id_char c = true <-> In c (small ++ capital ++ $"_" ++ figures)).
Proof. rewrite !In_existsb, ws_b, digit_b, start_b, char_b. repeat split; auto. Qed.

Definition pick (l : str) (i : nat) (c : ascii) : bool := match nth_error l i with Some x => Ascii.eqb x c | None => false end.
Lemma pick_ok l i c : pick l i c = true <-> nth_error l i = Some c.
Proof.
  unfold pick. destruct (nth_error l i) as [x|]; split; intros H; try discriminate.
  - apply Ascii.eqb_eq in H. now subst.
  - injection H as ->. apply Ascii.eqb_refl.
Qed.
Definition sameb (a b : ascii) : bool := existsb (fun i => pick small i b && (pick small i a || pick capital i a)) (seq 0 26).
Lemma sameb_ok a b : sameb a b = true <-> SameLetter a b.
Proof.
  unfold sameb, SameLetter. rewrite existsb_exists. split.
  - intros (i & _ & H). exists i. now rewrite andb_true_iff, orb_true_iff, !pick_ok in H.
  - intros (i & H). exists i. rewrite andb_true_iff, orb_true_iff, !pick_ok. split; auto.
    apply in_seq. cut (i < 26)%nat; [lia|]. apply (proj1 (nth_error_Some small i)). destruct H as [H _]. congruence.
Qed.
Definition all : str := map ascii_of_nat (seq 0 256).
Lemma all_In c : In c all.
Proof.
  apply in_map_iff. exists (nat_of_ascii c). split; [apply ascii_nat_embedding|]. apply in_seq. pose proof (nat_ascii_bounded c). lia.
Qed.
Lemma lower_all : forallb (fun b => forallb (fun a => Bool.eqb (Ascii.eqb (lower_c a) b) (sameb a b)) all) small = true.
Proof. vm_compute. reflexivity. Qed.
Lemma lower_same a b : In b small -> lower_c a = b <-> SameLetter a b.
Proof.
  intros H. rewrite <- sameb_ok, <- Ascii.eqb_eq. pose proof lower_all as L. rewrite forallb_forall in L. specialize (L b H).
  rewrite forallb_forall in L. specialize (L a (all_In a)). apply eqb_prop in L. now rewrite L.
Qed.
Lemma lower_word x w : Forall (fun b => In b small) w -> map lower_c x = w <-> Forall2 SameLetter x w.
Proof.
  intros F. revert x. induction F as [|b w Hb F IH]; intros [|a x]; cbn [map]; split; intros H; try discriminate; try inversion H; subst; auto.
  - constructor; [now apply lower_same|]. now apply IH.
  - f_equal; [now apply lower_same|now apply IH].
Qed.
Lemma words_small w : In w [$"nan"; $"inf"; $"infinity"] -> Forall (fun b => In b small) w.
Proof.
  intros H. apply Forall_forall. intros b Hb. apply In_existsb.
  assert (G : forallb (fun w => forallb (fun b => existsb (Ascii.eqb b) small) w) [$"nan"; $"inf"; $"infinity"] = true) by reflexivity.
  rewrite forallb_forall in G. specialize (G w H). rewrite forallb_forall in G. auto.
Qed.
Lemma float_word_ok x : float_word x = true <-> NumberWord x.
Proof.
  unfold float_word, NumberWord. rewrite existsb_exists. split; intros (w & H & E); exists w; split; auto.
  - apply eqs_eq in E. apply lower_word; auto using words_small.
  - apply lower_word in E; auto using words_small. now apply eqs_eq.
Qed.
Lemma var_id_ok {V} (fl : str -> V) pvars agg x :
  (NumberWord x -> var_id fl pvars agg x = Ok (fl x)) /\
  (~ NumberWord x ->
     (forall v, pvars x = Some v -> var_id fl pvars agg x = Ok v) /\
     (pvars x = None -> (List.length x < 2)%nat -> var_id fl pvars agg x = Err EIndex) /\
     (forall a b r, x = a :: b :: r -> pvars x = None ->
        (forall v, agg [b] = Some v -> var_id fl pvars agg x = Ok v) /\ (agg [b] = None -> var_id fl pvars agg x = Err EKey))).
Proof.
  rewrite <- float_word_ok. unfold var_id. split; intros H.
  - now rewrite H.
  - destruct (float_word x); [now destruct H|]. split; [|split].
    + intros v ->. auto.
    + intros ->. destruct x as [|a [|b r]]; cbn; auto. lia.
    + intros a b r ->. intros ->. cbn. split; [intros v ->|intros ->]; auto.
Qed.
