(** Facts about [str.replace] and [str.split]. *)
From Coq Require Import List Ascii String ZArith NArith Bool Lia.
From Verif Require Import Lib.PyStr Lib.PyStrFacts.
Import ListNotations.
Local Open Scope list_scope.

Definition no_start (old a b : str) : Prop :=
  forall a1 a2, a = a1 ++ a2 -> a2 <> [] -> is_prefix old (a2 ++ b) = false.
Lemma no_start_tl old c a b : no_start old (c :: a) b -> no_start old a b.
Proof. intros H a1 a2 -> Hn. apply (H (c :: a1) a2); auto. Qed.

Lemma replace1_at old new a rest : old <> [] -> no_start old a (old ++ rest) ->
  replace1 old new (a ++ old ++ rest) = a ++ new ++ rest.
Proof.
  intros Ho. induction a as [|c a IH]; intros H.
  - cbn [app]. destruct (old ++ rest) eqn:E; [destruct old; [congruence|discriminate]|].
    unfold replace1. rewrite <- E, is_prefix_app. f_equal.
    rewrite skipn_app, skipn_all, Nat.sub_diag. reflexivity.
  - cbn [app replace1]. change (c :: a ++ old ++ rest) with ((c :: a) ++ old ++ rest).
    rewrite (H [] (c :: a)) by (auto; discriminate). f_equal. apply IH. eapply no_start_tl; eauto.
Qed.

Lemma replace_aux_skip old new : forall l s k, List.length l = k -> replace_aux old new (l ++ s) k = replace_aux old new s 0.
Proof.
  induction l as [|c l IH]; intros s k <-; cbn [app List.length]; auto.
  cbn [replace_aux]. now apply IH.
Qed.
Lemma replace_at old new a rest : old <> [] -> no_start old a (old ++ rest) ->
  replace old new (a ++ old ++ rest) = a ++ new ++ replace old new rest.
Proof.
  intros Ho. unfold replace. induction a as [|c a IH]; intros H.
  - cbn [app]. destruct old as [|c o]; [congruence|]. cbn [app replace_aux].
    change (c :: o ++ rest) with ((c :: o) ++ rest). rewrite is_prefix_app. f_equal.
    apply replace_aux_skip. cbn. lia.
  - cbn [app replace_aux]. change (c :: a ++ old ++ rest) with ((c :: a) ++ old ++ rest).
    rewrite (H [] (c :: a)) by (auto; discriminate). f_equal. apply IH. eapply no_start_tl; eauto.
Qed.
Lemma replace_none old new a : no_start old a [] -> replace old new a = a.
Proof.
  unfold replace. induction a as [|c a IH]; intros H; auto. cbn [replace_aux].
  pose proof (H [] (c :: a) eq_refl ltac:(discriminate)) as E. rewrite app_nil_r in E. rewrite E. f_equal.
  apply IH. eapply no_start_tl; eauto.
Qed.
Lemma replace_char c new s : replace [c] new s = flat_map (fun x => if Ascii.eqb c x then new else [x]) s.
Proof.
  unfold replace. induction s as [|x s IH]; auto. cbn [replace_aux is_prefix flat_map].
  destruct (Ascii.eqb c x); cbn [andb List.length Nat.sub app]; now rewrite IH.
Qed.

(** [old] has no border, so occurrences cannot overlap. *)
Definition no_border (old : str) : bool :=
  forallb (fun n => negb (is_prefix (skipn n old) old)) (seq 1 (List.length old - 1)).
Lemma app_split {A} : forall (a b c d : list A), a ++ b = c ++ d ->
  (exists e, c = a ++ e /\ b = e ++ d) \/ (exists e, a = c ++ e /\ d = e ++ b).
Proof.
  induction a as [|x a IH]; intros b c d H.
  - left. exists c. auto.
  - destruct c as [|y c]; cbn in H.
    + right. exists (x :: a). auto.
    + injection H as -> H. destruct (IH _ _ _ H) as [(e & -> & E)|(e & -> & E)]; [left|right]; exists e; auto.
Qed.
Lemma no_start_border old a rest : no_border old = true -> contains old a = false -> no_start old a (old ++ rest).
Proof.
  intros Hb Hc a1 a2 -> Hn. destruct (is_prefix old (a2 ++ old ++ rest)) eqn:E; auto.
  apply is_prefix_spec in E as [r E]. apply app_split in E as [(e & E1 & E2)|(e & E1 & E2)].
  - destruct e as [|x e].
    + rewrite app_nil_r in E1. subst a2. exfalso. enough (contains old (a1 ++ old) = true) by congruence.
      apply contains_spec. exists a1, []. now rewrite app_nil_r.
    + exfalso. unfold no_border in Hb. rewrite forallb_forall in Hb. specialize (Hb (List.length a2)).
      assert (Hin : In (List.length a2) (seq 1 (List.length old - 1))).
      { apply in_seq. assert (L : List.length old = (List.length a2 + S (List.length e))%nat).
        { rewrite E1, app_length. reflexivity. }
        rewrite L. destruct a2; [congruence|]. clear. cbn [List.length]. lia. }
      apply Hb in Hin. apply negb_true_iff in Hin.
      enough (is_prefix (skipn (List.length a2) old) old = true) by congruence.
      replace (skipn (List.length a2) old) with (x :: e) by (rewrite E1 at 1; rewrite skipn_app, skipn_all, Nat.sub_diag; reflexivity).
      apply app_split in E2 as [(e2 & F1 & F2)|(e2 & F1 & F2)].
      * exfalso. apply (f_equal (@List.length ascii)) in E1, F1. rewrite app_length in E1, F1.
        destruct a2; [congruence|]. cbn [List.length] in E1, F1. lia.
      * apply is_prefix_spec. now exists e2.
  - subst a2. exfalso. enough (contains old (a1 ++ old ++ e) = true) by congruence.
    apply contains_spec. now exists a1, e.
Qed.

Lemma split_ws_nonnil d x : is_space d = false -> split_ws (d :: x) <> [].
Proof.
  intros E. cbn [split_ws]. rewrite E. destruct x as [|c x]; [discriminate|].
  destruct (is_space c); [discriminate|]. destruct (split_ws (c :: x)); discriminate.
Qed.
Lemma split_ws_blank x y sp : is_space sp = true -> split_ws (x ++ sp :: y) = split_ws x ++ split_ws y.
Proof.
  intros Hs. induction x as [|c x IH]; cbn [app].
  - cbn [split_ws]. now rewrite Hs.
  - cbn [split_ws]. destruct (is_space c) eqn:Ec; auto. destruct x as [|d x].
    + cbn [app]. rewrite Hs. cbn [split_ws app]. now rewrite Hs.
    + cbn [app] in *. rewrite IH. destruct (is_space d) eqn:Ed; [reflexivity|].
      pose proof (split_ws_nonnil d x Ed). destruct (split_ws (d :: x)); [congruence|reflexivity].
Qed.
