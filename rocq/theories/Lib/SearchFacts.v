(** Facts about [re_search] / [re_match] in terms of the declarative [mat]. *)
From Coq Require Import List Ascii String ZArith NArith Bool Lia.
From Verif Require Import Lib.PyStr Lib.PyStrFacts Lib.Regex Lib.RegexFacts.
Import ListNotations.

Definition nomatch (r : re) (s : st) : Prop := forall s', ~ mat r s s'.

Lemma nomatch_mt {A} r s (k : st -> option A) : nomatch r s -> mt r s k = None.
Proof. intros H. apply mt_None. intros s' Hm. now apply H in Hm. Qed.
Lemma mt_Some_nomatch {A} r s (f : st -> A) : mt r s (fun s' => Some (f s')) = None -> nomatch r s.
Proof.
  intros H s' Hm. apply (mt_complete r s s' (fun s' => Some (f s')) Hm); auto. discriminate.
Qed.

Lemma search_skip r : forall a pre prev b,
  (forall a1 a2, a = a1 ++ a2 -> a2 <> [] -> nomatch r (St (last_or prev a1) (a2 ++ b) [])) ->
  search_from r pre prev (a ++ b) = search_from r (pre ++ a) (last_or prev a) b.
Proof.
  induction a as [|c a IH]; intros pre prev b H.
  - now rewrite app_nil_r, last_or_nil.
  - change ((c :: a) ++ b) with (c :: a ++ b). cbn [search_from].
    rewrite nomatch_mt.
    2:{ apply (H [] (c :: a)); auto. discriminate. }
    rewrite IH.
    + rewrite <- app_assoc. now rewrite (last_or_cons prev c a).
    + intros a1 a2 -> Hne. specialize (H (c :: a1) a2 eq_refl Hne).
      now rewrite last_or_cons in H.
Qed.
Lemma search_hit r pre prev s s' :
  mt r (St prev s []) (fun s' => Some (mk_res pre s s')) = Some (mk_res pre s s') ->
  search_from r pre prev s = Some (mk_res pre s s').
Proof. intros H. destruct s; cbn [search_from]; now rewrite H. Qed.
Lemma search_nil r pre prev : nomatch r (St prev [] []) -> search_from r pre prev [] = None.
Proof. intros H. cbn [search_from]. now rewrite nomatch_mt. Qed.
Lemma search_none r pre prev s :
  (forall a b, s = a ++ b -> nomatch r (St (last_or prev a) b [])) -> search_from r pre prev s = None.
Proof.
  intros H. replace s with (s ++ []) by apply app_nil_r.
  rewrite search_skip.
  - apply search_nil. apply H. now rewrite app_nil_r.
  - intros a1 a2 -> _. apply H. now rewrite app_nil_r.
Qed.
Lemma search_inv r : forall s pre prev m, search_from r pre prev s = Some m ->
  exists a b s', s = a ++ b /\ mat r (St (last_or prev a) b []) s' /\ m = mk_res (pre ++ a) b s' /\
    (forall a1 a2, a = a1 ++ a2 -> a2 <> [] -> nomatch r (St (last_or prev a1) (a2 ++ b) [])).
Proof.
  induction s as [|c s IH]; intros pre prev m H; cbn [search_from] in H.
  - destruct (mt r _ _) eqn:E; [|discriminate]. injection H as ->.
    apply mt_sound in E as (s' & Hm & Hs). injection Hs as <-.
    exists [], [], s'. split; [reflexivity|split; [exact Hm|split; [now rewrite app_nil_r|]]].
    intros a1 a2 Ha Hne. destruct a1, a2; try discriminate; congruence.
  - destruct (mt r _ _) eqn:E.
    + injection H as ->. apply mt_sound in E as (s' & Hm & Hs). injection Hs as <-.
      exists [], (c :: s), s'. split; [reflexivity|split; [exact Hm|split; [now rewrite app_nil_r|]]].
      intros a1 a2 Ha Hne. destruct a1, a2; try discriminate; congruence.
    + apply IH in H as (a & b & s' & -> & Hm & -> & Hn).
      exists (c :: a), b, s'. rewrite last_or_cons, <- app_assoc. repeat split; auto.
      intros [|d a1] a2 Ea Hne; cbn in Ea.
      * subst a2. rewrite last_or_nil. eapply mt_Some_nomatch; eauto.
      * injection Ea as <- ->. rewrite last_or_cons. eauto.
Qed.
Lemma search_from_None r : forall s pre prev, search_from r pre prev s = None ->
  forall a b, s = a ++ b -> nomatch r (St (last_or prev a) b []).
Proof.
  induction s as [|c s IH]; intros pre prev H a b E; cbn [search_from] in H.
  - destruct (mt r _ _) eqn:Em; [discriminate|]. symmetry in E. apply app_eq_nil in E as [-> ->].
    eapply mt_Some_nomatch; eauto.
  - destruct (mt r _ _) eqn:Em; [discriminate|]. destruct a as [|d a].
    + cbn in E. subst b. eapply mt_Some_nomatch; eauto.
    + injection E as <- ->. rewrite last_or_cons. eapply IH; eauto.
Qed.

Lemma mk_res_split pre rest u s : rest = u ++ s_rest s ->
  mk_res pre rest s = MRes pre u (s_rest s) (s_caps s).
Proof.
  intros ->. unfold mk_res. rewrite app_length.
  replace (List.length u + List.length (s_rest s) - List.length (s_rest s)) with (List.length u) by lia.
  now rewrite firstn_app, firstn_all, Nat.sub_diag, firstn_O, app_nil_r.
Qed.

Lemma mat_seq_inv r1 r2 s s' : mat (RSeq r1 r2) s s' -> exists s1, mat r1 s s1 /\ mat r2 s1 s'.
Proof. intros H. inversion H; subst. eauto. Qed.
Lemma mat_grp_inv n r s s' : mat (RGrp n r) s s' -> exists s1, mat r s s1 /\ s' = cap_add n s s1.
Proof. intros H. inversion H; subst. eauto. Qed.
Lemma mat_alt_inv r1 r2 s s' : mat (RAlt r1 r2) s s' -> mat r1 s s' \/ mat r2 s s'.
Proof. intros H. inversion H; subst; auto. Qed.
