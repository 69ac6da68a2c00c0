(** Names of constraints. *)
From Coq Require Import List Ascii String ZArith NArith Bool Arith Lia Sorted Permutation.
From Verif Require Import Lib.PyStr Lib.PyStrFacts Spec.Lines Model.ILine Model.Layout Model.Legend Spec.Legend Proofs.SystraceP Proofs.SignalsP Lib.TotalOrder Model.Governor Proofs.GovernorP.
Import ListNotations.
Local Open Scope list_scope.

Lemma str_of_N_lead n r : str_of_N n = "0"%char :: r -> r = [].
Proof.
  intros E. destruct n as [|p]; [now injection E as <-|].
  destruct (fmt_fuel_lead 10 (S (N.size_nat (Npos p))) (Npos p)) as (d & r' & E' & Hd & Hd'); try lia; [apply size_nat_bound|].
  unfold str_of_N, fmt_base in E. rewrite E' in E. injection E as E _. pose proof (digit_char_not0 d ltac:(lia)) as H. rewrite E in H. discriminate (H ltac:(lia)).
Qed.
Lemma numbered_name word i : Numbered word i (word ++ $" " ++ str_of_nat i).
Proof.
  exists (str_of_nat i). split; [reflexivity|]. unfold str_of_nat. split; [apply str_of_N_digits'|]. split; [apply dec_val_str|]. intros r. apply str_of_N_lead.
Qed.
Lemma data_ok name i : DataName name i (data_name name i).
Proof.
  destruct name as [[|x n]|]; cbn [DataName data_name].
  - right. split; auto. exact (numbered_name $"Trace" i).
  - left. split; [discriminate|reflexivity].
  - exact (numbered_name $"DataFrame" i).
Qed.
Lemma shown_ok name i t c : Shown name i t c (constraint_str name i t c).
Proof.
  exists (data_name name i). split; [apply data_ok|]. destruct name as [n|]; cbn [constraint_str]; [|reflexivity]. now rewrite <- !app_assoc.
Qed.
Lemma colon_inj (a a' b b' : str) : ~ In ":"%char a -> ~ In ":"%char a' -> a ++ $":" ++ b = a' ++ $":" ++ b' -> a = a' /\ b = b'.
Proof.
  revert a'. induction a as [|x a IH]; intros [|y a'] H H' E; cbn in E; try (injection E as E1 E2).
  - injection E as ->. auto.
  - subst y. exfalso. apply H'. now left.
  - subst x. exfalso. apply H. now left.
  - destruct (IH a') as [-> ->]; [intros Hi; apply H; now right|intros Hi; apply H'; now right|exact E2|]. now subst.
Qed.
Lemma data_no_colon name i : (forall n, name = Some n -> ~ In ":"%char n) -> ~ In ":"%char (data_name name i).
Proof.
  intros H. destruct name as [[|x n]|]; cbn [data_name]; [| now apply H |]; rewrite in_app_iff; intros [Hi|Hi];
    try (apply (str_of_N_no ":"%char (N.of_nat i)) in Hi; [exact Hi|reflexivity]); vm_compute in Hi; repeat (destruct Hi as [Hi|Hi]; [discriminate|]); exact Hi.
Qed.
Lemma str_distinct name name' i i' t t' c c' :
  (forall n, name = Some n -> ~ In ":"%char n) -> (forall n, name' = Some n -> ~ In ":"%char n) -> ~ In ":"%char t -> ~ In ":"%char t' -> ~ In ":"%char c -> ~ In ":"%char c' ->
  constraint_str name i t c = constraint_str name' i' t' c' ->
  c = c' /\ data_name name i = data_name name' i' /\ ((name = None /\ name' = None) \/ (name <> None /\ name' <> None /\ t = t')).
Proof.
  intros Hn Hn' Ht Ht' Hc Hc' E. pose proof (data_no_colon name i Hn) as D. pose proof (data_no_colon name' i' Hn') as D'.
  destruct name as [n|], name' as [n'|]; cbn [constraint_str] in E; apply colon_inj in E as [E1 E2]; auto.
  - apply colon_inj in E2 as [E2 E3]; auto. split; auto. split; auto. right. repeat split; auto; discriminate.
  - exfalso. apply Hc'. rewrite <- E2. apply in_app_iff. right. now left.
  - exfalso. apply Hc. rewrite E2. apply in_app_iff. right. now left.
Qed.
Lemma unnamed_index i i' : data_name (Some []) i = data_name (Some []) i' -> i = i'.
Proof. cbn [data_name]. intros E. apply app_inv_head in E. now apply str_of_nat_inj. Qed.
Lemma frame_index i i' : data_name None i = data_name None i' -> i = i'.
Proof. cbn [data_name]. intros E. apply app_inv_head in E. now apply str_of_nat_inj. Qed.
Lemma numbers_distinct i i' : (data_name (Some []) i = data_name (Some []) i' -> i = i') /\ (data_name None i = data_name None i' -> i = i').
Proof. split; [apply unnamed_index|apply frame_index]. Qed.

(** ** The order of the constraints *)
Lemma alpha_iff a : forall b, str_leb a b = true <-> Alpha a b.
Proof.
  induction a as [|x a IH]; intros [|y b]; cbn [str_leb].
  - split; auto. constructor.
  - split; auto. constructor.
  - split; [discriminate|inversion 1].
  - rewrite orb_true_iff, andb_true_iff, N.ltb_lt, N.eqb_eq, IH. split.
    + intros [H|[E H]]; [now apply A_lt|]. apply code_inj in E as ->. now apply A_eq.
    + inversion 1; subst; auto.
Qed.
Section Order.
  Context {P : Type}.
  Implicit Types c d : scon P.
  Lemma key_leb_total : total_order key_leb.
  Proof.
    pose proof str_leb_total as [Ht Ha Hr]. unfold key_leb. split.
    - intros [a1 a2] [b1 b2]. cbn [fst snd]. rewrite (eqs_sym b1 a1). destruct (eqs a1 b1); auto.
    - intros [a1 a2] [b1 b2]. cbn [fst snd]. rewrite (eqs_sym b1 a1). destruct (eqs a1 b1) eqn:E.
      + apply eqs_eq in E as ->. intros. f_equal. auto.
      + intros H1 H2. apply eqs_neq in E. now destruct (E (Ha _ _ H1 H2)).
    - intros [a1 a2] [b1 b2] [c1 c2]. cbn [fst snd]. destruct (eqs a1 b1) eqn:E1.
      + apply eqs_eq in E1 as ->. destruct (eqs b1 c1); eauto.
      + destruct (eqs b1 c1) eqn:E2.
        * apply eqs_eq in E2 as ->. rewrite E1. auto.
        * intros H1 H2. destruct (eqs a1 c1) eqn:E3; eauto. apply eqs_eq in E3 as ->. exfalso. apply eqs_neq in E1. apply E1. auto.
  Qed.
  Definition kle c d : Prop := key_leb (sort_key c) (sort_key d) = true.
  Lemma insert_perm c l : Permutation (insert_con c l) (c :: l).
  Proof.
    induction l as [|d l IH]; auto. cbn [insert_con]. destruct (key_leb _ _); auto. rewrite IH. apply perm_swap.
  Qed.
  Lemma sort_perm (l : list (scon P)) : Permutation (sort_cons l) l.
  Proof. induction l as [|c l IH]; auto. cbn [sort_cons fold_right]. rewrite insert_perm. now apply perm_skip. Qed.
  Lemma insert_sorted c l : StronglySorted kle l -> StronglySorted kle (insert_con c l).
  Proof.
    destruct key_leb_total as [Ht _ Hr]. induction 1 as [|d l Hs IH Hf]; cbn [insert_con]; [repeat constructor|].
    destruct (key_leb (sort_key c) (sort_key d)) eqn:E.
    - constructor; [now constructor|]. constructor; auto. eapply Forall_impl; [|exact Hf]. intros x Hx. eapply Hr; eauto.
    - constructor; auto. rewrite Forall_forall in *. intros x Hx. apply (Permutation_in _ (insert_perm c l)) in Hx as [<- |Hx]; auto.
      destruct (Ht (sort_key c) (sort_key d)) as [H|H]; [congruence|exact H].
  Qed.
  Lemma sort_sorted (l : list (scon P)) : StronglySorted kle (sort_cons l).
  Proof. induction l as [|c l IH]; [constructor|]. cbn [sort_cons fold_right]. now apply insert_sorted. Qed.
  Definition Plain c : Prop :=
    (forall n, s_name c = Some n -> ~ In ":"%char n) /\ ~ In ":"%char (s_column c).
  Lemma last_split (d x : str) : ~ In ":"%char x -> last (split_ch ":"%char (d ++ ":"%char :: x)) [] = x.
  Proof.
    intros Hx. induction d as [|y d IH].
    - cbn [app split_ch]. rewrite Ascii.eqb_refl, split_ch_nosep by auto. reflexivity.
    - cbn [app split_ch]. destruct (Ascii.eqb y ":"%char).
      + destruct (split_ch ":"%char (d ++ ":"%char :: x)) eqn:E; [now apply split_ch_nonnil in E|]. exact IH.
      + destruct (split_ch ":"%char (d ++ ":"%char :: x)) as [|w [|w2 ws]] eqn:E; [now apply split_ch_nonnil in E| |exact IH].
        exfalso. clear IH. pose proof (join_split_ch ":"%char (d ++ ":"%char :: x)) as J. rewrite E in J. cbn in J.
        pose proof (split_ch_pieces ":"%char (d ++ ":"%char :: x)) as F. rewrite E in F. inversion F as [|? ? F1 _]; subst.
        apply F1. apply in_app_iff. right. now left.
  Qed.
  Lemma key_plain c : Plain c -> sort_key c = (s_column c, s_data c).
  Proof.
    intros [Hn Hc]. unfold sort_key, s_str, s_data. cbv zeta. pose proof (data_no_colon (s_name c) (c_trace (s_con c)) Hn) as Hd.
    destruct (s_name c) as [n|] eqn:E; cbn [constraint_str].
    - change ($":") with [":"%char]. cbn [app]. f_equal.
      + rewrite app_comm_cons, app_assoc. now apply last_split.
      + now rewrite split_ch_app by auto.
    - change ($":") with [":"%char]. cbn [app]. f_equal; [now apply last_split|]. now rewrite split_ch_app by auto.
  Qed.
  Lemma kle_plain c d : Plain c -> Plain d -> kle c d -> Earlier c d.
  Proof.
    intros Hc Hd. unfold kle, Earlier, key_leb. rewrite (key_plain c Hc), (key_plain d Hd). cbn [fst snd].
    destruct (eqs (s_column c) (s_column d)) eqn:E; rewrite alpha_iff; [apply eqs_eq in E|apply eqs_neq in E]; auto.
  Qed.
  Lemma order_ok (cs : list (scon P)) : (forall c, In c cs -> Plain c) -> StronglySorted Earlier (sort_cons cs).
  Proof.
    intros H. assert (H' : Forall Plain (sort_cons cs)).
    { apply Forall_forall. intros c Hc. apply H. eapply Permutation_in; [apply sort_perm|exact Hc]. }
    pose proof (sort_sorted cs) as Hs. induction Hs as [|c l Hs IH Hf]; [constructor|]. inversion H'; subst. constructor; auto.
    rewrite Forall_forall in *. intros d Hd. apply kle_plain; auto.
  Qed.
  Lemma stable_ok (cs : list (scon P)) (col d : str) : (forall c, In c cs -> Plain c) ->
    let same c := eqs (s_column c) col && eqs (s_data c) d in filter same (sort_cons cs) = filter same cs.
  Proof.
    intros H same. induction cs as [|c cs IH]; auto. cbn [sort_cons fold_right].
    assert (Hc : Plain c) by (apply H; now left). assert (Hcs : Forall Plain (sort_cons cs)).
    { apply Forall_forall. intros x Hx. apply H. right. eapply Permutation_in; [apply sort_perm|exact Hx]. }
    transitivity (filter same (c :: sort_cons cs)); [|cbn [filter]; now rewrite IH by (intros; apply H; now right)].
    change (fold_right insert_con [] cs) with (sort_cons cs). clear IH. induction (sort_cons cs) as [|x l IHl]; auto.
    inversion Hcs as [|? ? Hx Hl]; subst. cbn [insert_con]. destruct (key_leb (sort_key c) (sort_key x)) eqn:E; auto.
    cbn [filter] in *. rewrite IHl by auto. destruct (same c) eqn:Ec; auto. destruct (same x) eqn:Ex; auto. exfalso.
    unfold same in Ec, Ex. apply andb_true_iff in Ec as [A B], Ex as [A' B']. apply eqs_eq in A, B, A', B'.
    assert (K : sort_key c = sort_key x) by (rewrite !key_plain by auto; congruence). rewrite K in E.
    destruct key_leb_total as [Ht _ _]. destruct (Ht (sort_key x) (sort_key x)); congruence.
  Qed.
End Order.
