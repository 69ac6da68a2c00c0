(** Legends and titles of static plots. *)
From Coq Require Import List Ascii String ZArith Bool Arith Lia Permutation.
From Verif Require Import Lib.PyStr Model.Governor Model.ILine Model.Layout Spec.Layout Proofs.LayoutP Model.Legend Spec.Legend.
Import ListNotations.
Local Open Scope list_scope.

(** ** List assignment *)
Lemma put_ok {A} i (x : A) l : (i < List.length l)%nat -> put i x l = Ok (firstn i l ++ x :: skipn (S i) l).
Proof. intros H. unfold put. destruct (Nat.ltb_spec i (List.length l)); [reflexivity|lia]. Qed.
Lemma put_inv {A} i (x : A) l l' : put i x l = Ok l' -> (i < List.length l)%nat /\ List.length l' = List.length l /\
  nth_error l' i = Some x /\ forall j, j <> i -> nth_error l' j = nth_error l j.
Proof.
  unfold put. destruct (Nat.ltb_spec i (List.length l)) as [H|H]; [|discriminate]. intros E. assert (E' : l' = firstn i l ++ x :: skipn (S i) l) by congruence. rewrite E'. clear E E'. split; [exact H|].
  assert (Hf : List.length (firstn i l) = i) by (rewrite firstn_length; lia). split.
  - rewrite app_length, Hf. cbn [List.length]. rewrite skipn_length. lia.
  - split.
    + rewrite nth_error_app2 by lia. rewrite Hf, Nat.sub_diag. reflexivity.
    + intros j Hj. destruct (Nat.lt_ge_cases j i) as [Hlt|Hge].
      * rewrite nth_error_app1 by lia. rewrite <- (firstn_skipn i l) at 2. rewrite nth_error_app1 by lia. reflexivity.
      * rewrite nth_error_app2 by lia. rewrite Hf. rewrite <- (firstn_skipn (S i) l) at 2. rewrite nth_error_app2 by (rewrite firstn_length; lia).
        rewrite firstn_length. replace (Nat.min (S i) (List.length l)) with (S i) by lia. replace (j - i)%nat with (S (j - S i)) by lia. reflexivity.
Qed.
Lemma put_err {A} i (x : A) l : (List.length l <= i)%nat -> put i x l = Err EIndex.
Proof. intros H. unfold put. destruct (Nat.ltb_spec i (List.length l)); [lia|reflexivity]. Qed.

Lemma len_put {A} i (x : A) l : (i < List.length l)%nat -> List.length (firstn i l ++ x :: skipn (S i) l) = List.length l.
Proof. intros H. apply (put_inv i x l). now apply put_ok. Qed.

Lemma last_any {A} (l : list A) : l <> [] -> forall x y, last l x = last l y.
Proof. induction l as [|a l IH]; [easy|]. intros _ x y. destruct l as [|b l]; auto. apply (IH ltac:(discriminate)). Qed.
Lemma last_cons {A} (x : A) l d : last l x = last (x :: l) d.
Proof. destruct l as [|a l]; auto. change (last (x :: a :: l) d) with (last (a :: l) d). now apply last_any. Qed.

(** ** Grouping *)
Lemma cell_eq a b : same_cell a b = true <-> a = b.
Proof. destruct a, b. unfold same_cell. cbn [fst snd]. rewrite andb_true_iff, !Z.eqb_eq. split; [intros [-> ->]; auto|intros [= -> ->]; auto]. Qed.
Lemma cell_neq a b : same_cell a b = false <-> a <> b.
Proof. rewrite <- cell_eq. destruct (same_cell a b); split; congruence. Qed.

Section Group.
  Context {A : Type}.
  Notation grp := (list (cell * list A)).
  Definition group (out : list (cell * A)) (g : grp) : grp := fold_left (fun g x => add_series (fst x) (snd x) g) out g.
  Lemma add_cells a (x : A) g : map fst (add_series a x g) = if existsb (same_cell a) (map fst g) then map fst g else map fst g ++ [a].
  Proof.
    induction g as [|[b xs] g IH]; cbn [add_series map fst existsb app]; auto. destruct (same_cell a b) eqn:E; cbn [orb map fst]; auto.
    rewrite IH. destruct (existsb (same_cell a) (map fst g)); reflexivity.
  Qed.
  Lemma add_nodup a (x : A) g : NoDup (map fst g) -> NoDup (map fst (add_series a x g)).
  Proof.
    intros H. rewrite add_cells. destruct (existsb (same_cell a) (map fst g)) eqn:E; auto.
    apply (Permutation_NoDup (l := a :: map fst g)); [apply Permutation_cons_append|]. constructor; auto. intros Hi.
    enough (existsb (same_cell a) (map fst g) = true) by congruence. apply existsb_exists. exists a. split; auto. now apply cell_eq.
  Qed.
  Lemma add_perm a (x : A) g : Permutation (flat_map snd (add_series a x g)) (x :: flat_map snd g).
  Proof.
    induction g as [|[b xs] g IH]; cbn [add_series flat_map snd app]; auto. destruct (same_cell a b); cbn [flat_map snd].
    - rewrite <- app_assoc. cbn [app]. symmetry. apply Permutation_middle.
    - rewrite IH. symmetry. apply Permutation_middle.
  Qed.
  Lemma add_pairs a (x : A) g : forall b y, (exists xs, In (b, xs) (add_series a x g) /\ In y xs) <-> (b = a /\ y = x) \/ exists xs, In (b, xs) g /\ In y xs.
  Proof.
    intros b y. induction g as [|[c xs] g IH]; cbn [add_series].
    - split.
      + intros (l & [[= <- <-]|[]] & [<- |[]]). auto.
      + intros [[-> ->]|(l & [] & _)]. exists [x]. split; left; reflexivity.
    - destruct (same_cell a c) eqn:E.
      + apply cell_eq in E. subst c. split.
        * intros (l & [[= <- <-]|Hi] & Hy); [apply in_app_iff in Hy as [Hy|[<- |[]]]; [right; exists xs; split; auto; now left|auto]|right; exists l; split; auto; now right].
        * intros [[-> ->]|(l & [[= <- <-]|Hi] & Hy)].
          -- exists (xs ++ [x]). split; [now left|]. apply in_app_iff. right. now left.
          -- exists (xs ++ [x]). split; [now left|]. apply in_app_iff. now left.
          -- exists l. split; auto. now right.
      + split.
        * intros (l & [[= <- <-]|Hi] & Hy); [right; exists xs; split; auto; now left|]. destruct (proj1 IH) as [?|(l' & H1 & H2)]; [eauto|auto|]. right. exists l'. split; auto. now right.
        * intros [H|(l & [[= <- <-]|Hi] & Hy)].
          -- destruct (proj2 IH (or_introl H)) as (l & H1 & H2). exists l. split; auto. now right.
          -- exists xs. split; auto. now left.
          -- destruct (proj2 IH (or_intror (ex_intro _ l (conj Hi Hy)))) as (l' & H1 & H2). exists l'. split; auto. now right.
  Qed.
  Lemma add_nonempty a (x : A) g : (forall b xs, In (b, xs) g -> xs <> []) -> forall b xs, In (b, xs) (add_series a x g) -> xs <> [].
  Proof.
    induction g as [|[c ys] g IH]; cbn [add_series]; intros H b xs.
    - intros [[= <- <-]|[]]. discriminate.
    - destruct (same_cell a c).
      + intros [[= <- <-]|Hi]; [destruct ys; discriminate|]. eapply H. right. exact Hi.
      + intros [[= <- <-]|Hi]; [eapply H; now left|]. eapply IH; [|exact Hi]. intros; eapply H. right. eassumption.
  Qed.
  Lemma group_nodup out : forall g, NoDup (map fst g) -> NoDup (map fst (group out g)).
  Proof. induction out as [|x out IH]; intros g H; cbn [group fold_left]; auto. apply IH. now apply add_nodup. Qed.
  Lemma group_perm out : forall g, Permutation (flat_map snd (group out g)) (flat_map snd g ++ map snd out).
  Proof.
    induction out as [|x out IH]; intros g; cbn [group fold_left map]; [now rewrite app_nil_r|]. fold (group out (add_series (fst x) (snd x) g)).
    rewrite IH, add_perm. cbn [app]. apply Permutation_middle.
  Qed.
  Lemma group_pairs out : forall g b y, (exists xs, In (b, xs) (group out g) /\ In y xs) <-> In (b, y) out \/ exists xs, In (b, xs) g /\ In y xs.
  Proof.
    induction out as [|[a x] out IH]; intros g b y; cbn [group fold_left].
    - split; [intros H; now right|intros [[]|H]; exact H].
    - fold (group out (add_series a x g)). cbn [fst snd]. rewrite IH, add_pairs. cbn [In]. split.
      + intros [H|[[-> ->]|H]]; auto.
      + intros [[[= <- <-]|H]|H]; auto.
  Qed.
  Lemma group_nonempty out : forall g, (forall b xs, In (b, xs) g -> xs <> []) -> forall b xs, In (b, xs) (group out g) -> xs <> [].
  Proof. induction out as [|x out IH]; intros g H; cbn [group fold_left]; auto. apply IH. intros b xs. now apply add_nonempty. Qed.

  (** The series of an axis, in order. *)
  Lemma add_content a (x : A) g b xs : In (b, xs) (add_series a x g) -> NoDup (map fst g) ->
    if same_cell a b then (exists ys, In (b, ys) g /\ xs = ys ++ [x]) \/ (~ In b (map fst g) /\ xs = [x]) else In (b, xs) g.
  Proof.
    induction g as [|[c ys] g IH]; cbn [add_series]; intros H HN.
    - destruct H as [[= <- <-]|[]]. rewrite (proj2 (cell_eq a a) eq_refl). right. split; [intros []|reflexivity].
    - cbn [map fst] in HN. inversion HN as [|? ? Hc HN']; subst. destruct (same_cell a c) eqn:E.
      + apply cell_eq in E. subst c. destruct H as [[= <- <-]|H].
        * rewrite (proj2 (cell_eq a a) eq_refl). left. exists ys. split; [now left|reflexivity].
        * replace (same_cell a b) with false; [now right|]. symmetry. apply cell_neq. intros ->. apply Hc. apply in_map_iff. exists (b, xs). auto.
      + destruct H as [[= <- <-]|H].
        * rewrite E. now left.
        * specialize (IH H HN'). destruct (same_cell a b) eqn:Eb; [|now right]. apply cell_eq in Eb. subst b. destruct IH as [(l & Hl & El)|[Hl El]].
          -- left. exists l. split; auto. now right.
          -- right. split; auto. cbn [map fst]. intros [->|Hi]; [|auto]. now rewrite (proj2 (cell_eq a a) eq_refl) in E.
  Qed.
  Lemma group_content out : forall g b xs, NoDup (map fst g) -> In (b, xs) (group out g) ->
    (exists ys, In (b, ys) g /\ xs = ys ++ map snd (filter (fun x => same_cell (fst x) b) out)) \/
    (~ In b (map fst g) /\ xs = map snd (filter (fun x => same_cell (fst x) b) out)).
  Proof.
    induction out as [|[a x] out IH]; intros g b xs HN H; cbn [group fold_left] in H.
    - left. exists xs. cbn. rewrite app_nil_r. auto.
    - fold (group out (add_series a x g)) in H. cbn [fst snd] in H. specialize (IH _ b xs (add_nodup a x g HN) H). cbn [filter fst].
      destruct IH as [(ys & Hy & E)|[Hn E]].
      + pose proof (add_content a x g b ys Hy HN) as Hc. destruct (same_cell a b).
        * cbn [map snd]. destruct Hc as [(l & Hl & El)|[Hl El]]; subst ys; [left; exists l; split; auto; rewrite E, <- app_assoc; reflexivity|right; auto].
        * left. eauto.
      + rewrite add_cells in Hn. destruct (same_cell a b) eqn:Eb.
        * apply cell_eq in Eb. subst b. destruct (existsb (same_cell a) (map fst g)) eqn:Ee.
          -- apply existsb_exists in Ee as (c & Hc & Ec). apply cell_eq in Ec. subst c. contradiction.
          -- exfalso. apply Hn. apply in_app_iff. right. now left.
        * right. split; auto. intros Hi. apply Hn. destruct (existsb (same_cell a) (map fst g)); auto. apply in_app_iff. now left.
  Qed.
  Lemma group_app o1 o2 g : group (o1 ++ o2) g = group o2 (group o1 g).
  Proof. unfold group. now rewrite fold_left_app. Qed.
  (** Series of other axes leave an axis alone. *)
  Lemma group_skip a xs out : forall g, (forall b x, In (b, x) out -> b <> a) -> group out ((a, xs) :: g) = (a, xs) :: group out g.
  Proof.
    induction out as [|[b x] out IH]; intros g H; cbn [group fold_left]; auto. cbn [fst snd add_series].
    rewrite (proj2 (cell_neq b a)) by (eapply H; left; reflexivity). apply IH. intros; eapply H; right; eassumption.
  Qed.
  Lemma group_same {B} a (T : B -> A) ps : forall xs g, group (map (fun p => (a, T p)) ps) ((a, xs) :: g) = (a, xs ++ map T ps) :: g.
  Proof.
    induction ps as [|p ps IH]; intros xs g; cbn [map group fold_left]; [now rewrite app_nil_r|]. cbn [fst snd add_series].
    rewrite (proj2 (cell_eq a a) eq_refl). fold (group (map (fun p => (a, T p)) ps)). unfold group in IH |- *. rewrite IH, <- app_assoc. reflexivity.
  Qed.
End Group.

Section Blocks.
  Context {A K B : Type} (f : K -> cell).
  Definition inj_on (ks : list K) : Prop := forall a b, In a ks -> In b ks -> f a = f b -> a = b.
  Lemma inj_tail k ks : inj_on (k :: ks) -> inj_on ks.
  Proof. intros H a b Ha Hb. apply H; now right. Qed.
  Lemma inj_head {X} k ks (T : K -> X) : NoDup (k :: ks) -> inj_on (k :: ks) -> forall b x, In (b, x) (map (fun q => (f q, T q)) ks) -> b <> f k.
  Proof.
    intros HN Hf b x Hi E. apply in_map_iff in Hi as (q & [= <- <-] & Hq). assert (q = k) by (apply Hf; auto; [now right|now left]). subst q.
    now inversion HN.
  Qed.
  Lemma block_first (T : K -> A) ks : NoDup ks -> inj_on ks -> group (map (fun k => (f k, T k)) ks) [] = map (fun k => (f k, [T k])) ks.
  Proof.
    induction ks as [|k ks IH]; intros HN Hf; auto. change (map (fun k => (f k, T k)) (k :: ks)) with ([(f k, T k)] ++ map (fun k => (f k, T k)) ks).
    rewrite group_app. cbn [group fold_left fst snd add_series]. rewrite group_skip by (eapply inj_head; eassumption). rewrite IH; [reflexivity|now inversion HN|eapply inj_tail; eassumption].
  Qed.
  Lemma block_next (S : K -> list A) (T : K -> A) ks : NoDup ks -> inj_on ks ->
    group (map (fun k => (f k, T k)) ks) (map (fun k => (f k, S k)) ks) = map (fun k => (f k, S k ++ [T k])) ks.
  Proof.
    induction ks as [|k ks IH]; intros HN Hf; auto. change (map (fun k => (f k, T k)) (k :: ks)) with ([(f k, T k)] ++ map (fun k => (f k, T k)) ks).
    rewrite group_app. cbn [map group fold_left fst snd add_series]. rewrite (proj2 (cell_eq _ _) eq_refl). rewrite group_skip by (eapply inj_head; eassumption).
    rewrite IH; [reflexivity|now inversion HN|eapply inj_tail; eassumption].
  Qed.
  Lemma blocks_next (T : B -> K -> A) ks bs : NoDup ks -> inj_on ks -> forall S : K -> list A,
    group (flat_map (fun b => map (fun k => (f k, T b k)) ks) bs) (map (fun k => (f k, S k)) ks) = map (fun k => (f k, S k ++ map (fun b => T b k) bs)) ks.
  Proof.
    intros HN Hf. induction bs as [|b bs IH]; intros S; cbn [flat_map map].
    - apply map_ext. intros k. now rewrite app_nil_r.
    - rewrite group_app, block_next, IH by auto. apply map_ext. intros k. now rewrite <- app_assoc.
  Qed.
  Lemma blocks (T : B -> K -> A) ks bs : NoDup ks -> inj_on ks -> bs <> [] ->
    group (flat_map (fun b => map (fun k => (f k, T b k)) ks) bs) [] = map (fun k => (f k, map (fun b => T b k) bs)) ks.
  Proof.
    intros HN Hf Hb. destruct bs as [|b bs]; [easy|]. cbn [flat_map]. rewrite group_app, block_first, blocks_next by auto. reflexivity.
  Qed.
  (** Each block on its own axis. *)
  Lemma own_blocks (T : K -> B -> A) ks ps : NoDup ks -> inj_on ks -> ps <> [] ->
    group (flat_map (fun k => map (fun p => (f k, T k p)) ps) ks) [] = map (fun k => (f k, map (T k) ps)) ks.
  Proof.
    intros HN Hf Hp. induction ks as [|k ks IH]; auto. cbn [flat_map map]. rewrite group_app. destruct ps as [|p ps]; [easy|].
    assert (E : group (map (fun p => (f k, T k p)) (p :: ps)) [] = [(f k, map (T k) (p :: ps))]).
    { change (map (fun p => (f k, T k p)) (p :: ps)) with ([(f k, T k p)] ++ map (fun p => (f k, T k p)) ps). rewrite group_app.
      cbn [group fold_left fst snd add_series]. apply (group_same (f k) (T k) ps [T k p] []). }
    rewrite E, group_skip.
    - f_equal. apply IH; [now inversion HN|eapply inj_tail; eassumption].
    - intros b x Hi Eb. apply in_flat_map in Hi as (q & Hq & Hi). apply in_map_iff in Hi as (p' & [= <- <-] & _).
      assert (q = k) by (apply Hf; auto; [now right|now left]). subst q. now inversion HN.
  Qed.
End Blocks.

(** ** Lines and legend *)
Section Lines.
  Context {P : Type} (peq : P -> P -> bool) (is_default : P -> bool) (plabel : P -> str) (columns : str).
  Notation plot_lines := (plot_lines peq is_default plabel columns).
  Notation plot_axes := (plot_axes peq is_default plabel columns).
  Notation label := (label_of is_default plabel columns).
  Notation title := (title_of is_default plabel).
  Definition has (cp : scon P * P) : bool := existsb (peq (snd cp)) (c_keys (s_con (fst cp))).
  Definition lines_from (i : nat) (series : list (scon P * P)) : list (line P) :=
    map (fun icp => Line (fst icp) (fst (snd icp)) (snd (snd icp))) (combine (seq i (List.length series)) series).
  Lemma lines_inv m series : forall i t lg ls t' lg', plot_lines m i series t lg = Ok (ls, t', lg') ->
    ls = lines_from i series /\ t' = last (map (fun cp => title m (fst cp) (snd cp)) series) t /\ forallb has series = true /\ List.length lg' = List.length lg /\
    (i + List.length series <= Nat.max i (List.length lg))%nat /\
    (forall n, In n ls -> nth_error lg' (n_colour n) = Some (Some (label m (n_con n) (n_pivot n)))) /\
    (forall j, (j < i \/ i + List.length series <= j)%nat -> nth_error lg' j = nth_error lg j).
  Proof.
    induction series as [|[c p] r IH]; intros i t lg ls t' lg' E; cbn [Legend.plot_lines] in E.
    - injection E as <- <- <-. cbn. repeat split; auto; try lia; easy.
    - destruct (existsb (peq p) (c_keys (s_con c))) eqn:Eh; [|discriminate]. destruct (put i (Some (label m c p)) lg) as [lg1|] eqn:Ep; [|discriminate].
      cbn [bind] in E. destruct (plot_lines m (S i) r (title m c p) lg1) as [[[ls1 t1] lg2]|] eqn:El; [|discriminate]. cbn [bind] in E. injection E as <- <- <-.
      apply put_inv in Ep as (Hi & Hl & Hp & Ho). apply IH in El as (E1 & E2 & E3 & E4 & E5 & E6 & E7). split; [|split; [|split; [|split; [|split; [|split]]]]].
      + unfold lines_from. cbn [List.length seq combine map fst snd]. f_equal. exact E1.
      + rewrite E2. cbn [map fst snd]. apply last_cons.
      + cbn [forallb]. unfold has at 1. cbn [fst snd]. now rewrite Eh.
      + congruence.
      + cbn [List.length]. lia.
      + intros n [<-|Hn]; [|now apply E6]. cbn [n_colour n_con n_pivot]. rewrite E7 by lia. exact Hp.
      + intros j Hj. cbn [List.length] in Hj. rewrite E7 by lia. apply Ho. lia.
  Qed.
  Lemma lines_ok m series : forall i t lg, forallb has series = true -> (i + List.length series <= List.length lg)%nat -> exists ls t' lg', plot_lines m i series t lg = Ok (ls, t', lg').
  Proof.
    induction series as [|[c p] r IH]; intros i t lg H Hl; cbn [Legend.plot_lines]; [eauto|]. cbn [forallb] in H. unfold has at 1 in H. cbn [fst snd] in H.
    apply andb_true_iff in H as [H1 H2]. rewrite H1. cbn [List.length] in Hl. rewrite put_ok by lia. cbn [bind].
    destruct (IH (S i) (title m c p) (firstn i lg ++ Some (label m c p) :: skipn (S i) lg) H2) as (ls & t' & lg' & E).
    { rewrite len_put; lia. }
    rewrite E. cbn [bind]. eauto.
  Qed.
  Lemma lines_long m series : forall i t lg, forallb has series = true -> (List.length lg < i + List.length series)%nat -> (i <= List.length lg)%nat -> plot_lines m i series t lg = Err EIndex.
  Proof.
    induction series as [|[c p] r IH]; intros i t lg H Hl Hi; cbn [Legend.plot_lines List.length] in *; [lia|]. unfold has at 1 in H. cbn [forallb fst snd] in H.
    apply andb_true_iff in H as [H1 H2]. unfold has in H1. cbn [fst snd] in H1. rewrite H1. destruct (Nat.eq_dec i (List.length lg)) as [->|Hne].
    - rewrite put_err by lia. reflexivity.
    - rewrite put_ok by lia. cbn [bind]. rewrite IH; auto; rewrite len_put; lia.
  Qed.
  Lemma axes_inv m g : forall lg axes lg', plot_axes m g lg = Ok (axes, lg') ->
    axes = map (fun x => Axis (fst x) (last (map (fun cp => title m (fst cp) (snd cp)) (snd x)) []) (lines_from 0 (snd x))) g /\
    forallb (fun x => forallb has (snd x)) g = true /\ List.length lg' = List.length lg /\
    (forall i s, nth_error lg' i = Some s -> (exists n, In n (drawn axes) /\ n_colour n = i /\ s = Some (label m (n_con n) (n_pivot n))) \/
                                             (nth_error lg i = Some s /\ forall n, In n (drawn axes) -> n_colour n <> i)) /\
    (forall n, In n (drawn axes) -> (n_colour n < List.length lg)%nat).
  Proof.
    induction g as [|[a series] g IH]; intros lg axes lg' E; cbn [Legend.plot_axes] in E.
    - injection E as <- <-. cbn. repeat split; auto. intros n [].
    - destruct (plot_lines m 0 series [] lg) as [[[ls t] lg1]|] eqn:El; [|discriminate]. cbn [bind] in E.
      destruct (plot_axes m g lg1) as [[axes1 lg2]|] eqn:Ea; [|discriminate]. cbn [bind fst snd] in E. injection E as <- <-.
      apply lines_inv in El as (E1 & E2 & E3 & E4 & E5 & E6 & E7). apply IH in Ea as (F1 & F2 & F3 & F4 & F5). cbn [Nat.add] in *.
      assert (Hc : forall n, In n ls -> (n_colour n < List.length series)%nat).
      { intros n Hn. rewrite E1 in Hn. apply in_map_iff in Hn as ([j cp] & <- & Hn). apply in_combine_l in Hn. apply in_seq in Hn. cbn [n_colour fst]. lia. }
      split; [|split; [|split; [|split]]].
      + cbn [map fst snd]. rewrite <- E1, <- E2, F1. reflexivity.
      + cbn [forallb snd]. rewrite E3. exact F2.
      + congruence.
      + intros i s Hs. unfold drawn. cbn [flat_map a_lines]. destruct (F4 i s Hs) as [(n & Hn & H1 & H2)|(H1 & H2)].
        * left. exists n. split; [apply in_app_iff; now right|auto].
        * destruct (Nat.lt_ge_cases i (List.length series)) as [Hlt|Hge].
          -- left. assert (Hx : exists n, In n ls /\ n_colour n = i).
             { destruct (nth_error series i) as [cp|] eqn:En; [|apply nth_error_None in En; lia]. exists (Line i (fst cp) (snd cp)). split; auto. rewrite E1. apply in_map_iff. exists (i, cp). split; auto.
               apply nth_error_In with (n := i). clear - En. assert (G : forall k j (series : list (scon P * P)), nth_error series j = Some cp -> nth_error (combine (seq k (List.length series)) series) j = Some ((k + j)%nat, cp)).
               { clear. intros k j. revert k. induction j as [|j IH]; intros k [|x l] E; try discriminate; cbn in *; [injection E as ->; now rewrite Nat.add_0_r|]. rewrite IH by exact E. do 2 f_equal. lia. }
               apply (G 0%nat i series En). }
             destruct Hx as (n & Hn & <-). exists n. split; [apply in_app_iff; now left|]. split; auto. rewrite (E6 n Hn) in H1. now injection H1.
          -- right. rewrite E7 in H1 by lia. split; auto. intros n Hn. apply in_app_iff in Hn as [Hn|Hn]; [apply Hc in Hn; lia|now apply H2].
      + intros n Hn. unfold drawn in Hn. cbn [flat_map a_lines] in Hn. apply in_app_iff in Hn as [Hn|Hn]; [apply Hc in Hn; lia|]. apply F5 in Hn. congruence.
  Qed.
  Lemma axes_ok m g : forall lg, (forall a series, In (a, series) g -> forallb has series = true /\ (List.length series <= List.length lg)%nat) ->
    exists axes lg', plot_axes m g lg = Ok (axes, lg').
  Proof.
    induction g as [|[a series] g IH]; intros lg H; cbn [Legend.plot_axes]; [eauto|]. destruct (H a series (or_introl eq_refl)) as [H1 H2].
    destruct (lines_ok m series 0 [] lg H1 H2) as (ls & t & lg1 & E). rewrite E. cbn [bind]. apply lines_inv in E as (_ & _ & _ & E4 & _).
    destruct (IH lg1) as (axes & lg2 & E2). { intros b s Hs. rewrite E4. eapply H. right. exact Hs. } rewrite E2. cbn [bind]. eauto.
  Qed.
  Lemma axes_long m g : forall lg, (forall a series, In (a, series) g -> forallb has series = true) -> (exists a series, In (a, series) g /\ (List.length lg < List.length series)%nat) ->
    plot_axes m g lg = Err EIndex.
  Proof.
    induction g as [|[a series] g IH]; intros lg H (b & s & Hi & Hs); [easy|]. cbn [Legend.plot_axes]. pose proof (H a series (or_introl eq_refl)) as H1.
    destruct (Nat.lt_ge_cases (List.length lg) (List.length series)) as [Hlt|Hge].
    - rewrite lines_long by (auto; lia). reflexivity.
    - destruct (lines_ok m series 0 [] lg H1 Hge) as (ls & t & lg1 & E). rewrite E. cbn [bind]. apply lines_inv in E as (_ & _ & _ & E4 & _).
      rewrite IH; [reflexivity|intros; eapply H; right; eassumption|]. exists b, s. destruct Hi as [[= -> ->]|Hi]; [lia|]. rewrite E4. auto.
  Qed.
  (** A series that is missing from a constraint. *)
  Lemma lines_missing m series : forall i t lg, forallb has series = false -> (i + List.length series <= List.length lg)%nat -> plot_lines m i series t lg = Err EKey.
  Proof.
    induction series as [|[c p] r IH]; intros i t lg H Hl; cbn [Legend.plot_lines]; [discriminate|]. cbn [forallb] in H. unfold has at 1 in H. cbn [fst snd] in H.
    destruct (existsb (peq p) (c_keys (s_con c))); [|reflexivity]. cbn [andb] in H. cbn [List.length] in Hl. rewrite put_ok by lia. cbn [bind].
    rewrite IH; auto. rewrite len_put; lia.
  Qed.
  Lemma axes_missing m g : forall lg, (forall a series, In (a, series) g -> (List.length series <= List.length lg)%nat) ->
    (exists a series, In (a, series) g /\ forallb has series = false) -> plot_axes m g lg = Err EKey.
  Proof.
    induction g as [|[a series] g IH]; intros lg Hl (b & s & Hi & Hs); [easy|]. cbn [Legend.plot_axes]. pose proof (Hl a series (or_introl eq_refl)) as H1.
    destruct (forallb has series) eqn:Eh; [|now rewrite lines_missing].
    destruct (lines_ok m series 0 [] lg Eh H1) as (ls & t & lg1 & E). rewrite E. cbn [bind]. apply lines_inv in E as (_ & _ & _ & E4 & _).
    rewrite IH; [reflexivity|intros; rewrite E4; eapply Hl; right; eassumption|]. exists b, s. destruct Hi as [[= -> ->]|Hi]; [congruence|]. auto.
  Qed.
  (** Axes with the same labels in the same order. *)
  Lemma axes_same m g labs : g <> [] -> (forall a series, In (a, series) g -> forallb has series = true /\ map (fun cp => label m (fst cp) (snd cp)) series = labs) ->
    plot_axes m g (repeat None (List.length labs)) =
      Ok (map (fun x => Axis (fst x) (last (map (fun cp => title m (fst cp) (snd cp)) (snd x)) []) (numbered (snd x))) g, map Some labs).
  Proof.
    intros Hg H. destruct (axes_ok m g (repeat None (List.length labs))) as (axes & lg & E).
    { intros a series Hi. destruct (H a series Hi) as [H1 H2]. split; auto. rewrite repeat_length, <- H2, map_length. lia. }
    rewrite E. apply axes_inv in E as (E1 & E2 & E3 & E4 & E5). rewrite repeat_length in *. f_equal. f_equal; [exact E1|].
    apply (nth_ext _ _ None None); [now rewrite map_length|]. intros i Hi. rewrite E3 in Hi.
    destruct (nth_error lg i) as [s|] eqn:En; [|apply nth_error_None in En; lia]. rewrite (nth_error_nth _ _ _ En).
    assert (Hd : forall n, In n (drawn axes) -> nth_error labs (n_colour n) = Some (label m (n_con n) (n_pivot n))).
    { intros n Hn. unfold drawn in Hn. rewrite E1 in Hn. apply in_flat_map in Hn as (ax & Ha & Hn). apply in_map_iff in Ha as ([a series] & <- & Ha). cbn [a_lines snd] in Hn.
      destruct (H a series Ha) as [_ <-]. clear - Hn. apply In_nth_error in Hn as (j & Hj). unfold lines_from in Hj. rewrite nth_error_map in Hj.
      destruct (nth_error (combine (seq 0 (List.length series)) series) j) as [[k cp]|] eqn:Ec; [|discriminate]. injection Hj as <-. cbn [n_colour n_con n_pivot fst snd].
      assert (G : forall k0 j (series : list (scon P * P)), nth_error (combine (seq k0 (List.length series)) series) j = Some (k, cp) -> k = (k0 + j)%nat /\ nth_error series j = Some cp).
      { clear. intros k0 j. revert k0. induction j as [|j IH]; intros k0 [|x l] E; try discriminate; cbn in *; [injection E as <- <-; split; auto; lia|]. apply IH in E as [-> E]. split; auto; lia. }
      apply G in Ec as [-> Ec]. cbn [Nat.add]. rewrite nth_error_map, Ec. reflexivity. }
    assert (Hl : exists n, In n (drawn axes) /\ n_colour n = i).
    { destruct g as [|[a series] g]; [easy|]. destruct (H a series (or_introl eq_refl)) as [_ Hm]. assert (Hlen : (i < List.length series)%nat) by (rewrite <- Hm, map_length in Hi; exact Hi).
      destruct (nth_error series i) as [cp|] eqn:Es; [|apply nth_error_None in Es; lia]. exists (Line i (fst cp) (snd cp)). split; auto. rewrite E1. unfold drawn. cbn [map flat_map a_lines snd]. apply in_app_iff. left.
      apply in_map_iff. exists (i, cp). split; auto. apply nth_error_In with (n := i). clear - Es.
      assert (G : forall k j (series : list (scon P * P)), nth_error series j = Some cp -> nth_error (combine (seq k (List.length series)) series) j = Some ((k + j)%nat, cp)).
      { clear. intros k j. revert k. induction j as [|j IH]; intros k [|x l] E; try discriminate; cbn in *; [injection E as ->; now rewrite Nat.add_0_r|]. rewrite IH by exact E. do 2 f_equal. lia. }
      apply (G 0%nat i series Es). }
    destruct (E4 i s En) as [(n & Hn & <- & ->)|[_ Hno]].
    - specialize (Hd n Hn). symmetry. apply nth_error_nth. rewrite nth_error_map, Hd. reflexivity.
    - destruct Hl as (n & Hn & Hc). now destruct (Hno n Hn).
  Qed.
End Lines.

(** ** The whole figure *)
Lemma mapM_enum {A X} (ax : nat -> X -> res A) (out : list (A * X)) : forall k,
  (forall i a x, nth_error out i = Some (a, x) -> ax (k + i)%nat x = Ok a) ->
  mapM (fun ix => let '(i, x) := ix in do a <- ax i x ;; Ok (a, x)) (enumerate k (map snd out)) = Ok out.
Proof.
  induction out as [|[a x] out IH]; intros k H; cbn [map enumerate mapM]; auto. cbn [snd]. specialize (H 0%nat a x eq_refl) as H0. rewrite Nat.add_0_r in H0. rewrite H0. cbn [bind].
  rewrite IH; [reflexivity|]. intros i b y E. replace (S k + i)%nat with (k + S i)%nat by lia. now apply H.
Qed.
Lemma mapM_enum_inv {A X} (ax : nat -> X -> res A) xs : forall k out,
  mapM (fun ix => let '(i, x) := ix in do a <- ax i x ;; Ok (a, x)) (enumerate k xs) = Ok out -> map snd out = xs.
Proof.
  induction xs as [|x xs IH]; intros k out E; cbn [enumerate mapM] in E; [now injection E as <-|]. destruct (ax k x) as [a|]; [|discriminate]. cbn [bind] in E.
  destruct (mapM _ (enumerate (S k) xs)) as [o|] eqn:E'; [|discriminate]. cbn [bind] in E. injection E as <-. cbn [map snd]. f_equal. eapply IH. exact E'.
Qed.
Lemma numbered_series {P} i (series : list (scon P * P)) : map (fun n => (n_con n, n_pivot n)) (lines_from i series) = series.
Proof. unfold lines_from. revert i. induction series as [|[c p] r IH]; intros i; cbn; f_equal. apply IH. Qed.
Lemma numbered_colours {P} i (series : list (scon P * P)) : map n_colour (lines_from i series) = seq i (List.length series).
Proof. unfold lines_from. revert i. induction series as [|[c p] r IH]; intros i; cbn; f_equal. apply IH. Qed.
Lemma numbered_length {P} i (series : list (scon P * P)) : List.length (lines_from i series) = List.length series.
Proof. unfold lines_from. rewrite map_length, combine_length, seq_length. lia. Qed.

Section Sorted.
  Context {P : Type}.
  Lemma insert_perm (c : scon P) l : Permutation (insert_con c l) (c :: l).
  Proof.
    induction l as [|d l IH]; cbn [insert_con]; auto. destruct (key_leb _ _); auto. rewrite IH. apply perm_swap.
  Qed.
  Lemma sort_perm (l : list (scon P)) : Permutation (sort_cons l) l.
  Proof. induction l as [|c l IH]; cbn; auto. rewrite insert_perm. now constructor. Qed.
End Sorted.

Section View.
  Context {P : Type} (peq : P -> P -> bool) (is_default : P -> bool) (plabel : P -> str) (columns : str).
  Notation view := (view peq is_default plabel columns).
  Notation label := (label_of is_default plabel columns).
  Notation title := (title_of is_default plabel).
  Notation hasp := (has peq).
  Definition wanted (m : mode) (cs : list (scon P)) (pivots : list P) : list (scon P * P) :=
    match m with MPermute => list_prod cs pivots | _ => filter hasp (list_prod cs pivots) end.
  Lemma prod_map (cs : list (scon P)) (pivots : list P) : list_prod cs pivots = flat_map (fun c => map (pair c) pivots) cs.
  Proof. induction cs as [|c cs IH]; cbn; auto. now rewrite IH. Qed.
  Lemma flat_perm {X Y} (f : X -> list Y) l l' : Permutation l l' -> Permutation (flat_map f l) (flat_map f l').
  Proof.
    induction 1 as [|x l l' H IH|x y l|l1 l2 l3 H1 IH1 H2 IH2]; cbn [flat_map]; auto; [now apply Permutation_app_head| |etransitivity; eassumption].
    rewrite !app_assoc. apply Permutation_app_tail, Permutation_app_comm.
  Qed.
  Lemma pairs_perm m cs pivots : Permutation (pairs_of peq m cs pivots) (wanted m cs pivots).
  Proof.
    assert (H : flat_map (fun c => map (pair c) (filter (fun p => existsb (peq p) (c_keys (s_con c))) pivots)) cs = filter hasp (list_prod cs pivots)).
    { rewrite prod_map. induction cs as [|c cs IH]; cbn [flat_map]; auto. rewrite filter_app, IH. f_equal. clear. induction pivots as [|p ps IH]; auto. cbn [map filter]. unfold has at 1. cbn [fst snd].
      destruct (existsb (peq p) (c_keys (s_con c))); cbn [map]; now rewrite IH. }
    destruct m; cbn [pairs_of wanted]; try (rewrite H; reflexivity). rewrite prod_map. apply flat_perm, sort_perm.
  Qed.
  Theorem figure_ok m per_line ntraces max_len cs pivots axes legend : view m per_line ntraces max_len cs pivots = Ok (axes, legend) ->
    InOrder axes /\ NoDup (map a_cell axes) /\
    Permutation (map (fun n => (n_con n, n_pivot n)) (drawn axes)) (wanted m cs pivots) /\
    (forall a ls n, In a axes -> a_lines a = ls ++ [n] -> a_title a = title m (n_con n) (n_pivot n)) /\
    Honest (label m) axes legend /\ (Explains (label m) axes legend <-> OneLabel (label m) axes).
  Proof.
    unfold Legend.view. destruct (mk_layout _ _) as [l|]; [|discriminate]. cbn [bind].
    set (ax := fun i (cp : scon P * P) => get_axis l (Z.of_nat match m with MConcat => c_trace (s_con (fst cp)) | _ => i end)).
    change (mapM _ (enumerate 0 (pairs_of peq m cs pivots))) with (mapM (fun ix => let '(i, x) := ix in do a <- ax i x ;; Ok (a, x)) (enumerate 0 (pairs_of peq m cs pivots))).
    destruct (mapM _ _) as [out|] eqn:Eo; [|discriminate]. apply mapM_enum_inv in Eo. cbn [bind]. intros E. change (fold_left _ out []) with (group out []) in E.
    apply axes_inv in E as (E1 & E2 & E3 & E4 & E5).
    assert (Hn : forall b xs, In (b, xs) (group out []) -> xs <> []) by (apply group_nonempty; intros ? ? []).
    split; [|split; [|split; [|split; [|split]]]].
    - intros a Ha. rewrite E1 in Ha. apply in_map_iff in Ha as ([b xs] & <- & Ha). cbn [a_lines snd fst]. rewrite numbered_length. split; [|apply numbered_colours].
      intros Hz. apply (f_equal (@List.length _)) in Hz. rewrite numbered_length in Hz. apply Hn in Ha. destruct xs; [easy|discriminate].
    - rewrite E1, map_map. cbn [a_cell]. apply group_nodup. constructor.
    - rewrite <- pairs_perm, <- Eo. pose proof (group_perm out []) as Hp. cbn [flat_map app] in Hp. rewrite <- Hp. rewrite E1. unfold drawn.
      apply Permutation_refl'. generalize (group out []). intros g. induction g as [|[b xs] g IH]; auto. etransitivity; [apply map_app|].
      change (flat_map snd ((b, xs) :: g)) with (xs ++ flat_map snd g). f_equal; [apply numbered_series|exact IH].
    - intros a ls n Ha El. rewrite E1 in Ha. apply in_map_iff in Ha as ([b xs] & <- & Ha). cbn [a_lines a_title snd] in *.
      assert (Hx : xs = map (fun n => (n_con n, n_pivot n)) ls ++ [(n_con n, n_pivot n)]).
      { rewrite <- (numbered_series 0 xs), El, map_app. reflexivity. }
      rewrite Hx, map_app. cbn [map fst snd]. apply last_last.
    - intros i s Hs. destruct (E4 i (Some s) Hs) as [(n & H1 & H2 & H3)|[H1 _]]; [exists n; split; auto; split; auto; congruence|].
      exfalso. apply nth_error_In in H1. apply repeat_spec in H1. discriminate.
    - assert (He : forall n, In n (drawn axes) -> exists n', In n' (drawn axes) /\ n_colour n' = n_colour n /\ nth_error legend (n_colour n) = Some (Some (label m (n_con n') (n_pivot n')))).
      { intros n Hd. pose proof (E5 n Hd) as Hlt. rewrite <- E3 in Hlt. destruct (nth_error legend (n_colour n)) as [s|] eqn:Es; [|apply nth_error_None in Es; lia].
        destruct (E4 _ _ Es) as [(n' & H1 & H2 & H3)|[_ H2]]; [exists n'; subst; auto|]. now destruct (H2 n Hd). }
      split.
      + intros H n n' Hd Hd' Ec. apply H in Hd. apply H in Hd'. rewrite Ec in Hd. congruence.
      + intros H n Hd. destruct (He n Hd) as (n' & H1 & H2 & H3). rewrite H3. do 2 f_equal. now apply H.
  Qed.

  (** One line of axes, as many series per block as axes. *)
  Lemma line_figure {B X} per_line (items : list X) (bs : list B) (T : B -> X -> scon P * P) l :
    (1 <= per_line)%Z -> items <> [] -> bs <> [] -> mk_layout per_line (Z.of_nat (List.length items)) = Ok l -> l_rows l = 1%Z \/ l_cols l = 1%Z ->
    exists cells out, List.length cells = List.length items /\ (forall k a, nth_error cells k = Some a -> ith_cell (l_rows l) (l_cols l) (Z.of_nat k) a) /\
      mapM (fun ix => let '(i, x) := ix in do a <- get_axis l (Z.of_nat i) ;; Ok (a, x)) (enumerate 0 (flat_map (fun b => map (T b) items) bs)) = Ok out /\
      group out [] = map (fun ax => (fst ax, map (fun b => T b (snd ax)) bs)) (combine cells items).
  Proof.
    intros Hl Hi Hb El Hline. set (n := List.length items) in *. assert (Hn : (1 <= Z.of_nat n)%Z) by (subst n; destruct items; [easy|cbn [List.length]; lia]).
    assert (G : good l) by exact (mk_good _ _ _ Hl Hn El).
    assert (Hsz : (l_rows l * l_cols l = Z.of_nat n)%Z).
    { destruct (mk_grid per_line _ Hl Hn) as (l' & El' & H1 & H2 & H3 & H4). assert (l' = l) by congruence. subst l'. destruct Hline as [E|E]; rewrite E in *; lia. }
    set (cellk := fun k : nat => match get_axis l (Z.of_nat k) with Ok a => a | Err _ => (0, 0)%Z end).
    assert (Hk : forall k, (k < n)%nat -> get_axis l (Z.of_nat k) = Ok (cellk k) /\ ith_cell (l_rows l) (l_cols l) (Z.of_nat k) (cellk k)).
    { intros k Hk. destruct (axis_ok l G (Z.of_nat k) ltac:(lia)) as (rc & Ea & Hc). unfold cellk. rewrite Ea. auto. }
    set (ks := combine (seq 0 n) items).
    assert (Hlk : List.length ks = n) by (unfold ks; rewrite combine_length, seq_length; lia).
    assert (Hkn : forall i kx, nth_error ks i = Some kx -> fst kx = i /\ nth_error items i = Some (snd kx) /\ (i < n)%nat).
    { intros i [k x] E. assert (i < n)%nat by (rewrite <- Hlk; apply nth_error_Some; congruence). unfold ks in E.
      assert (Gn : forall (items : list X) i j k x, nth_error (combine (seq j (List.length items)) items) i = Some (k, x) -> k = (j + i)%nat /\ nth_error items i = Some x).
      { clear. induction items as [|y l IH]; intros i j k x E; destruct i; try discriminate; cbn in E; [injection E as <- <-; split; [lia|reflexivity]|]. apply IH in E as [-> E]. split; [lia|exact E]. }
      apply Gn in E as [-> E]. auto. }
    exists (map cellk (seq 0 n)), (flat_map (fun b => map (fun kx => (cellk (fst kx), T b (snd kx))) ks) bs).
    split; [now rewrite map_length, seq_length|]. split; [|split].
    - intros k a E. rewrite nth_error_map in E. destruct (nth_error (seq 0 n) k) as [j|] eqn:Ej; [|discriminate]. injection E as <-.
      assert (Hkn' : (k < n)%nat) by (rewrite <- (seq_length n 0); apply nth_error_Some; congruence).
      apply (nth_error_nth _ _ 0%nat) in Ej. rewrite seq_nth in Ej by exact Hkn'. cbn in Ej. subst j. now apply Hk.
    - match goal with |- mapM _ (enumerate 0 ?L) = Ok ?out => replace L with (map snd out) end.
      + apply (mapM_enum (fun i _ => get_axis l (Z.of_nat i))). intros i a x E. cbn [Nat.add].
        apply (flat_nth (fun b kx => (cellk (fst kx), T b (snd kx)))) in E as (b & kx & E1 & E2 & [= -> ->]). rewrite Hlk in E2.
        apply Hkn in E2 as (E2 & _ & Hlt). rewrite E2. rewrite (at_wrap l G) by (auto; lia). rewrite Hsz, <- Nat2Z.inj_mod. now apply Hk.
      + rewrite !flat_map_concat_map, concat_map, map_map. f_equal. apply map_ext. intros b. rewrite map_map. cbn [snd]. unfold ks.
        clear. subst n. generalize 0%nat. induction items as [|x items IH]; intros k; cbn; f_equal. apply IH.
    - rewrite (blocks (fun kx => cellk (fst kx)) (fun b kx => T b (snd kx))); auto.
      + unfold ks. clear. generalize (seq 0 n) as ls. intros ls. clear n. revert items. induction ls as [|k ls IH]; intros [|x items]; cbn; f_equal. apply IH.
      + apply (NoDup_map_inv fst). unfold ks. replace (map fst (combine (seq 0 n) items)) with (seq 0 n); [apply seq_NoDup|].
        clear. subst n. generalize 0%nat. induction items as [|x items IH]; intros k; cbn; f_equal. apply IH.
      + intros x y Hx Hy E. apply In_nth_error in Hx as (i & Hx). apply In_nth_error in Hy as (j & Hy). pose proof (Hkn _ _ Hx) as (E1 & _ & L1). pose proof (Hkn _ _ Hy) as (E2 & _ & L2).
        rewrite E1, E2 in E. destruct (Hk i L1) as [_ C1]. destruct (Hk j L2) as [_ C2]. rewrite E in C1. pose proof (ith_inj _ _ _ _ _ C1 C2). assert (i = j) by lia. subst j. congruence.
  Qed.

  Lemma has_all (peq_eq : forall a b, peq a b = true <-> a = b) (c : scon P) p : In p (c_keys (s_con c)) -> existsb (peq p) (c_keys (s_con c)) = true.
  Proof. intros H. apply existsb_exists. exists p. split; auto. now apply peq_eq. Qed.
  Lemma pairs_full (peq_eq : forall a b, peq a b = true <-> a = b) m cs pivots : m <> MPermute -> (forall c, In c cs -> forall p, In p pivots -> In p (c_keys (s_con c))) ->
    pairs_of peq m cs pivots = flat_map (fun c => map (pair c) pivots) cs.
  Proof.
    intros Hm H. transitivity (flat_map (fun c => map (pair c) (filter (fun p => existsb (peq p) (c_keys (s_con c))) pivots)) cs); [now destruct m|]. clear Hm.
    induction cs as [|c cs IH]; cbn [flat_map]; auto. rewrite IH by (intros; apply H; auto; now right). f_equal. f_equal.
    assert (Hc : forall p, In p pivots -> In p (c_keys (s_con c))) by (intros; apply H; auto; now left). clear - Hc peq_eq.
    induction pivots as [|p ps IH]; auto. cbn [filter]. rewrite has_all by (auto; apply Hc; now left). f_equal. apply IH. intros. apply Hc. now right.
  Qed.
  Lemma combine_nonempty {X Y} (a : list X) (b : list Y) : List.length a = List.length b -> b <> [] -> combine a b <> [].
  Proof. destruct a, b; intros H Hb; cbn in *; try easy. Qed.
  Theorem normal_ok (peq_eq : forall a b, peq a b = true <-> a = b) per_line nt ml cs pivots l : (1 <= per_line)%Z -> cs <> [] -> pivots <> [] ->
    (forall c, In c cs -> forall p, In p pivots -> In p (c_keys (s_con c))) ->
    mk_layout per_line (Z.of_nat (List.length pivots)) = Ok l -> l_rows l = 1%Z \/ l_cols l = 1%Z ->
    exists cells, List.length cells = List.length pivots /\ (forall k a, nth_error cells k = Some a -> ith_cell (l_rows l) (l_cols l) (Z.of_nat k) a) /\
      view MNormal per_line nt ml cs pivots =
        Ok (map (fun ap => Axis (fst ap) (if is_default (snd ap) then [] else plabel (snd ap)) (numbered (map (fun c => (c, snd ap)) cs))) (combine cells pivots),
            map (fun c => Some (s_str c)) cs).
  Proof.
    intros Hl Hc Hp Hall El Hline. destruct (line_figure per_line pivots cs (fun c p => (c, p)) l Hl Hp Hc El Hline) as (cells & out & Hlen & Hcell & Eo & Eg).
    exists cells. split; [exact Hlen|]. split; [exact Hcell|]. unfold Legend.view. rewrite El. cbn [bind].
    rewrite (pairs_full peq_eq) by (auto; discriminate). change (fun c => map (pair c) pivots) with (fun c : scon P => map (fun p => (c, p)) pivots).
    cbv beta in Eo. rewrite Eo. cbn [bind]. unfold group in Eg. rewrite Eg.
    pose proof (axes_same peq is_default plabel columns MNormal (map (fun ax => (fst ax, map (fun b => (b, snd ax)) cs)) (combine cells pivots)) (map s_str cs)) as H.
    rewrite map_length in H. rewrite H.
    - rewrite !map_map. cbn [fst snd title_of]. f_equal. f_equal. apply map_ext_in. intros [a p] Hi. cbn [fst snd]. f_equal. rewrite map_map. cbn [fst snd].
      clear - Hc. induction cs as [|c cs IH]; [easy|]. destruct cs as [|c' cs]; auto. change (last (map _ (c :: c' :: cs)) []) with (last (map (fun _ : scon P => if is_default p then [] else plabel p) (c' :: cs)) []). apply IH. discriminate.
    - intros E. apply map_eq_nil in E. now apply (combine_nonempty cells pivots Hlen Hp).
    - intros a series Hi. apply in_map_iff in Hi as ([a' p] & [= <- <-] & Hi). apply in_combine_r in Hi. cbn [snd]. split.
      + apply forallb_forall. intros x Hx. apply in_map_iff in Hx as (c & <- & Hx). unfold has. cbn [fst snd]. apply has_all; auto.
      + rewrite map_map. reflexivity.
  Qed.
  (** With [permute]: constraints sorted by column, then by trace. *)
  Theorem permute_ok {A B} (peq_eq : forall a b, peq a b = true <-> a = b) per_line cs pivots (traces : list A) (cols : list B) (grid : B -> A -> scon P) (shown : B -> str) l :
    (1 <= per_line)%Z -> traces <> [] -> cols <> [] -> pivots <> [] ->
    sort_cons cs = flat_map (fun c => map (grid c) traces) cols ->
    (forall c t, In c cols -> In t traces -> s_template (grid c t) ++ $":" ++ s_column (grid c t) = shown c) ->
    (forall c, In c cs -> forall p, In p pivots -> In p (c_keys (s_con c))) ->
    mk_layout per_line (Z.of_nat (List.length pivots * List.length traces)) = Ok l -> l_rows l = 1%Z \/ l_cols l = 1%Z ->
    exists cells, List.length cells = (List.length traces * List.length pivots)%nat /\ (forall k a, nth_error cells k = Some a -> ith_cell (l_rows l) (l_cols l) (Z.of_nat k) a) /\
      view MPermute per_line (List.length traces) (List.length cols) cs pivots =
        Ok (map (fun atp => Axis (fst atp) (last (map (fun c => s_data (grid c (fst (snd atp)))) cols) []) (numbered (map (fun c => (grid c (fst (snd atp)), snd (snd atp))) cols)))
              (combine cells (list_prod traces pivots)),
            map (fun c => Some (shown c)) cols).
  Proof.
    intros Hl Ht Hc Hp Es Hs Hall El Hline. assert (Hi : list_prod traces pivots <> []) by (destruct traces, pivots; easy).
    assert (Hn : List.length (list_prod traces pivots) = (List.length pivots * List.length traces)%nat) by (rewrite prod_length; lia).
    rewrite <- Hn in El.
    destruct (line_figure per_line (list_prod traces pivots) cols (fun c tp => (grid c (fst tp), snd tp)) l Hl Hi Hc El Hline) as (cells & out & Hlen & Hcell & Eo & Eg).
    exists cells. split; [now rewrite Hlen, prod_length|]. split; [exact Hcell|]. unfold Legend.view. rewrite <- Hn, El. cbn [bind pairs_of]. rewrite Es.
    replace (flat_map (fun c => map (pair c) pivots) (flat_map (fun c => map (grid c) traces) cols)) with (flat_map (fun c => map (fun tp => (grid c (fst tp), snd tp)) (list_prod traces pivots)) cols).
    2: { clear. induction cols as [|c cols IH]; auto. cbn [flat_map]. rewrite flat_map_app, IH. f_equal. clear. induction traces as [|t ts IH]; auto. cbn [list_prod map flat_map]. rewrite map_app, map_map. now rewrite IH. }
    match goal with |- context [mapM ?f ?e] => replace (mapM f e) with (Ok out) by exact (eq_sym Eo) end. cbn [bind]. change (fold_left _ out []) with (group out []). rewrite Eg.
    assert (Hin : forall c t, In c cols -> In t traces -> In (grid c t) cs).
    { intros c t H1 H2. apply (Permutation_in _ (sort_perm cs)). rewrite Es. apply in_flat_map. exists c. split; auto. now apply in_map. }
    pose proof (axes_same peq is_default plabel columns MPermute (map (fun ax => (fst ax, map (fun b => (grid b (fst (snd ax)), snd (snd ax))) cols)) (combine cells (list_prod traces pivots))) (map shown cols)) as H.
    rewrite map_length in H. rewrite H.
    - rewrite !map_map. cbn [fst snd title_of]. f_equal. f_equal. apply map_ext. intros [a [t p]]. cbn [fst snd]. f_equal. rewrite map_map. reflexivity.
    - intros E. apply map_eq_nil in E. now apply (combine_nonempty cells _ Hlen Hi).
    - intros a series Hx. apply in_map_iff in Hx as ([a' [t p]] & [= <- <-] & Hx). apply in_combine_r in Hx. apply in_prod_iff in Hx as [Hx1 Hx2]. cbn [fst snd]. split.
      + apply forallb_forall. intros x Hx. apply in_map_iff in Hx as (c & <- & Hx). unfold has. cbn [fst snd]. apply has_all; auto.
      + rewrite map_map. cbn [fst snd label_of]. apply map_ext_in. intros c Hx. now apply Hs.
  Qed.

  Theorem permute_missing {A B} (peq_eq : forall a b, peq a b = true <-> a = b) per_line cs pivots (traces : list A) (cols : list B) (grid : B -> A -> scon P) l c p :
    (1 <= per_line)%Z -> sort_cons cs = flat_map (fun c => map (grid c) traces) cols ->
    In c cs -> In p pivots -> ~ In p (c_keys (s_con c)) ->
    mk_layout per_line (Z.of_nat (List.length pivots * List.length traces)) = Ok l -> l_rows l = 1%Z \/ l_cols l = 1%Z ->
    view MPermute per_line (List.length traces) (List.length cols) cs pivots = Err EKey.
  Proof.
    intros Hl Es Hcs Hpv Hno El Hline.
    assert (Hg : exists b t, In b cols /\ In t traces /\ c = grid b t).
    { apply (Permutation_in _ (Permutation_sym (sort_perm cs))) in Hcs. rewrite Es in Hcs. apply in_flat_map in Hcs as (b & Hb & Hcs). apply in_map_iff in Hcs as (t & <- & Ht). eauto. }
    destruct Hg as (b & t & Hb & Ht & ->).
    assert (Hc : cols <> []) by (intros ->; easy).
    assert (Hi : list_prod traces pivots <> []) by (intros E; apply (in_nil (a := (t, p))); rewrite <- E; now apply in_prod).
    assert (Hn : List.length (list_prod traces pivots) = (List.length pivots * List.length traces)%nat) by (rewrite prod_length; lia).
    rewrite <- Hn in El.
    destruct (line_figure per_line (list_prod traces pivots) cols (fun c tp => (grid c (fst tp), snd tp)) l Hl Hi Hc El Hline) as (cells & out & Hlen & _ & Eo & Eg).
    unfold Legend.view. rewrite <- Hn, El. cbn [bind pairs_of]. rewrite Es.
    replace (flat_map (fun c => map (pair c) pivots) (flat_map (fun c => map (grid c) traces) cols)) with (flat_map (fun c => map (fun tp => (grid c (fst tp), snd tp)) (list_prod traces pivots)) cols).
    2: { clear. induction cols as [|c cols IH]; auto. cbn [flat_map]. rewrite flat_map_app, IH. f_equal. clear. induction traces as [|t ts IH]; auto. cbn [list_prod map flat_map]. rewrite map_app, map_map. now rewrite IH. }
    match goal with |- context [mapM ?f ?e] => replace (mapM f e) with (Ok out) by exact (eq_sym Eo) end. cbn [bind]. change (fold_left _ out []) with (group out []). rewrite Eg.
    apply axes_missing.
    - intros a series Hx. apply in_map_iff in Hx as ([a' tp] & [= <- <-] & _). now rewrite map_length, repeat_length.
    - assert (Hx : exists a, In (a, (t, p)) (combine cells (list_prod traces pivots))).
      { assert (H : In (t, p) (list_prod traces pivots)) by now apply in_prod. clear - H Hlen. revert Hlen H. revert cells. generalize (list_prod traces pivots) as xs.
        induction xs as [|x xs IH]; intros [|a cells] L H; cbn in *; try easy. destruct H as [->|H]; [eauto|]. destruct (IH cells ltac:(lia) H) as [a' H']. eauto. }
      destruct Hx as [a Hx]. exists a, (map (fun b => (grid b t, p)) cols). split.
      + apply in_map_iff. exists (a, (t, p)). auto.
      + apply Bool.not_true_is_false. intros F. rewrite forallb_forall in F. specialize (F (grid b t, p)). unfold has in F. cbn [fst snd] in F.
        assert (E : existsb (peq p) (c_keys (s_con (grid b t))) = true) by (apply F; apply in_map_iff; eauto).
        apply existsb_exists in E as (q & Hq & E). apply peq_eq in E. now subst q.
  Qed.

  (** With [concat]. *)
  Lemma concat_out per_line cs (pivots : list P) : (1 <= per_line)%Z -> cs <> [] -> (forall c, In c cs -> (c_trace (s_con c) < List.length cs)%nat) ->
    exists l (f : scon P -> cell), mk_layout per_line (Z.of_nat (List.length cs)) = Ok l /\
      (forall c, In c cs -> get_axis l (Z.of_nat (c_trace (s_con c))) = Ok (f c) /\ ith_cell (l_rows l) (l_cols l) (Z.of_nat (c_trace (s_con c))) (f c)) /\
      forall c c', In c cs -> In c' cs -> (f c = f c' <-> c_trace (s_con c) = c_trace (s_con c')).
  Proof.
    intros Hl Hc Ht. assert (Hn : (1 <= Z.of_nat (List.length cs))%Z) by (destruct cs; [easy|cbn [List.length]; lia]).
    destruct (mk_grid per_line _ Hl Hn) as (l & El & H1 & H2 & H3 & H4). assert (G : good l) by exact (mk_good _ _ _ Hl Hn El).
    set (f := fun c : scon P => match get_axis l (Z.of_nat (c_trace (s_con c))) with Ok a => a | Err _ => (0, 0)%Z end).
    assert (Hf : forall c, In c cs -> get_axis l (Z.of_nat (c_trace (s_con c))) = Ok (f c) /\ ith_cell (l_rows l) (l_cols l) (Z.of_nat (c_trace (s_con c))) (f c)).
    { intros c Hi. specialize (Ht c Hi). destruct (axis_ok l G (Z.of_nat (c_trace (s_con c))) ltac:(lia)) as (rc & Ea & Hcell). unfold f. rewrite Ea. auto. }
    exists l, f. split; [exact El|]. split; [exact Hf|]. intros c c' Hi Hi'. split.
    - intros E. destruct (Hf c Hi) as [_ C1]. destruct (Hf c' Hi') as [_ C2]. rewrite E in C1. pose proof (ith_inj _ _ _ _ _ C1 C2). lia.
    - intros E. unfold f. now rewrite E.
  Qed.
  Lemma concat_mapM l (f : scon P -> cell) cs (pivots : list P) : (forall c, In c cs -> get_axis l (Z.of_nat (c_trace (s_con c))) = Ok (f c)) ->
    mapM (fun icp => let '(i, cp) := icp in do a <- get_axis l (Z.of_nat (c_trace (s_con (fst cp)))) ;; Ok (a, cp)) (enumerate 0 (flat_map (fun c => map (pair c) pivots) cs)) =
      Ok (flat_map (fun c => map (fun p => (f c, (c, p))) pivots) cs).
  Proof.
    intros H. replace (flat_map (fun c => map (pair c) pivots) cs) with (map snd (flat_map (fun c => map (fun p => (f c, (c, p))) pivots) cs)).
    - apply (mapM_enum (fun (i : nat) (cp : scon P * P) => get_axis l (Z.of_nat (c_trace (s_con (fst cp)))))). intros i a x E. apply nth_error_In in E. apply in_flat_map in E as (c & Hc & E).
      apply in_map_iff in E as (p & [= <- <-] & _). cbn [fst]. now apply H.
    - rewrite !flat_map_concat_map, concat_map, map_map. f_equal. apply map_ext. intros c. rewrite map_map. reflexivity.
  Qed.
  Theorem concat_ok (peq_eq : forall a b, peq a b = true <-> a = b) per_line nt ml cs pivots : (1 <= per_line)%Z -> cs <> [] -> pivots <> [] ->
    (forall c, In c cs -> forall p, In p pivots -> In p (c_keys (s_con c))) ->
    (forall c, In c cs -> (c_trace (s_con c) < List.length cs)%nat) -> NoDup (map (fun c => c_trace (s_con c)) cs) ->
    exists l cells, mk_layout per_line (Z.of_nat (List.length cs)) = Ok l /\
      Forall2 (fun c a => ith_cell (l_rows l) (l_cols l) (Z.of_nat (c_trace (s_con c))) a) cs cells /\
      view MConcat per_line nt ml cs pivots =
        Ok (map (fun ac => Axis (fst ac) (s_str (snd ac)) (numbered (map (pair (snd ac)) pivots))) (combine cells cs),
            map (fun p => Some (if is_default p then columns else plabel p)) pivots).
  Proof.
    intros Hl Hc Hp Hall Ht HN. destruct (concat_out per_line cs pivots Hl Hc Ht) as (l & f & El & Hf & Hinj). exists l, (map f cs). split; [exact El|]. split.
    - assert (Hx : forall c, In c cs -> ith_cell (l_rows l) (l_cols l) (Z.of_nat (c_trace (s_con c))) (f c)) by (intros; now apply Hf).
      clear - Hx. induction cs as [|c cs IH]; cbn [map]; constructor; [apply Hx; now left|]. apply IH. intros. apply Hx. now right.
    - unfold Legend.view. rewrite El. cbn [bind]. rewrite (pairs_full peq_eq) by (auto; discriminate). rewrite (concat_mapM l f) by (intros; now apply Hf). cbn [bind].
      change (fold_left _ ?out []) with (group out []). rewrite (own_blocks f (fun c p => (c, p))); auto.
      + pose proof (axes_same peq is_default plabel columns MConcat (map (fun c => (f c, map (pair c) pivots)) cs) (map (fun p => if is_default p then columns else plabel p) pivots)) as H.
        rewrite map_length in H. cbv beta. change (fun k => (f k, map (fun p => (k, p)) pivots)) with (fun c : scon P => (f c, map (pair c) pivots)). rewrite H.
        * rewrite !map_map. f_equal. f_equal. clear - Hp. induction cs as [|c cs IH]; cbn [map combine]; auto. f_equal; [|exact IH]. cbn [fst snd title_of]. f_equal.
          rewrite map_map. cbn [fst snd]. clear - Hp. induction pivots as [|p ps IH]; [easy|]. destruct ps as [|p' ps]; auto.
          change (last (map _ (p :: p' :: ps)) []) with (last (map (fun _ : P => s_str c) (p' :: ps)) []). apply IH. discriminate.
        * intros E. apply map_eq_nil in E. now destruct cs.
        * intros a series Hi. apply in_map_iff in Hi as (c & [= <- <-] & Hi). split.
          -- apply forallb_forall. intros x Hx. apply in_map_iff in Hx as (p & <- & Hx). unfold has. cbn [fst snd]. apply has_all; auto.
          -- rewrite map_map. reflexivity.
      + eapply NoDup_map_inv. exact HN.
      + intros c c' Hi Hi' E. apply Hinj in E; auto. clear - HN Hi Hi' E. induction cs as [|d cs IH]; [easy|]. cbn [map] in HN. inversion HN as [|? ? Hd HN']; subst.
        destruct Hi as [<-|Hi], Hi' as [<-|Hi']; auto; exfalso; apply Hd; [rewrite E|rewrite <- E]; now apply (in_map (fun c => c_trace (s_con c))).
  Qed.
  Theorem concat_shared (peq_eq : forall a b, peq a b = true <-> a = b) per_line nt ml l1 c l2 c' l3 pivots : (1 <= per_line)%Z -> pivots <> [] ->
    (forall x, In x (l1 ++ c :: l2 ++ c' :: l3) -> forall p, In p pivots -> In p (c_keys (s_con x))) ->
    (forall x, In x (l1 ++ c :: l2 ++ c' :: l3) -> (c_trace (s_con x) < List.length (l1 ++ c :: l2 ++ c' :: l3))%nat) ->
    c_trace (s_con c) = c_trace (s_con c') ->
    view MConcat per_line nt ml (l1 ++ c :: l2 ++ c' :: l3) pivots = Err EIndex.
  Proof.
    set (cs := l1 ++ c :: l2 ++ c' :: l3). intros Hl Hp Hall Ht Hsame. assert (Hc : cs <> []) by (unfold cs; destruct l1; discriminate).
    destruct (concat_out per_line cs pivots Hl Hc Ht) as (l & f & El & Hf & Hinj). unfold Legend.view. rewrite El. cbn [bind].
    rewrite (pairs_full peq_eq) by (auto; discriminate). rewrite (concat_mapM l f) by (intros; now apply Hf). cbn [bind].
    set (out := flat_map (fun c => map (fun p => (f c, (c, p))) pivots) cs). change (fold_left _ out []) with (group out []). apply axes_long.
    - intros a series Hi. apply forallb_forall. intros [x p] Hx. assert (Ho : In (a, (x, p)) out).
      { destruct (proj1 (group_pairs out [] a (x, p))) as [Ho|(ys & [] & _)]; [exists series; auto|exact Ho]. }
      unfold out in Ho. apply in_flat_map in Ho as (y & Hy & Ho). apply in_map_iff in Ho as (q & [= <- <- <-] & Hq). unfold has. cbn [fst snd]. apply has_all; auto.
    - rewrite repeat_length. assert (Ic : In c cs) by (unfold cs; apply in_app_iff; right; now left).
      assert (Ic' : In c' cs) by (unfold cs; apply in_app_iff; right; right; apply in_app_iff; right; now left).
      assert (Ef : f c = f c') by (now apply Hinj). destruct pivots as [|p0 ps]; [easy|]. set (pivots := p0 :: ps) in *.
      assert (Ho : In (f c, (c, p0)) out) by (unfold out; apply in_flat_map; exists c; split; [exact Ic|now left]).
      destruct (proj2 (group_pairs out [] (f c) (c, p0)) (or_introl Ho)) as (xs & Hi & _). exists (f c), xs. split; [exact Hi|].
      destruct (group_content out [] _ _ (NoDup_nil _) Hi) as [(ys & [] & _)|[_ ->]]. rewrite map_length.
      assert (Hb : forall x, f x = f c -> filter (fun y => same_cell (fst y) (f c)) (map (fun p => (f x, (x, p))) pivots) = map (fun p => (f x, (x, p))) pivots).
      { intros x Ex. generalize pivots. intros ps'. induction ps' as [|q qs IH]; auto. cbn [map filter fst]. rewrite (proj2 (cell_eq _ _) Ex). now rewrite IH. }
      unfold out, cs. rewrite flat_map_app. cbn [flat_map]. rewrite flat_map_app. cbn [flat_map]. rewrite !filter_app, (Hb c eq_refl), (Hb c' (eq_sym Ef)). rewrite !app_length, !map_length.
      unfold pivots. cbn [List.length]. lia.
  Qed.
End View.
