(** ConstraintManager: expansion and pivots. *)
From Coq Require Import List Ascii String ZArith Bool Sorted Permutation Lia Arith.
From Verif Require Import Lib.PyStr Lib.PyStrFacts Lib.TotalOrder Model.Stats Model.Constraint Spec.Constraint.
Import ListNotations.
Local Open Scope list_scope.

Lemma only_one {X} (l : list X) i x y : nth_or_only l i x -> nth_or_only l i y -> x = y.
Proof.
  unfold nth_or_only. intros [H|H] [H'|H']; try congruence.
  - rewrite H in H'. apply nth_error_In in H' as [|[]]. auto.
  - rewrite H' in H. apply nth_error_In in H as [|[]]. auto.
Qed.
Section M.
  Context {A B C : Type} (traces : list A) (columns : list B) (templates : list C).
  Notation m := (Nat.max (List.length traces) (Nat.max (List.length columns) (List.length templates))).
  Definition fits {X} (l : list X) : Prop := List.length l = m \/ List.length l = 1.
  Definition fill {X} (l : list X) : list X := if Nat.eqb (List.length l) m then l else match l with [x] => repeat x m | _ => l end.
  Lemma fill_length {X} (l : list X) : fits l -> List.length (fill l) = m.
  Proof.
    unfold fits, fill. destruct (Nat.eqb_spec (List.length l) m) as [E|E]; auto. intros [H|H]; [easy|]. destruct l as [|x [|y l]]; try discriminate. apply repeat_length.
  Qed.
  Lemma fill_nth {X} (l : list X) i x : fits l -> nth_error (fill l) i = Some x -> nth_or_only l i x.
  Proof.
    unfold fits, fill, nth_or_only. destruct (Nat.eqb_spec (List.length l) m) as [E|E]; auto. intros [H|H]; [easy|]. destruct l as [|y [|z l]]; try discriminate.
    intros Hn. apply nth_error_In, repeat_spec in Hn. subst. auto.
  Qed.
  Lemma fill_In {X} (l : list X) x : fits l -> (0 < m)%nat -> (In x (fill l) <-> In x l).
  Proof.
    unfold fits, fill. destruct (Nat.eqb_spec (List.length l) m) as [E|E]; [tauto|]. intros [H|H] Hm; [easy|]. destruct l as [|y [|z l]]; try discriminate.
    split; [intros Hi; apply repeat_spec in Hi; subst; now left|]. intros [->|[]]. destruct m; [lia|]. now left.
  Qed.
  Lemma expand_one_ok {X} (l : list X) : expand_one m l = (if Nat.eqb (List.length l) m then Ok (fill l) else match l with [_] => Ok (fill l) | _ => Err ERuntime end).
  Proof. unfold expand_one, fill, normalize_list. destruct (Nat.eqb (List.length l) m); auto. destruct l as [|x [|y l]]; auto. Qed.
  Lemma fits_dec {X} (l : list X) : {fits l} + {~ fits l}.
  Proof. unfold fits. destruct (Nat.eq_dec (List.length l) m), (Nat.eq_dec (List.length l) 1); auto. right. intros []; auto. Qed.
  Lemma expand_one_err {X} (l : list X) : ~ fits l -> expand_one m l = Err ERuntime.
  Proof.
    unfold fits. rewrite expand_one_ok. intros H. destruct (Nat.eqb_spec (List.length l) m) as [E|E]; [elim H; auto|]. destruct l as [|x [|y l]]; auto. elim H. auto.
  Qed.
  Lemma expand_one_fits {X} (l : list X) : fits l -> expand_one m l = Ok (fill l).
  Proof.
    unfold fits. rewrite expand_one_ok. destruct (Nat.eqb_spec (List.length l) m) as [E|E]; auto. intros [H|H]; [easy|]. now destruct l as [|x [|y l]].
  Qed.
  Lemma fill_same {X} (l : list X) : List.length l = m -> fill l = l.
  Proof. unfold fill. intros ->. now rewrite Nat.eqb_refl. Qed.
  Lemma expand_ok : fits traces -> fits columns -> fits templates ->
    expand traces columns templates = Ok (fill traces, fill columns, fill templates, negb (Nat.eqb (List.length traces) m)).
  Proof.
    intros H1 H2 H3. unfold expand. set (mn := Nat.min _ _). destruct (Nat.eqb m 1 && negb (Nat.eqb mn 1)) eqn:E1.
    - apply andb_true_iff in E1 as [E1 E1']. apply Nat.eqb_eq in E1. apply negb_true_iff, Nat.eqb_neq in E1'. unfold fits in *. lia.
    - destruct (Nat.ltb_spec 1 m) as [L|L].
      + destruct (forallb (Nat.eqb m) _) eqn:E2.
        * cbn [forallb] in E2. rewrite !andb_true_iff, !Nat.eqb_eq in E2. destruct E2 as (F1 & F2 & F3 & _).
          rewrite !fill_same by auto. rewrite (proj2 (Nat.eqb_eq _ _) (eq_sym F1)). reflexivity.
        * destruct (Nat.ltb_spec 1 mn) as [L2|L2].
          -- exfalso. cbn [forallb] in E2. rewrite !andb_false_iff, !Nat.eqb_neq in E2. unfold fits in *. intuition (try lia; discriminate).
          -- rewrite !expand_one_fits by auto. reflexivity.
      + assert (forall X (l : list X), fits l -> (List.length l <= m)%nat -> List.length l = m) as F.
        { unfold fits. intros X l [H|H] Hl; lia. }
        rewrite !fill_same by (apply F; auto; lia). rewrite (proj2 (Nat.eqb_eq _ _) (F _ traces H1 ltac:(lia))). reflexivity.
  Qed.
  Lemma expand_err : ~ (fits traces /\ fits columns /\ fits templates) -> expand traces columns templates = Err ERuntime.
  Proof.
    intros H. unfold expand. set (mn := Nat.min _ _). destruct (Nat.eqb m 1 && negb (Nat.eqb mn 1)) eqn:E1; auto.
    destruct (Nat.ltb_spec 1 m) as [L|L].
    - destruct (forallb (Nat.eqb m) _) eqn:E2.
      + exfalso. apply H. cbn [forallb] in E2. rewrite !andb_true_iff, !Nat.eqb_eq in E2. destruct E2 as (F1 & F2 & F3 & _). unfold fits. auto.
      + destruct (Nat.ltb_spec 1 mn) as [L2|L2]; auto. destruct (fits_dec traces) as [F1|F1]; [|now rewrite expand_one_err]. rewrite expand_one_fits by auto. cbn [bind].
        destruct (fits_dec columns) as [F2|F2]; [|now rewrite expand_one_err]. rewrite expand_one_fits by auto. cbn [bind]. rewrite expand_one_err; auto.
    - exfalso. apply H. apply andb_false_iff in E1. rewrite Nat.eqb_neq, negb_false_iff, Nat.eqb_eq in E1. unfold fits. lia.
  Qed.
  Lemma mapM_ok {X Y} (f : X -> res Y) l (g : X -> Y) : (forall x, In x l -> f x = Ok (g x)) -> mapM f l = Ok (map g l).
  Proof.
    induction l as [|x l IH]; intros H; auto. cbn [mapM map]. rewrite (H x) by now left. cbn [bind]. rewrite IH by (intros y Hy; apply H; now right). reflexivity.
  Qed.
  Lemma mapM_nth {X Y} (f : X -> res Y) l : (forall x, In x l -> exists y, f x = Ok y) -> exists ys, mapM f l = Ok ys /\ List.length ys = List.length l /\
    forall i x, nth_error l i = Some x -> exists y, f x = Ok y /\ nth_error ys i = Some y.
  Proof.
    induction l as [|x l IH]; intros H.
    - exists []. repeat split; auto. now intros [|i] x.
    - destruct (H x (or_introl eq_refl)) as (y & Ey). destruct IH as (ys & E & L & N); [intros z Hz; apply H; now right|]. exists (y :: ys). cbn [mapM]. rewrite Ey. cbn [bind]. rewrite E.
      split; auto. split; [cbn; auto|]. intros [|i] z; cbn; [intros [= <-]; eauto|apply N].
  Qed.
  Lemma get_some {X} (l : list X) i : (i < List.length l)%nat -> exists x, nth_error l i = Some x /\ get l i = Ok x.
  Proof. intros H. unfold get. destruct (nth_error l i) as [x|] eqn:E; [eauto|]. apply nth_error_None in E. lia. Qed.
  Lemma nth_seq n i : (i < n)%nat -> nth_error (seq 0 n) i = Some i.
  Proof. intros H. rewrite (nth_error_nth' _ 0) by now rewrite seq_length. now rewrite seq_nth. Qed.

  Lemma zip_ok : fits traces -> fits columns -> fits templates -> exists cs, zip_constraints traces columns templates = Ok cs /\ List.length cs = m /\
    forall i x y z k, nth_error cs i = Some (x, y, z, k) -> nth_or_only traces i x /\ nth_or_only columns i y /\ nth_or_only templates i z /\
      k = if Nat.eqb (List.length traces) m then i else 0.
  Proof.
    intros H1 H2 H3. unfold zip_constraints. rewrite expand_ok by auto. cbn [bind].
    pose proof (fill_length traces H1) as L1. pose proof (fill_length columns H2) as L2. pose proof (fill_length templates H3) as L3.
    match goal with |- exists cs, mapM ?g _ = _ /\ _ => set (f := g) end. destruct (mapM_nth f (seq 0 m)) as (cs & E & L & N).
    { intros i Hi. apply in_seq in Hi. unfold f. destruct (get_some (fill traces) i) as (x & _ & ->); [lia|]. destruct (get_some (fill columns) i) as (y & _ & ->); [lia|].
      destruct (get_some (fill templates) i) as (z & _ & ->); [lia|]. cbn [bind]. eauto. }
    rewrite E. exists cs. split; auto. rewrite seq_length in L. split; auto. intros i x y z k Hn.
    assert (Hi : (i < m)%nat) by (rewrite <- L; apply nth_error_Some; intros Hx; discriminate (eq_trans (eq_sym Hn) Hx)). destruct (N i i (nth_seq m i Hi)) as (c & Ec & Hc). rewrite Hn in Hc. injection Hc as <-.
    unfold f in Ec. destruct (get_some (fill traces) i) as (x' & X1 & X2); [lia|]. destruct (get_some (fill columns) i) as (y' & Y1 & Y2); [lia|].
    destruct (get_some (fill templates) i) as (z' & Z1 & Z2); [lia|]. rewrite X2, Y2, Z2 in Ec. cbn [bind] in Ec. injection Ec as -> -> -> Ek.
    split; [now apply fill_nth|]. split; [now apply fill_nth|]. split; [now apply fill_nth|]. rewrite <- Ek. now destruct (Nat.eqb (List.length traces) m).
  Qed.
  Lemma zip_err : ~ (fits traces /\ fits columns /\ fits templates) -> zip_constraints traces columns templates = Err ERuntime.
  Proof. intros H. unfold zip_constraints. now rewrite expand_err. Qed.

  Lemma concat_nth {X} (ls : list (list X)) n i j : Forall (fun l => List.length l = n) ls -> (j < n)%nat ->
    nth_error (List.concat ls) (i * n + j) = match nth_error ls i with Some l => nth_error l j | None => None end.
  Proof.
    intros H Hj. revert i. induction H as [|l ls Hl H IH]; intros i.
    - cbn. destruct (i * n + j)%nat, i; auto.
    - cbn [List.concat]. destruct i as [|i]; cbn [nth_error].
      + cbn [Nat.mul Nat.add]. rewrite nth_error_app1; auto. now rewrite Hl.
      + rewrite nth_error_app2 by lia. replace (S i * n + j - List.length l)%nat with (i * n + j)%nat by lia. apply IH.
  Qed.
  Lemma concat_len {X} (ls : list (list X)) n : Forall (fun l => List.length l = n) ls -> List.length (List.concat ls) = (List.length ls * n)%nat.
  Proof. induction 1 as [|l ls Hl H IH]; auto. cbn [List.concat List.length]. rewrite app_length, IH, Hl. lia. Qed.
  Lemma all_ok : fits traces -> fits columns -> fits templates -> exists cs, all_constraints traces columns templates = Ok cs /\ List.length cs = (m * m)%nat /\
    forall i j, (i < m)%nat -> (j < m)%nat -> exists x y z, nth_error cs (i * m + j) = Some (x, y, z, i) /\
      nth_or_only traces i x /\ nth_or_only columns j y /\ nth_or_only templates i z.
  Proof.
    intros H1 H2 H3. unfold all_constraints. rewrite expand_ok by auto. cbn [bind].
    pose proof (fill_length traces H1) as L1. pose proof (fill_length columns H2) as L2. pose proof (fill_length templates H3) as L3. rewrite L1.
    match goal with |- exists cs, bind (mapM ?g _) _ = _ /\ _ => set (f := g) end.
    assert (F : forall i, (i < m)%nat -> exists x z, nth_error (fill traces) i = Some x /\ nth_error (fill templates) i = Some z /\ f i = Ok (map (fun y => (x, y, z, i)) (fill columns))).
    { intros i Hi. destruct (get_some (fill traces) i) as (x & X1 & X2); [lia|]. destruct (get_some (fill templates) i) as (z & Z1 & Z2); [lia|]. exists x, z. split; auto. split; auto.
      unfold f. rewrite X2. cbn [bind]. apply mapM_ok. intros y _. now rewrite Z2. }
    destruct (mapM_nth f (seq 0 m)) as (ls & E & L & N).
    { intros i Hi. apply in_seq in Hi. destruct (F i) as (x & z & _ & _ & Ef); [lia|]. eauto. }
    rewrite E. cbn [bind]. exists (List.concat ls). split; auto. rewrite seq_length in L.
    assert (FA : Forall (fun l => List.length l = m) ls).
    { apply Forall_forall. intros l Hl. apply In_nth_error in Hl as (i & Hl). assert (Hi : (i < m)%nat) by (rewrite <- L; apply nth_error_Some; congruence).
      destruct (N i i (nth_seq m i Hi)) as (l' & El & Hl'). rewrite Hl in Hl'. injection Hl' as <-. destruct (F i Hi) as (x & z & _ & _ & Ef). rewrite Ef in El. injection El as <-. now rewrite map_length. }
    split; [now rewrite (concat_len ls m FA), L|]. intros i j Hi Hj. destruct (N i i (nth_seq m i Hi)) as (l & El & Hl). destruct (F i Hi) as (x & z & X1 & Z1 & Ef).
    rewrite Ef in El. injection El as <-. destruct (nth_error (fill columns) j) as [y|] eqn:Ey; [|apply nth_error_None in Ey; lia].
    exists x, y, z. rewrite (concat_nth ls m i j FA Hj), Hl. rewrite nth_error_map, Ey. split; auto. split; [now apply fill_nth|]. split; [now apply fill_nth|now apply fill_nth].
  Qed.
  Lemma all_err : ~ (fits traces /\ fits columns /\ fits templates) -> all_constraints traces columns templates = Err ERuntime.
  Proof. intros H. unfold all_constraints. now rewrite expand_err. Qed.
  Lemma all_pairs cs : all_constraints traces columns templates = Ok cs ->
    forall x y, (exists z k, In (x, y, z, k) cs) <-> In x traces /\ In y columns.
  Proof.
    intros E. destruct (fits_dec traces) as [H1|H1]; [|rewrite all_err in E by tauto; discriminate].
    destruct (fits_dec columns) as [H2|H2]; [|rewrite all_err in E by tauto; discriminate]. destruct (fits_dec templates) as [H3|H3]; [|rewrite all_err in E by tauto; discriminate].
    destruct (all_ok H1 H2 H3) as (cs' & E' & L & N). rewrite E in E'. injection E' as <-. clear E. intros x y. split.
    - intros (z & k & Hi). apply In_nth_error in Hi as (p & Hp). assert (Hl : (p < m * m)%nat) by (rewrite <- L; apply nth_error_Some; intros Hx; discriminate (eq_trans (eq_sym Hp) Hx)).
      assert (Hm : m <> 0%nat) by (intros Hm; rewrite Hm in Hl; lia). pose proof (Nat.div_mod p m Hm) as D. pose proof (Nat.mod_upper_bound p m Hm) as U.
      assert (Q : (p / m < m)%nat) by (apply Nat.div_lt_upper_bound; lia). destruct (N (p / m) (p mod m) Q U) as (x' & y' & z' & E & P1 & P2 & P3).
      replace (p / m * m + p mod m)%nat with p in E by (rewrite (Nat.mul_comm (p / m)); exact D). rewrite Hp in E. injection E as -> -> -> _.
      split; [destruct P1 as [P1|P1]; [rewrite P1; now left|now apply nth_error_In in P1]|destruct P2 as [P2|P2]; [rewrite P2; now left|now apply nth_error_In in P2]].
    - intros [Hx Hy]. assert (Hm : (0 < m)%nat) by (destruct traces; [easy|cbn [List.length]; lia]).
      apply (fill_In traces x H1 Hm) in Hx. apply (fill_In columns y H2 Hm) in Hy. apply In_nth_error in Hx as (i & Hx). apply In_nth_error in Hy as (j & Hy).
      assert (Hi : (i < m)%nat) by (rewrite <- (fill_length traces H1); apply nth_error_Some; congruence).
      assert (Hj : (j < m)%nat) by (rewrite <- (fill_length columns H2); apply nth_error_Some; congruence).
      destruct (N i j Hi Hj) as (x' & y' & z' & E & P1 & P2 & P3).
      apply fill_nth in Hx; auto. apply fill_nth in Hy; auto. rewrite (only_one _ _ _ _ P1 Hx), (only_one _ _ _ _ P2 Hy) in E.
      exists z', i. now apply nth_error_In in E.
  Qed.
End M.

Section V.
  Context {V : Type} (as_int as_hex : V -> option Z) (vleb : V -> V -> bool).
  Lemma insert_perm {K} (kleb : K -> K -> bool) (x : K * V) l : Permutation (insert_by kleb x l) (x :: l).
  Proof. induction l as [|y l IH]; cbn [insert_by]; auto. destruct (kleb _ _); auto. rewrite IH. apply perm_swap. Qed.
  Lemma sort_perm {K} (kleb : K -> K -> bool) (l : list (K * V)) : Permutation (fold_right (insert_by kleb) [] l) l.
  Proof. induction l as [|x l IH]; cbn [fold_right]; auto. now rewrite insert_perm, IH. Qed.
  Definition upto {K} (kleb : K -> K -> bool) (a b : K * V) : Prop := kleb (fst a) (fst b) = true.
  Lemma insert_sorted {K} (kleb : K -> K -> bool) (tot : forall a b, kleb a b = true \/ kleb b a = true)
    (tr : forall a b c, kleb a b = true -> kleb b c = true -> kleb a c = true) x (l : list (K * V)) :
    StronglySorted (upto kleb) l -> StronglySorted (upto kleb) (insert_by kleb x l).
  Proof.
    induction 1 as [|y l H IH F]; cbn [insert_by]; [repeat constructor|]. destruct (kleb (fst x) (fst y)) eqn:E.
    - constructor; [now constructor|]. constructor; auto. rewrite Forall_forall in *. intros z Hz. unfold upto. eapply tr; [exact E|]. now apply F.
    - constructor; auto. rewrite Forall_forall in *. intros z Hz. apply (Permutation_in _ (insert_perm kleb x l)) in Hz as [<-|Hz]; [|now apply F].
      unfold upto. destruct (tot (fst x) (fst y)); congruence.
  Qed.
  Lemma sort_sorted {K} (kleb : K -> K -> bool) (tot : forall a b, kleb a b = true \/ kleb b a = true)
    (tr : forall a b c, kleb a b = true -> kleb b c = true -> kleb a c = true) (l : list (K * V)) : StronglySorted (upto kleb) (fold_right (insert_by kleb) [] l).
  Proof. induction l as [|x l IH]; cbn [fold_right]; [constructor|]. now apply insert_sorted. Qed.
  Lemma with_keys_some {K} (key : V -> option K) l : (forall v, In v l -> key v <> None) ->
    exists l', with_keys key l = Some l' /\ map snd l' = l /\ Forall (fun kv => key (snd kv) = Some (fst kv)) l'.
  Proof.
    intros H. unfold with_keys. replace (forallb _ l) with true.
    - eexists. split; [reflexivity|]. induction l as [|v l IH]; [split; constructor|]. cbn [flat_map]. destruct (key v) as [k|] eqn:E; [|now apply (H v (or_introl eq_refl)) in E].
      destruct IH as [I1 I2]; [intros x Hx; apply H; now right|]. cbn [app map snd]. split; [now f_equal|]. constructor; auto.
    - symmetry. apply forallb_forall. intros v Hv. specialize (H v Hv). now destruct (key v).
  Qed.
  Lemma with_keys_none {K} (key : V -> option K) l : (exists v, In v l /\ key v = None) -> with_keys key l = None.
  Proof.
    intros (v & Hv & E). unfold with_keys. replace (forallb _ l) with false; auto. symmetry. apply not_true_iff_false. rewrite forallb_forall. intros H. specialize (H v Hv). now rewrite E in H.
  Qed.
  Lemma sorted_by_key {K} (key : V -> option K) (kleb : K -> K -> bool) (l : list (K * V)) : Forall (fun kv => key (snd kv) = Some (fst kv)) l ->
    StronglySorted (upto kleb) l -> StronglySorted (fun a b => exists x y, key a = Some x /\ key b = Some y /\ kleb x y = true) (map snd l).
  Proof.
    intros F H. induction H as [|x l H IH G]; [constructor|]. inversion F as [|? ? F1 F2]; subst. cbn [map]. constructor; auto.
    rewrite Forall_forall in *. intros y Hy. apply in_map_iff in Hy as (z & <- & Hz). exists (fst x), (fst z). split; auto. split; auto. now apply G.
  Qed.
  Lemma pivots_perm pset : Permutation (sorted_pivots as_int as_hex vleb pset) pset.
  Proof.
    assert (P : forall (key : V -> option Z) l, with_keys key pset = Some l -> Permutation (sort_by Z.leb l) pset).
    { intros key l E. unfold sort_by. destruct (forallb (fun v => match key v with Some _ => true | None => false end) pset) eqn:F; unfold with_keys in E; rewrite F in E; [|discriminate].
      destruct (with_keys_some key pset) as (l' & E' & M & _).
      { intros v Hv. rewrite forallb_forall in F. specialize (F v Hv). now destruct (key v). }
      unfold with_keys in E'. rewrite F, E in E'. injection E' as <-. transitivity (map snd l); [apply Permutation_map; apply sort_perm|now rewrite M]. }
    unfold sorted_pivots. destruct (with_keys as_int pset) as [l|] eqn:E1; [eauto|]. destruct (with_keys as_hex pset) as [l|] eqn:E2; [eauto|].
    unfold sort_by. rewrite (Permutation_map snd (sort_perm vleb _)). rewrite map_map. cbn [snd]. now rewrite map_id.
  Qed.
  Lemma sort_keys (key : V -> option Z) pset l : with_keys key pset = Some l ->
    (forall v, In v pset -> key v <> None) -> StronglySorted (fun a b => exists x y, key a = Some x /\ key b = Some y /\ (x <= y)%Z) (sort_by Z.leb l).
  Proof.
    intros E H. destruct (with_keys_some key pset H) as (l' & E' & _ & F). rewrite E in E'. injection E' as <-. unfold sort_by.
    assert (F' : Forall (fun kv => key (snd kv) = Some (fst kv)) (fold_right (insert_by Z.leb) [] l)).
    { rewrite Forall_forall in *. intros x Hx. apply F. now apply (Permutation_in _ (sort_perm Z.leb l)). }
    assert (S : StronglySorted (upto Z.leb) (fold_right (insert_by Z.leb) [] l)).
    { apply sort_sorted; intros; rewrite ?Z.leb_le in *; lia. }
    pose proof (sorted_by_key key Z.leb _ F' S) as R. clear - R. induction R as [|x l0 R IH G]; constructor; auto. rewrite Forall_forall in *. intros y Hy.
    destruct (G y Hy) as (a & b & Ha & Hb & L). exists a, b. rewrite Z.leb_le in L. auto.
  Qed.
  Lemma pivots_int pset : (forall v, In v pset -> as_int v <> None) ->
    StronglySorted (fun a b => exists x y, as_int a = Some x /\ as_int b = Some y /\ (x <= y)%Z) (sorted_pivots as_int as_hex vleb pset).
  Proof.
    intros H. unfold sorted_pivots. destruct (with_keys_some as_int pset H) as (l & E & _). rewrite E. now apply (sort_keys as_int pset).
  Qed.
  Lemma pivots_hex pset : (exists v, In v pset /\ as_int v = None) -> (forall v, In v pset -> as_hex v <> None) ->
    StronglySorted (fun a b => exists x y, as_hex a = Some x /\ as_hex b = Some y /\ (x <= y)%Z) (sorted_pivots as_int as_hex vleb pset).
  Proof.
    intros N H. unfold sorted_pivots. rewrite (with_keys_none as_int pset N). destruct (with_keys_some as_hex pset H) as (l & E & _). rewrite E. now apply (sort_keys as_hex pset).
  Qed.
  Lemma pivots_plain pset : total_order vleb -> (exists v, In v pset /\ as_int v = None) -> (exists v, In v pset /\ as_hex v = None) ->
    StronglySorted (fun a b => vleb a b = true) (sorted_pivots as_int as_hex vleb pset).
  Proof.
    intros TOT N N'. unfold sorted_pivots. rewrite (with_keys_none as_int pset N), (with_keys_none as_hex pset N'). unfold sort_by.
    assert (S : StronglySorted (upto vleb) (fold_right (insert_by vleb) [] (map (fun v => (v, v)) pset))).
    { apply sort_sorted; [apply (to_total _ TOT)|apply (to_trans _ TOT)]. }
    assert (F' : Forall (fun kv => Some (snd kv) = Some (fst kv)) (fold_right (insert_by vleb) [] (map (fun v => (v, v)) pset))).
    { rewrite Forall_forall. intros x Hx. apply (Permutation_in _ (sort_perm vleb _)) in Hx. apply in_map_iff in Hx as (v & <- & _). auto. }
    pose proof (sorted_by_key Some vleb _ F' S) as R. clear - R. induction R as [|x l R IH G]; constructor; auto. rewrite Forall_forall in *. intros y Hy.
    destruct (G y Hy) as (a & b & [= <-] & [= <-] & L). auto.
  Qed.
  Lemma permuted n pset : snd (permuted_pivots as_int as_hex vleb n pset) = List.length (fst (permuted_pivots as_int as_hex vleb n pset)) /\
    (forall i v, In (i, v) (fst (permuted_pivots as_int as_hex vleb n pset)) <-> (i < n)%nat /\ In v pset).
  Proof.
    unfold permuted_pivots. cbn [fst snd]. set (l := sorted_pivots as_int as_hex vleb pset). split.
    - assert (H : forall k s, List.length (flat_map (fun i : nat => map (pair i) l) (seq s k)) = (List.length l * k)%nat).
      { induction k as [|k IH]; intros s; cbn [seq flat_map]; [cbn; lia|]. rewrite app_length, map_length, IH. lia. }
      now rewrite H.
    - intros i v. rewrite in_flat_map. split.
      + intros (j & Hj & Hi). apply in_seq in Hj. apply in_map_iff in Hi as (x & [= -> ->] & Hx). split; [lia|]. now apply (Permutation_in _ (pivots_perm pset)).
      + intros [Hi Hv]. exists i. split; [apply in_seq; lia|]. apply in_map. now apply (Permutation_in _ (Permutation_sym (pivots_perm pset))).
  Qed.
End V.
