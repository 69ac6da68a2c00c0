(** The grid of plots. *)
From Coq Require Import List ZArith Bool Lia Permutation.
From Verif Require Import Lib.PyStr Model.Layout Spec.Layout.
Import ListNotations.
Local Open Scope list_scope.
Local Open Scope Z_scope.

Lemma mk_grid cols num : 1 <= cols -> 1 <= num -> exists l, mk_layout cols num = Ok l /\ l_num l = num /\
  l_cols l = Z.min cols num /\ 1 <= l_rows l /\ (l_rows l - 1) * l_cols l < num <= l_rows l * l_cols l.
Proof.
  intros Hc Hn. unfold mk_layout. destruct (Z.eqb_spec num 0); [lia|]. set (k := if num <? cols then num else cols).
  assert (Hk : k = Z.min cols num) by (unfold k; destruct (Z.ltb_spec num cols); lia). destruct (Z.eqb_spec k 0); [lia|].
  pose proof (Z.div_mod num k ltac:(lia)) as HD. pose proof (Z.mod_pos_bound num k ltac:(lia)) as HM.
  assert (Hq : 0 <= num / k) by (apply Z.div_pos; lia).
  destruct (Z.eqb_spec (num mod k) 0) as [E|E].
  - assert (1 <= num / k) by nia. destruct (Z.leb_spec (num / k) 0); [lia|]. destruct (Z.leb_spec k 0); [lia|]. cbn [orb].
    eexists. split; [reflexivity|]. cbn [l_num l_cols l_rows]. repeat split; try lia; nia.
  - destruct (Z.leb_spec (num / k + 1) 0); [lia|]. destruct (Z.leb_spec k 0); [lia|]. cbn [orb].
    eexists. split; [reflexivity|]. cbn [l_num l_cols l_rows]. repeat split; try lia; nia.
Qed.
Lemma mk_none cols : mk_layout cols 0 = Err ERuntime.
Proof. reflexivity. Qed.

Definition good (l : layout) : Prop := 1 <= l_cols l <= l_num l /\ 1 <= l_rows l /\ (l_rows l - 1) * l_cols l < l_num l <= l_rows l * l_cols l.
Lemma mk_good cols num l : 1 <= cols -> 1 <= num -> mk_layout cols num = Ok l -> good l.
Proof. intros Hc Hn E. destruct (mk_grid cols num Hc Hn) as (l' & E' & H1 & H2 & H3 & H4). assert (l' = l) by congruence. subst l'. unfold good. lia. Qed.

Lemma numpy_ok n i : 0 <= i < n -> numpy_index n i = Ok i.
Proof. intros H. unfold numpy_index. destruct (Z.leb_spec 0 i); [|lia]. destruct (Z.ltb_spec i n); [reflexivity|lia]. Qed.
Lemma ith_inj rows cols i j rc : ith_cell rows cols i rc -> ith_cell rows cols j rc -> i = j.
Proof. unfold ith_cell. lia. Qed.
Lemma ith_fun rows cols i rc rc' : ith_cell rows cols i rc -> ith_cell rows cols i rc' -> rc = rc'.
Proof. destruct rc as [r c], rc' as [r' c']. unfold ith_cell, in_grid. cbn [fst snd]. intros [[? ?] ?] [[? ?] ?]. assert (r = r') by nia. subst. f_equal. lia. Qed.

Section Good.
  Context (l : layout) (G : good l).
  Lemma single_grid : single l = true <-> l_rows l = 1 /\ l_cols l = 1.
  Proof. unfold single. destruct G as (H1 & H2 & H3). rewrite Z.eqb_eq. nia. Qed.
  Lemma at_ok i : single l = false -> 0 <= i < l_rows l * l_cols l -> exists rc, axes_at l (get_2d l i) = Ok rc /\ ith_cell (l_rows l) (l_cols l) i rc.
  Proof.
    intros Hs Hi. destruct G as (H1 & H2 & H3). unfold axes_at, get_2d, usecol, userow. rewrite Hs. cbn [negb andb].
    assert (Hng : ~ (l_rows l = 1 /\ l_cols l = 1)) by (rewrite <- single_grid; congruence).
    destruct (Z.eqb_spec (l_rows l) 1) as [E1|E1]; cbn [negb andb].
    - destruct (Z.eqb_spec (l_cols l) 1) as [E2|E2]; [lia|]. rewrite E1 in Hi. rewrite Z.mod_small by lia. rewrite numpy_ok by lia. cbn [bind].
      eexists. split; [reflexivity|]. unfold ith_cell, in_grid. cbn [fst snd]. lia.
    - destruct (Z.eqb_spec (l_cols l) 1) as [E2|E2].
      + rewrite E2 in Hi. rewrite Z.mod_small by lia. rewrite numpy_ok by lia. cbn [bind]. eexists. split; [reflexivity|].
        unfold ith_cell, in_grid. cbn [fst snd]. lia.
      + pose proof (Z.div_mod i (l_cols l) ltac:(lia)) as HD. pose proof (Z.mod_pos_bound i (l_cols l) ltac:(lia)) as HM.
        assert (0 <= i / l_cols l) by (apply Z.div_pos; lia). assert (i / l_cols l < l_rows l) by (apply Z.div_lt_upper_bound; lia).
        rewrite !numpy_ok by lia. cbn [bind]. eexists. split; [reflexivity|]. unfold ith_cell, in_grid. cbn [fst snd]. lia.
  Qed.
  Lemma axis_ok i : 0 <= i < l_rows l * l_cols l -> exists rc, get_axis l i = Ok rc /\ ith_cell (l_rows l) (l_cols l) i rc.
  Proof.
    intros Hi. unfold get_axis. destruct (single l) eqn:E; [|now apply at_ok]. apply single_grid in E as [E1 E2].
    eexists. split; [reflexivity|]. unfold ith_cell, in_grid. cbn [fst snd]. rewrite E1, E2 in *. lia.
  Qed.
  Lemma at_large i : 1 < l_rows l -> 1 < l_cols l -> l_rows l * l_cols l <= i -> get_axis l i = Err EIndex.
  Proof.
    intros Hr Hc Hi. unfold get_axis. replace (single l) with false by (symmetry; destruct (single l) eqn:E; auto; apply single_grid in E; lia).
    unfold axes_at, get_2d, usecol, userow.
    destruct (Z.eqb_spec (l_rows l) 1); [lia|]. destruct (Z.eqb_spec (l_cols l) 1); [lia|]. rewrite !andb_false_r. cbn [andb].
    assert (l_rows l <= i / l_cols l) by (apply Z.div_le_lower_bound; lia). unfold numpy_index at 1.
    destruct (Z.leb_spec 0 (i / l_cols l)); [|lia]. destruct (Z.ltb_spec (i / l_cols l) (l_rows l)); [lia|]. cbn [andb].
    destruct (Z.ltb_spec (i / l_cols l) 0); [lia|]. rewrite andb_false_r. reflexivity.
  Qed.
  (** One line: the axes repeat. *)
  Lemma at_wrap i : 0 <= i -> l_rows l = 1 \/ l_cols l = 1 -> get_axis l i = get_axis l (i mod (l_rows l * l_cols l)).
  Proof.
    intros Hi H. unfold get_axis. destruct (single l) eqn:E; auto. unfold get_2d, usecol, userow. rewrite E. cbn [negb andb]. f_equal.
    destruct (Z.eqb_spec (l_rows l) 1) as [E1|E1]; cbn [negb andb].
    - rewrite E1, Z.mul_1_l, Z.mod_mod by (destruct G; lia). reflexivity.
    - destruct (Z.eqb_spec (l_cols l) 1) as [E2|E2]; [|lia]. rewrite E2, Z.mul_1_r, Z.mod_mod by (destruct G; lia). reflexivity.
  Qed.
  Lemma mapM_at n i : single l = false -> 0 <= i -> i + Z.of_nat n <= l_rows l * l_cols l -> forall k, (k <= n)%nat -> exists cells,
    mapM (fun j => axes_at l (get_2d l (i + Z.of_nat j))) (seq k (n - k)) = Ok cells /\
    (forall rc, In rc cells <-> exists j, (k <= j < n)%nat /\ ith_cell (l_rows l) (l_cols l) (i + Z.of_nat j) rc) /\ NoDup cells.
  Proof.
    intros Hs Hi Hn k Hk. remember (n - k)%nat as d eqn:Ed. revert k Hk Ed. induction d as [|d IH]; intros k Hk Ed.
    - exists []. split; [reflexivity|]. split; [|constructor]. intros rc. split; [intros []|]. intros (j & Hj & _). lia.
    - destruct (IH (S k) ltac:(lia) ltac:(lia)) as (cells & E & HI & HN). destruct (at_ok (i + Z.of_nat k) Hs ltac:(lia)) as (rc0 & E0 & H0).
      cbn [seq mapM]. rewrite E0. cbn [bind]. rewrite E. cbn [bind]. exists (rc0 :: cells). split; [reflexivity|]. split.
      + intros rc. cbn [In]. rewrite HI. split.
        * intros [<-|(j & Hj & Hc)]; [exists k; split; [lia|exact H0]|exists j; split; [lia|exact Hc]].
        * intros (j & Hj & Hc). destruct (Nat.eq_dec j k) as [->|Hne]; [left; eapply ith_fun; eassumption|right; exists j; split; [lia|exact Hc]].
      + constructor; auto. rewrite HI. intros (j & Hj & Hc). pose proof (ith_inj _ _ _ _ _ H0 Hc). lia.
  Qed.
  Lemma finish_ok i : 1 <= i <= l_rows l * l_cols l -> exists cells, finish l i = Ok cells /\ NoDup cells /\
    forall rc, In rc cells <-> exists j, i <= j < l_rows l * l_cols l /\ ith_cell (l_rows l) (l_cols l) j rc.
  Proof.
    intros Hi. unfold finish. destruct (single l) eqn:E.
    - apply single_grid in E as [E1 E2]. rewrite E1, E2 in *. replace (Z.to_nat (1 * 1 - i)) with 0%nat by lia.
      exists []. split; [reflexivity|]. split; [constructor|]. intros rc. split; [intros []|]. intros (j & Hj & _). lia.
    - destruct (mapM_at (Z.to_nat (l_rows l * l_cols l - i)) i E ltac:(lia) ltac:(lia) 0 ltac:(lia)) as (cells & Ec & HI & HN).
      rewrite Nat.sub_0_r in Ec. exists cells. split; [exact Ec|]. split; [exact HN|]. intros rc. rewrite HI. split.
      + intros (j & Hj & Hc). exists (i + Z.of_nat j). split; [lia|exact Hc].
      + intros (j & Hj & Hc). exists (Z.to_nat (j - i)). rewrite Z2Nat.id by lia. replace (i + (j - i)) with j by lia. split; [lia|exact Hc].
  Qed.
End Good.

(** ** The series *)
Section Resolve.
  Context {P : Type} (peq : P -> P -> bool).
  Lemma enumerate_nth {A} (l : list A) : forall k i a, nth_error (enumerate k l) i = Some (a) <-> nth_error l i = Some (snd a) /\ fst a = (k + i)%nat.
  Proof.
    induction l as [|x l IH]; intros k i [j a]; cbn [enumerate fst snd].
    - destruct i; cbn; split; try easy.
    - destruct i as [|i]; cbn [nth_error].
      + split; [intros [= <- <-]; split; auto; lia|]. intros [[= ->] ->]. do 2 f_equal. lia.
      + rewrite IH. cbn [fst snd]. split; intros [H1 H2]; split; auto; lia.
  Qed.
  Lemma mapM_Ok {A B} (f : A -> res B) l : (forall a, In a l -> exists b, f a = Ok b) -> exists bs, mapM f l = Ok bs /\ Forall2 (fun a b => f a = Ok b) l bs.
  Proof.
    induction l as [|a l IH]; intros H; cbn [mapM]; [exists []; split; [reflexivity|constructor]|].
    destruct (H a (or_introl eq_refl)) as (b & Eb). destruct IH as (bs & E & F); [intros; apply H; now right|].
    rewrite Eb, E. exists (b :: bs). split; [reflexivity|now constructor].
  Qed.
  Lemma F2_nth {A B} (R : A -> B -> Prop) la lb : Forall2 R la lb -> forall i b, nth_error lb i = Some b -> exists a, nth_error la i = Some a /\ R a b.
  Proof.
    induction 1 as [|a b' la lb Hab F IH]; intros i b Hi; [destruct i; discriminate|]. destruct i as [|i]; cbn in *; [injection Hi as <-; eauto|eauto].
  Qed.
  Lemma F2_len {A B} (R : A -> B -> Prop) la lb : Forall2 R la lb -> List.length la = List.length lb.
  Proof. induction 1; cbn; auto. Qed.
  Lemma enumerate_len {A} (l : list A) : forall k, List.length (enumerate k l) = List.length l.
  Proof. induction l; intros; cbn; auto. Qed.
  Lemma enumerate_In {A} (l : list A) k i a : In (i, a) (enumerate k l) -> (k <= i < k + List.length l)%nat /\ nth_error l (i - k) = Some a.
  Proof.
    intros Hi. apply In_nth_error in Hi as (n & En). apply enumerate_nth in En as [E1 E2]. cbn [fst snd] in *.
    assert (n < List.length l)%nat by (apply nth_error_Some; congruence). split; [lia|]. replace (i - k)%nat with n by lia. exact E1.
  Qed.

  Context (per_line : Z) (cs : list (con P)) (pivots : list P) (Hl : 1 <= per_line) (Hp : pivots <> []).
  Notation np := (Z.of_nat (List.length pivots)).
  Lemma np_pos : 1 <= np.
  Proof. destruct pivots; [now destruct Hp|]. cbn [List.length]. lia. Qed.
  (** Enough axes: the [i]-th series is on the [i]-th axis. *)
  Lemma resolve_ok : Z.of_nat (List.length (cp_pairs peq cs pivots)) <= np -> exists l out, mk_layout per_line np = Ok l /\
    resolve peq false per_line cs pivots = Ok out /\ map fst out = cp_pairs peq cs pivots /\
    forall i c p a, nth_error out i = Some (c, p, a) -> ith_cell (l_rows l) (l_cols l) (Z.of_nat i) a.
  Proof.
    intros Hn. destruct (mk_grid per_line np Hl np_pos) as (l & El & H1 & H2 & H3 & H4). assert (G : good l) by exact (mk_good _ _ _ Hl np_pos El).
    unfold resolve. cbn [negb]. rewrite El. cbn [bind].
    match goal with |- context [mapM ?g _] => set (f := g) end.
    destruct (mapM_Ok f (enumerate 0 (cp_pairs peq cs pivots))) as (out & Eo & F).
    { intros [i [c p]] Hi. apply enumerate_In in Hi as [Hi _]. unfold f. destruct (axis_ok l G (Z.of_nat i) ltac:(lia)) as (rc & -> & _). cbn [bind]. eauto. }
    exists l, out. split; [reflexivity|]. split; [exact Eo|]. split.
    - clear - F. revert out F. generalize 0%nat. induction (cp_pairs peq cs pivots) as [|[c p] ps IH]; intros k out F; cbn [enumerate] in F.
      + inversion F. reflexivity.
      + inversion F as [|x [[c' p'] a'] xs bs Hf Hr]. subst. unfold f in Hf. destruct (get_axis l (Z.of_nat k)); [|discriminate]. injection Hf as -> -> ->.
        cbn [map fst]. f_equal. eapply IH; eassumption.
    - intros i c p a Ei. destruct (F2_nth _ _ _ F i _ Ei) as ([j [c' p']] & Ej & Hf). apply enumerate_nth in Ej as [Ep Ej]. cbn [fst snd] in Ep, Ej.
      cbn [Nat.add] in Ej. subst j. unfold f in Hf. assert (i < List.length (cp_pairs peq cs pivots))%nat by (apply nth_error_Some; congruence).
      destruct (axis_ok l G (Z.of_nat i) ltac:(lia)) as (rc & Ea & Hc). rewrite Ea in Hf. cbn [bind] in Hf. injection Hf as -> -> ->. exact Hc.
  Qed.
  (** More series than cells of a grid with several rows and columns: an error. *)
  Lemma mapM_err {A B} (f : A -> res B) l e : (forall a, In a l -> (exists b, f a = Ok b) \/ f a = Err e) -> (exists a, In a l /\ f a = Err e) -> mapM f l = Err e.
  Proof.
    induction l as [|a l IH]; intros H (x & Hx & Ex); [easy|]. cbn [mapM]. destruct (H a (or_introl eq_refl)) as [[b Eb]|Ea].
    - rewrite Eb. cbn [bind]. rewrite IH; [reflexivity|intros; apply H; now right|]. destruct Hx as [->|Hx]; [congruence|eauto].
    - rewrite Ea. reflexivity.
  Qed.
  Lemma resolve_err l : mk_layout per_line np = Ok l -> 1 < l_rows l -> 1 < l_cols l ->
    l_rows l * l_cols l < Z.of_nat (List.length (cp_pairs peq cs pivots)) -> resolve peq false per_line cs pivots = Err EIndex.
  Proof.
    intros El Hr Hc Hn. assert (G : good l) by exact (mk_good _ _ _ Hl np_pos El). unfold resolve. rewrite El. cbn [bind]. apply mapM_err.
    - intros [i [c p]] _. destruct (Z.lt_ge_cases (Z.of_nat i) (l_rows l * l_cols l)) as [H|H].
      + left. destruct (axis_ok l G (Z.of_nat i) ltac:(lia)) as (rc & -> & _). cbn [bind]. eauto.
      + right. rewrite (at_large l G) by lia. reflexivity.
    - set (i := Z.to_nat (l_rows l * l_cols l)). destruct (nth_error (cp_pairs peq cs pivots) i) as [[c p]|] eqn:E.
      + exists (i, (c, p)). split; [|rewrite (at_large l G) by lia; reflexivity]. eapply nth_error_In with (n := i). apply enumerate_nth. cbn. auto.
      + apply nth_error_None in E. lia.
  Qed.
  (** One row or one column, all constraints with all pivots: the axis of a series is that
      of its pivot. *)
  Hypothesis (peq_eq : forall a b, peq a b = true <-> a = b) (Hd : NoDup pivots).
  Lemma pairs_all : (forall c, In c cs -> forall p, In p pivots -> In p (c_keys c)) ->
    cp_pairs peq cs pivots = flat_map (fun c => map (fun p => (c, p)) pivots) cs.
  Proof.
    intros H. unfold cp_pairs. induction cs as [|c r IH]; cbn [flat_map]; auto. rewrite IH by (intros; apply H; auto; now right). f_equal. f_equal.
    assert (Hc : forall p, In p pivots -> In p (c_keys c)) by (intros; apply H; auto; now left). clear - Hc peq_eq.
    induction pivots as [|p ps IH]; auto. cbn [filter]. replace (existsb (peq p) (c_keys c)) with true; [f_equal; apply IH; intros; apply Hc; now right|].
    symmetry. apply existsb_exists. exists p. split; [apply Hc; now left|now apply peq_eq].
  Qed.
  Lemma flat_nth {A B C} (f : A -> B -> C) (la : list A) (lb : list B) : forall i x, nth_error (flat_map (fun a => map (f a) lb) la) i = Some x ->
    exists a b, nth_error la (i / List.length lb) = Some a /\ nth_error lb (i mod List.length lb) = Some b /\ x = f a b.
  Proof.
    induction la as [|a la IH]; intros i x Hi; [destruct i; discriminate|]. cbn [flat_map] in Hi.
    destruct (Nat.lt_ge_cases i (List.length lb)) as [Hlt|Hge].
    - rewrite nth_error_app1 in Hi by (rewrite map_length; exact Hlt). rewrite nth_error_map in Hi. destruct (nth_error lb i) as [b|] eqn:Eb; [|discriminate].
      injection Hi as <-. rewrite Nat.div_small, Nat.mod_small by exact Hlt. exists a, b. auto.
    - rewrite nth_error_app2 in Hi by (rewrite map_length; exact Hge). rewrite map_length in Hi. apply IH in Hi as (a' & b & E1 & E2 & E3).
      assert (Hz : List.length lb <> 0%nat) by (intros Hz; assert (Hs : nth_error lb ((i - List.length lb) mod List.length lb) <> None) by congruence; apply nth_error_Some in Hs; lia).
      exists a', b. replace i with (i - List.length lb + 1 * List.length lb)%nat by lia. rewrite Nat.div_add, Nat.mod_add by exact Hz.
      rewrite Nat.add_1_r. cbn [nth_error]. auto.
  Qed.
  Lemma resolve_line l : mk_layout per_line np = Ok l -> l_rows l = 1 \/ l_cols l = 1 ->
    (forall c, In c cs -> forall p, In p pivots -> In p (c_keys c)) -> exists out, resolve peq false per_line cs pivots = Ok out /\
    map fst out = flat_map (fun c => map (fun p => (c, p)) pivots) cs /\
    forall c p a, In (c, p, a) out -> exists k, nth_error pivots k = Some p /\ ith_cell (l_rows l) (l_cols l) (Z.of_nat k) a.
  Proof.
    intros El Hline Hall. assert (G : good l) by exact (mk_good _ _ _ Hl np_pos El).
    assert (Hsz : l_rows l * l_cols l = np).
    { destruct (mk_grid per_line np Hl np_pos) as (l' & El' & H1 & H2 & H3 & H4). assert (l' = l) by congruence. subst l'. destruct Hline as [E|E]; rewrite E in *; lia. } unfold resolve. rewrite El. cbn [bind].
    match goal with |- context [mapM ?g _] => set (f := g) end. rewrite (pairs_all Hall).
    assert (Hax : forall i : nat, exists rc, get_axis l (Z.of_nat i) = Ok rc /\ ith_cell (l_rows l) (l_cols l) (Z.of_nat i mod np) rc).
    { intros i. rewrite (at_wrap l G) by (auto; lia). rewrite Hsz. apply axis_ok; auto. rewrite Hsz. apply Z.mod_pos_bound. pose proof np_pos. lia. }
    destruct (mapM_Ok f (enumerate 0 (flat_map (fun c => map (fun p => (c, p)) pivots) cs))) as (out & Eo & F).
    { intros [i [c p]] Hi. unfold f. destruct (Hax i) as (rc & -> & _). cbn [bind]. eauto. }
    exists out. split; [exact Eo|]. split.
    - clear - F. revert out F. generalize 0%nat. generalize (flat_map (fun c => map (fun p => (c, p)) pivots) cs) as ps. induction ps as [|[c p] ps IH]; intros k out F; cbn [enumerate] in F.
      + inversion F. reflexivity.
      + inversion F as [|x [[c' p'] a'] xs bs Hf Hr]. subst. unfold f in Hf. destruct (get_axis l (Z.of_nat k)); [|discriminate]. injection Hf as -> -> ->.
        cbn [map fst]. f_equal. eapply IH; eassumption.
    - intros c p a Hi. apply In_nth_error in Hi as (i & Ei). destruct (F2_nth _ _ _ F i _ Ei) as ([j [c' p']] & Ej & Hf).
      apply enumerate_nth in Ej as [Ep Ej]. cbn [fst snd Nat.add] in Ep, Ej. subst j. unfold f in Hf. destruct (Hax i) as (rc & Ea & Hc). rewrite Ea in Hf.
      cbn [bind] in Hf. injection Hf as -> -> ->. apply flat_nth in Ep as (c0 & p0 & _ & E2 & [= -> ->]).
      exists (i mod List.length pivots)%nat. split; [exact E2|]. rewrite Nat2Z.inj_mod. exact Hc.
  Qed.
End Resolve.

(** With [concat]: the axis of a series is that of its constraint's trace. *)
Lemma resolve_concat {P} (peq : P -> P -> bool) per_line (cs : list (con P)) pivots : 1 <= per_line -> cs <> [] ->
  (forall c, In c cs -> (c_trace c < List.length cs)%nat) -> exists l out, mk_layout per_line (Z.of_nat (List.length cs)) = Ok l /\
  resolve peq true per_line cs pivots = Ok out /\ map fst out = cp_pairs peq cs pivots /\
  forall c p a, In (c, p, a) out -> ith_cell (l_rows l) (l_cols l) (Z.of_nat (c_trace c)) a.
Proof.
  intros Hl Hcs Ht. assert (Hn : 1 <= Z.of_nat (List.length cs)) by (destruct cs; [easy|cbn [List.length]; lia]).
  destruct (mk_grid per_line _ Hl Hn) as (l & El & H1 & H2 & H3 & H4). assert (G : good l) by exact (mk_good _ _ _ Hl Hn El).
  unfold resolve. rewrite El. cbn [bind]. match goal with |- context [mapM ?g _] => set (f := g) end.
  assert (Hin : forall c p, In (c, p) (cp_pairs peq cs pivots) -> In c cs).
  { intros c p Hi. unfold cp_pairs in Hi. apply in_flat_map in Hi as (c' & Hc & Hp). apply in_map_iff in Hp as (p' & [= -> ->] & _). exact Hc. }
  destruct (mapM_Ok f (enumerate 0 (cp_pairs peq cs pivots))) as (out & Eo & F).
  { intros [i [c p]] Hi. apply enumerate_In in Hi as [_ Hi]. apply nth_error_In in Hi. apply Hin, Ht in Hi. unfold f.
    destruct (axis_ok l G (Z.of_nat (c_trace c)) ltac:(lia)) as (rc & -> & _). cbn [bind]. eauto. }
  exists l, out. split; [reflexivity|]. split; [exact Eo|]. split.
  - clear - F. revert out F. generalize 0%nat. induction (cp_pairs peq cs pivots) as [|[c p] ps IH]; intros k out F; cbn [enumerate] in F.
    + inversion F. reflexivity.
    + inversion F as [|x [[c' p'] a'] xs bs Hf Hr]. subst. unfold f in Hf. destruct (get_axis l _); [|discriminate]. injection Hf as -> -> ->.
      cbn [map fst]. f_equal. eapply IH; eassumption.
  - intros c p a Hi. apply In_nth_error in Hi as (i & Ei). destruct (F2_nth _ _ _ F i _ Ei) as ([j [c' p']] & Ej & Hf).
    apply nth_error_In in Ej. apply enumerate_In in Ej as [_ Ej]. apply nth_error_In in Ej. unfold f in Hf. pose proof (Hin _ _ Ej) as Hc'. apply Ht in Hc'.
    destruct (axis_ok l G (Z.of_nat (c_trace c')) ltac:(lia)) as (rc & Ea & Hc). rewrite Ea in Hf. cbn [bind] in Hf. injection Hf as -> -> ->. exact Hc.
Qed.
