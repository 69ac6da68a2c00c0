(** Proofs about ILinePlot. *)
From Coq Require Import List Ascii String ZArith QArith Bool Sorted Lia Lqa.
From Verif Require Import Lib.PyStr Lib.PyStrFacts Lib.TotalOrder Model.ILineGen Spec.ILineGen Proofs.ILineGenP Proofs.EventPlotP Model.ILine Spec.ILine.
Import ListNotations.
Local Open Scope list_scope.

(** ** Filling *)
Lemma nth_pre {A} (p l : list A) k : nth_error (p ++ l) (List.length p + k) = nth_error l k.
Proof. rewrite nth_error_app2 by lia. f_equal. lia. Qed.
Lemma nth_pre1 {A} (p l : list A) k : (k < List.length p)%nat -> nth_error (p ++ l) k = nth_error p k.
Proof. apply nth_error_app1. Qed.
Lemma snoc_app {A} (p : list A) x l : p ++ x :: l = (p ++ [x]) ++ l.
Proof. now rewrite <- app_assoc. Qed.
Lemma snoc_len {A} (p : list A) x k : (List.length p + S k = List.length (p ++ [x]) + k)%nat.
Proof. rewrite app_length. cbn. lia. Qed.

Lemma prev_app p l i v : Prev p (List.length p) i v -> Prev (p ++ l) (List.length p) i v.
Proof.
  intros (H1 & H2 & H3). split; auto. split; [rewrite nth_pre1; auto|]. intros j Hj. rewrite nth_pre1 by lia. apply H3. lia.
Qed.
Lemma noprev_app p l : NoPrev p (List.length p) -> NoPrev (p ++ l) (List.length p).
Proof. intros H j Hj. rewrite nth_pre1 by lia. now apply H. Qed.
Lemma prev_snoc_none p i v : Prev p (List.length p) i v -> Prev (p ++ [None]) (List.length (p ++ [None])) i v.
Proof.
  intros (H1 & H2 & H3). rewrite app_length. cbn [List.length]. split; [lia|]. split; [rewrite nth_pre1; auto|].
  intros j Hj. destruct (Nat.eq_dec j (List.length p)) as [-> | N].
  - rewrite <- (Nat.add_0_r (List.length p)). now rewrite nth_pre.
  - rewrite nth_pre1 by lia. apply H3. lia.
Qed.
Lemma prev_snoc_some p v : Prev (p ++ [Some v]) (List.length (p ++ [Some v])) (List.length p) v.
Proof.
  rewrite app_length. cbn [List.length]. split; [lia|]. split; [|intros; lia]. pose proof (nth_pre p [Some v] 0) as X. now rewrite Nat.add_0_r in X.
Qed.
Lemma noprev_snoc p : NoPrev p (List.length p) -> NoPrev (p ++ [None]) (List.length (p ++ [None])).
Proof.
  intros H j Hj. rewrite app_length in Hj. cbn in Hj. destruct (Nat.eq_dec j (List.length p)) as [-> | N].
  - rewrite <- (Nat.add_0_r (List.length p)). now rewrite nth_pre.
  - rewrite nth_pre1 by lia. apply H. lia.
Qed.

Lemma ffill_len l : forall last, List.length (ffill_from last l) = List.length l.
Proof. induction l as [|[v|] l IH]; intros last; cbn; auto. Qed.
Lemma ffill_known l : forall last k v, nth_error l k = Some (Some v) -> nth_error (ffill_from last l) k = Some (Some v).
Proof. induction l as [|[w|] l IH]; intros last [|k] v H; try discriminate; cbn in *; auto. Qed.
Definition last_of (p : list (option Q)) (last : option Q) : Prop :=
  (NoPrev p (List.length p) /\ last = None) \/ exists i v, Prev p (List.length p) i v /\ last = Some v.
Lemma ffill_held l : forall p last k, last_of p last -> nth_error l k = Some None ->
  exists x, nth_error (ffill_from last l) k = Some x /\ Held (p ++ l) (List.length p + k) x.
Proof.
  induction l as [|o l IH]; intros p last [|k] L H; try discriminate; cbn [nth_error] in H.
  - injection H as ->. cbn [ffill_from nth_error]. exists last. split; auto. rewrite Nat.add_0_r. destruct L as [[N ->]|(i & v & N & ->)].
    + left. split; auto. now apply noprev_app.
    + right. exists i, v. split; auto. now apply prev_app.
  - rewrite snoc_app, (snoc_len p o). destruct o as [v|]; cbn [ffill_from nth_error]; apply IH; auto.
    + right. exists (List.length p), v. split; auto. apply prev_snoc_some.
    + destruct L as [[N ->]|(i & v & N & ->)]; [left|right].
      * split; auto. now apply noprev_snoc.
      * exists i, v. split; auto. now apply prev_snoc_none.
Qed.
Lemma last_nil : last_of [] None.
Proof. left. split; auto. intros j Hj. cbn in Hj. lia. Qed.
Lemma ffill_filled l : Filled Held l (ffill l).
Proof.
  unfold ffill. split; [apply ffill_len|]. split; [intros; now apply ffill_known|]. intros k H. exact (ffill_held l [] None k last_nil H).
Qed.
Lemma nth_rev {A} (l : list A) k : (k < List.length l)%nat -> nth_error (rev l) k = nth_error l (List.length l - S k).
Proof.
  intros H. destruct l as [|a l]; [cbn in H; lia|]. rewrite (nth_error_nth' (rev (a :: l)) a) by now rewrite rev_length.
  rewrite rev_nth by auto. symmetry. apply nth_error_nth'. lia.
Qed.
Lemma nth_some_lt {A} (l : list A) k x : nth_error l k = Some x -> (k < List.length l)%nat.
Proof. intros H. apply nth_error_Some. congruence. Qed.
Lemma bfill_filled l : Filled Back l (bfill l).
Proof.
  destruct (ffill_filled (rev l)) as (F1 & F2 & F3). unfold bfill. rewrite rev_length in F1. split; [now rewrite rev_length|].
  assert (E : forall k, (k < List.length l)%nat -> nth_error (rev (ffill (rev l))) k = nth_error (ffill (rev l)) (List.length l - S k)).
  { intros k Hk. rewrite nth_rev by lia. now rewrite F1. }
  split.
  - intros k v H. pose proof (nth_some_lt _ _ _ H) as L. rewrite E by auto. apply F2. rewrite nth_rev by lia. rewrite <- H. f_equal. lia.
  - intros k H. pose proof (nth_some_lt _ _ _ H) as L. destruct (F3 (List.length l - S k)%nat) as (x & X1 & X2).
    { rewrite nth_rev by lia. rewrite <- H. f_equal. lia. }
    exists x. rewrite E by auto. split; auto. destruct X2 as [[N ->]|(i & v & (P1 & P2 & P3) & ->)].
    + left. split; auto. intros j Hj. specialize (N (List.length l - S j)%nat ltac:(lia)). rewrite nth_rev in N by lia. rewrite <- N. f_equal. lia.
    + right. exists (List.length l - S i)%nat, v. split; auto. rewrite nth_rev in P2 by lia. split; [lia|]. split; auto.
      intros j Hj. specialize (P3 (List.length l - S j)%nat ltac:(lia)). rewrite nth_rev in P3 by lia. rewrite <- P3. f_equal. lia.
Qed.

Lemma next_known_some l : forall d w, next_known l = Some (d, w) -> nth_error l d = Some (Some w) /\ forall j, (j < d)%nat -> nth_error l j = Some None.
Proof.
  induction l as [|[v|] l IH]; intros d w H; cbn [next_known] in H; try discriminate.
  - injection H as <- <-. split; auto. intros; lia.
  - destruct (next_known l) as [[n x]|]; [|discriminate]. injection H as <- <-. destruct (IH n x eq_refl) as [H1 H2]. split; auto.
    intros [|j] Hj; auto. cbn. apply H2. lia.
Qed.
Lemma next_known_none l : next_known l = None -> forall j, (j < List.length l)%nat -> nth_error l j = Some None.
Proof.
  induction l as [|[v|] l IH]; intros H j Hj; cbn [next_known List.length] in *; try discriminate; [lia|].
  destruct (next_known l) as [[n x]|]; [discriminate|]. destruct j as [|j]; auto. cbn. apply IH; auto. lia.
Qed.
Lemma interp_len l : forall last, List.length (interp_from last l) = List.length l.
Proof. induction l as [|[v|] l IH]; intros last; cbn [interp_from List.length]; auto. destruct last as [[i v]|]; cbn [List.length]; auto. Qed.
Lemma interp_known l : forall last k v, nth_error l k = Some (Some v) -> nth_error (interp_from last l) k = Some (Some v).
Proof.
  induction l as [|[w|] l IH]; intros last [|k] v H; try discriminate; cbn [interp_from nth_error] in *; auto.
  destruct last as [[i x]|]; cbn [nth_error]; auto.
Qed.
Definition last_at (p : list (option Q)) (last : option (nat * Q)) : Prop :=
  (NoPrev p (List.length p) /\ last = None) \/ exists i v n, Prev p (List.length p) i v /\ last = Some (n, v) /\ n = (List.length p - i)%nat.
Lemma interp_line l : forall p last k, last_at p last -> nth_error l k = Some None ->
  exists x, nth_error (interp_from last l) k = Some x /\ Line (p ++ l) (List.length p + k) x.
Proof.
  induction l as [|o l IH]; intros p last [|k] L H; try discriminate; cbn [nth_error] in H.
  - injection H as ->. cbn [interp_from]. rewrite Nat.add_0_r. destruct L as [[N ->]|(i & v & n & N & -> & ->)]; cbn [nth_error].
    + exists None. split; auto. left. split; auto. now apply noprev_app.
    + assert (Hi : (i < List.length p)%nat) by apply N. eexists. split; [reflexivity|]. right. exists i, v. split; [now apply prev_app|].
      destruct (next_known l) as [[d w]|] eqn:E.
      * apply next_known_some in E as [E1 E2]. right. eexists (List.length p + S d)%nat, w, _. split; [|split; [reflexivity|]].
        -- split; [lia|]. split; [rewrite nth_pre; exact E1|]. intros j Hj. replace j with (List.length p + S (j - S (List.length p)))%nat by lia.
           rewrite nth_pre. cbn. apply E2. lia.
        -- replace (List.length p - i + S d)%nat with (List.length p + S d - i)%nat by lia.
           set (a := inject_Z (Z.of_nat (List.length p - i))). set (b := inject_Z (Z.of_nat (List.length p + S d - i))).
           assert (Nb : ~ b == 0). { unfold b. intros X. assert (Z.of_nat (List.length p + S d - i) = 0%Z) by now apply inject_Z_injective. lia. }
           field. exact Nb.
      * left. split; auto. intros j Hj. rewrite app_length in Hj. cbn [List.length] in Hj.
        replace j with (List.length p + S (j - S (List.length p)))%nat by lia. rewrite nth_pre. cbn. apply (next_known_none l E). lia.
  - rewrite snoc_app, (snoc_len p o). destruct o as [v|]; cbn [interp_from nth_error].
    + apply IH; auto. right. exists (List.length p), v, 1%nat. split; [apply prev_snoc_some|]. split; auto. rewrite app_length. cbn. lia.
    + destruct L as [[N ->]|(i & v & n & N & -> & ->)]; cbn [nth_error]; apply IH; auto.
      * left. split; auto. now apply noprev_snoc.
      * right. exists i, v, (S (List.length p - i)). split; [now apply prev_snoc_none|]. split; auto. rewrite app_length. cbn. assert (i < List.length p)%nat by apply N. lia.
Qed.
Lemma interp_filled l : Filled Line l (interpolate l).
Proof.
  unfold interpolate. split; [apply interp_len|]. split; [intros; now apply interp_known|]. intros k H.
  apply (interp_line l [] None k); auto. left. split; auto. intros j Hj. cbn in Hj. lia.
Qed.
Lemma fill_filled draw l : Filled (Steps draw) l (fill draw l).
Proof.
  unfold fill, Steps. destruct draw as [s|]; [|apply interp_filled]. destruct (eqs s $"steps-post") eqn:E1; cbn [orb]; [apply ffill_filled|].
  destruct (eqs s $"steps-mid") eqn:E2.
  - apply eqs_eq in E2. subst s. cbn -[ffill]. apply ffill_filled.
  - destruct (eqs s $"steps-pre"); [apply bfill_filled|apply interp_filled].
Qed.
Lemma fill_len draw l : List.length (fill draw l) = List.length l.
Proof. apply (fill_filled draw l). Qed.

(** ** Tables *)
Lemma transpose_len {X} n : forall cols : list (list X), List.length (transpose n cols) = n.
Proof. induction n as [|n IH]; intros cols; cbn; auto. Qed.
Lemma transpose_at {X} n : forall (cols : list (list X)) k, Forall (fun c => List.length c = n) cols -> (k < n)%nat ->
  exists row, nth_error (transpose n cols) k = Some row /\ List.length row = List.length cols /\
    forall j c x, nth_error cols j = Some c -> nth_error c k = Some x -> nth_error row j = Some x.
Proof.
  induction n as [|n IH]; intros cols k F Hk; [lia|]. cbn [transpose]. destruct k as [|k]; cbn [nth_error].
  - eexists. split; [reflexivity|]. clear IH. induction F as [|c cols E F IH]; cbn [flat_map].
    + split; auto. intros [|j]; discriminate.
    + destruct c as [|y c]; [discriminate|]. cbn [app List.length]. destruct IH as [I1 I2]. split; [lia|]. intros [|j] c' x H1 H2; cbn in *.
      * injection H1 as <-. cbn in H2. congruence.
      * eauto.
  - destruct (IH (map (@tl X) cols) k) as (row & R1 & R2 & R3); [|lia|].
    + apply Forall_forall. intros c Hc. apply in_map_iff in Hc as (c' & <- & Hc'). rewrite Forall_forall in F. specialize (F c' Hc').
      destruct c'; [discriminate|]. cbn in *. lia.
    + exists row. split; auto. split; [now rewrite R2, map_length|]. intros j c x H1 H2. apply (R3 j (tl c) x).
      * rewrite nth_error_map, H1. reflexivity.
      * destruct c; [discriminate|exact H2].
Qed.

Section Plot.
  Context {T : Type} (leb : T -> T -> bool) (dedup : list T -> list T).
  Hypothesis TOT : total_order leb.
  Notation series := (list (T * option Q)).
  Notation dict := (list (str * series)).
  (** The index is put in order by [handle_duplicate_index]. *)
  Definition Good (s : series) : Prop := StronglySorted (lt leb) (dedup (map fst s)) /\ List.length (dedup (map fst s)) = List.length s.
  Lemma combine_fst {A B} (a : list A) (b : list B) : List.length a = List.length b -> map fst (combine a b) = a.
  Proof. revert b. induction a as [|x a IH]; intros [|y b] H; try discriminate; cbn; auto. f_equal. apply IH. now injection H. Qed.
  Lemma combine_snd {A B} (a : list A) (b : list B) : List.length a = List.length b -> map snd (combine a b) = b.
  Proof. revert b. induction a as [|x a IH]; intros [|y b] H; try discriminate; cbn; auto. f_equal. apply IH. now injection H. Qed.
  Lemma redate_ok s : Good s -> Redated dedup s (redate dedup s).
  Proof.
    intros [_ L]. unfold redate, Redated. rewrite combine_fst, combine_snd by (rewrite map_length; lia). auto.
  Qed.
  Lemma at_time_value s t : NoDup (map fst s) -> ValueAt s t (at_time leb t s).
  Proof.
    intros N. unfold at_time, ValueAt. destruct (find (fun x => teq leb t (fst x)) s) as [[t' v]|] eqn:E.
    - apply find_some in E as [E1 E2]. cbn in E2. apply (teq_eq leb TOT) in E2. subst t'. now left.
    - right. split; auto. intros y H. apply (find_none _ _ E) in H. cbn in H. now rewrite (teq_refl leb TOT) in H.
  Qed.
  Lemma own_values (s : series) : Forall2 (ValueAt s) (map fst s) (map snd s).
  Proof.
    assert (G : forall r, incl r s -> Forall2 (ValueAt s) (map fst r) (map snd r)).
    { induction r as [|[t x] r IH]; intros I; cbn [map fst snd]; constructor.
      - left. apply I. now left.
      - apply IH. intros y Hy. apply I. now right. }
    apply G, incl_refl.
  Qed.
  Lemma merge_ok ss : ss <> [] -> Forall (fun s => StronglySorted (lt leb) (map fst s)) ss -> exists ix cols, merge leb ss = Ok (ix, cols) /\
    StronglySorted (lt leb) ix /\ (forall t, In t ix <-> exists s, In s ss /\ In t (map fst s)) /\
    Forall2 (fun s col => Forall2 (ValueAt s) ix col) ss cols.
  Proof.
    intros N F. unfold merge. destruct ss as [|s r]; [contradiction|]. rewrite Forall_forall in F.
    destruct (forallb (fun s' => eq_list leb (map fst s) (map fst s')) r) eqn:E.
    - assert (A : forall s', In s' (s :: r) -> map fst s' = map fst s).
      { intros s' [<-|H]; auto. rewrite forallb_forall in E. apply E in H. apply (eq_list_eq leb TOT) in H. auto. }
      eexists _, _. split; [reflexivity|]. split; [apply F; now left|]. split.
      + intros t. split.
        * intros H. exists s. split; [now left|auto].
        * intros (s' & H1 & H2). now rewrite A in H2.
      + remember (s :: r) as ss. clear -A. assert (G : forall l, incl l ss -> Forall2 (fun s0 col => Forall2 (ValueAt s0) (map fst s) col) l (map (map snd) l)).
        { induction l as [|x l IH]; intros I; cbn [map]; constructor.
          - rewrite <- (A x) by (apply I; now left). apply own_values.
          - apply IH. intros y Hy. apply I. now right. }
        apply G, incl_refl.
    - assert (D : forallb (fun s' => nodup_b leb (map fst s')) (s :: r) = true).
      { apply forallb_forall. intros s' H. apply (nodup_b_spec leb TOT). apply (sorted_nodup leb TOT). now apply F. }
      rewrite D. eexists _, _. split; [reflexivity|]. split; [apply (sort_u_sorted leb TOT)|]. split.
      + intros t. rewrite (sort_u_In leb TOT), in_concat. split.
        * intros (x & H1 & H2). apply in_map_iff in H1 as (s' & <- & H1). eauto.
        * intros (s' & H1 & H2). exists (map fst s'). split; auto. now apply in_map.
      + generalize (sort_u leb (List.concat (map (map fst) (s :: r)))) as ix. intros ix.
        assert (G : forall l, incl l (s :: r) -> Forall2 (fun s0 col => Forall2 (ValueAt s0) ix col) l (map (fun s' => map (fun t => at_time leb t s') ix) l)).
        { induction l as [|x l IH]; intros I; cbn [map]; constructor.
          - assert (NoDup (map fst x)) as Nx by (apply (sorted_nodup leb TOT), F, I; now left).
            clear -Nx TOT. induction ix as [|t ix IH]; cbn [map]; constructor; auto. now apply at_time_value.
          - apply IH. intros y Hy. apply I. now right. }
        apply (G (s :: r)), incl_refl.
  Qed.
  Lemma F2_len {A B} (R : A -> B -> Prop) l r : Forall2 R l r -> List.length l = List.length r.
  Proof. induction 1; cbn; auto. Qed.
  Lemma F2_nth {A B} (R : A -> B -> Prop) l r : Forall2 R l r -> forall i a, nth_error l i = Some a -> exists b, nth_error r i = Some b /\ R a b.
  Proof. induction 1; intros [|i] a0 E; try discriminate; cbn in *; [injection E as <-; eauto|auto]. Qed.
  Lemma fix_ok draw d : (1 < List.length d)%nat -> Forall (fun x => Good (snd x)) d -> exists f, fix_indexes leb dedup draw d = Ok f /\ Merged leb dedup draw d f.
  Proof.
    intros L F. unfold fix_indexes. replace (Nat.leb (List.length d) 1) with false by (symmetry; apply Nat.leb_gt; lia).
    rewrite Forall_forall in F.
    destruct (merge_ok (map (fun x => redate dedup (snd x)) d)) as (ix & cols & E & S & I & V).
    { destruct d; [cbn in L; lia|discriminate]. }
    { apply Forall_forall. intros s H. apply in_map_iff in H as (x & <- & H). specialize (F x H). destruct (redate_ok _ F) as [-> _]. apply F. }
    rewrite E. cbn [bind fst snd]. eexists. split; [reflexivity|].
    assert (Lc : List.length cols = List.length d) by (apply F2_len in V; now rewrite map_length in V).
    assert (Fc : Forall (fun c => List.length c = List.length ix) (map (fill draw) cols)).
    { apply Forall_forall. intros c H. apply in_map_iff in H as (c' & <- & H). rewrite fill_len. clear -V H.
      induction V as [|s col ss cols H1 _ IH]; [destruct H|]. destruct H as [<-|H]; auto. apply F2_len in H1. auto. }
    split; [reflexivity|]. split; [|split; [exact S|split]].
    - split; cbn [f_values f_index f_labels]; [apply transpose_len|]. apply Forall_forall. intros row H. apply In_nth_error in H as [k H].
      pose proof (nth_some_lt _ _ _ H) as Lk. rewrite transpose_len in Lk. destruct (transpose_at _ _ k Fc Lk) as (row' & R1 & R2 & _).
      rewrite H in R1. injection R1 as <-. now rewrite R2, !map_length.
    - intros t. cbn [f_index]. rewrite I. split.
      + intros (s & H1 & H2). apply in_map_iff in H1 as ([k s0] & <- & H1). exists k, s0. split; auto.
        destruct (redate_ok s0 (F _ H1)) as [X _]. cbn [snd] in H2. now rewrite X in H2.
      + intros (k & s & H1 & H2). exists (redate dedup s). split; [apply in_map_iff; exists (k, s); auto|].
        destruct (redate_ok s (F _ H1)) as [X _]. now rewrite X.
    - intros j k s H. assert (Hr : nth_error (map (fun x => redate dedup (snd x)) d) j = Some (redate dedup s)) by (rewrite nth_error_map, H; reflexivity).
      destruct (F2_nth _ _ _ V j _ Hr) as (raw & R1 & R2). exists (redate dedup s), raw, (fill draw raw).
      split; [apply redate_ok, (F (k, s)); now apply nth_error_In in H|]. split; [apply fill_filled|]. split; [|exact R2].
      assert (Lr : List.length (fill draw raw) = List.length ix) by (rewrite fill_len; symmetry; now apply F2_len in R2).
      split; [exact Lr|]. intros i x Hx. pose proof (nth_some_lt _ _ _ Hx) as Li. rewrite Lr in Li.
      destruct (transpose_at _ _ i Fc Li) as (row & X1 & _ & X3). exists row. split; [exact X1|]. apply (X3 j (fill draw raw) x); auto.
      rewrite nth_error_map, R1. reflexivity.
  Qed.
  Lemma frame_ok draw d : Forall (fun x => Good (snd x)) d -> exists f, frame_of leb dedup draw d = Ok f /\ FrameOf leb dedup draw d f.
  Proof.
    intros F. destruct d as [|[k s] [|y d]]; cbn [frame_of FrameOf].
    - eauto.
    - eexists. split; [reflexivity|]. auto.
    - destruct (fix_ok draw ((k, s) :: y :: d)) as (f & E & M); [cbn; lia|auto|]. exists f. split; [exact E|exact M].
  Qed.

  (** ** Dictionaries *)
  Definition puts {V} (pairs d : list (str * V)) : list (str * V) := fold_left (fun d kv => dset eqs (fst kv) (snd kv) d) pairs d.
  Lemma In_nodup_get {V} (d : list (str * V)) k v : NoDup (map fst d) -> In (k, v) d <-> dget eqs k d = Some v.
  Proof.
    induction d as [|[k' v'] d IH]; intros N; cbn [dget].
    - split; [intros []|discriminate].
    - inversion N as [|? ? N1 N2]; subst. cbn [In]. rewrite IH by auto. destruct (eqs k k') eqn:E.
      + apply eqs_eq in E. subst k'. split; [|intros H; left; congruence]. intros [H|H]; [congruence|]. exfalso. apply N1.
        change k with (fst (k, v)). apply in_map. now apply IH.
      + split; [intros [H|H]; [|auto]|auto]. injection H as -> ->. rewrite eqs_refl in E. discriminate.
  Qed.
  Lemma dset_keys {V} k (v : V) d : map fst (dset eqs k v d) = if dmem eqs k d then map fst d else map fst d ++ [k].
  Proof.
    unfold dmem. induction d as [|[k' v'] d IH]; cbn [dset dget map fst]; auto. destruct (eqs k k') eqn:E; cbn [map fst].
    - apply eqs_eq in E. now subst.
    - rewrite IH. destruct (dget eqs k d); auto.
  Qed.
  Lemma puts_snoc {V} (pairs : list (str * V)) k v : puts (pairs ++ [(k, v)]) [] = dset eqs k v (puts pairs []).
  Proof. unfold puts. now rewrite fold_left_app. Qed.
  Lemma nth_snoc {A} (l : list A) x i y : nth_error (l ++ [x]) i = Some y -> nth_error l i = Some y \/ i = List.length l /\ y = x.
  Proof.
    intros H. destruct (Nat.lt_ge_cases i (List.length l)) as [L|L].
    - rewrite nth_error_app1 in H by auto. auto.
    - right. assert (i < List.length (l ++ [x]))%nat by (apply nth_error_Some; congruence). rewrite app_length in *. cbn in *.
      assert (i = List.length l) by lia. subst i. rewrite nth_error_app2, Nat.sub_diag in H by lia. cbn in H. split; congruence.
  Qed.
  Lemma nth_last {A} (l : list A) x : nth_error (l ++ [x]) (List.length l) = Some x.
  Proof. rewrite nth_error_app2, Nat.sub_diag by lia. reflexivity. Qed.
  Lemma last_exists {V} (pairs : list (str * V)) k : In k (map fst pairs) -> exists y, LastPair pairs k y.
  Proof.
    induction pairs as [|[k0 v0] ps IH] using rev_ind; [intros []|]. rewrite map_app, in_app_iff. cbn [map fst In]. intros H.
    destruct (eqs k k0) eqn:E.
    - apply eqs_eq in E. subst k0. exists v0, (List.length ps). split; [apply nth_last|]. intros j v' Hj. apply nth_some_lt in Hj.
      rewrite app_length in Hj. cbn in Hj. lia.
    - destruct H as [H|[H|[]]]; [|subst; rewrite eqs_refl in E; discriminate]. destruct (IH H) as (y & i & H1 & H2). exists y, i.
      split; [rewrite nth_error_app1; auto; now apply nth_some_lt in H1|]. intros j v' Hj. destruct (nth_snoc _ _ _ _ Hj) as [X|[_ X]]; [eapply H2; eauto|].
      injection X as -> _. rewrite eqs_refl in E. discriminate.
  Qed.
  Lemma first_exists {V} (pairs : list (str * V)) k : In k (map fst pairs) -> exists i, FirstPos pairs k i.
  Proof.
    induction pairs as [|[k0 v0] ps IH]; [intros []|]. cbn [map fst In]. intros H. destruct (eqs k k0) eqn:E.
    - apply eqs_eq in E. subst k0. exists 0%nat. split; [exists v0; reflexivity|]. intros; lia.
    - destruct H as [H|H]; [subst; rewrite eqs_refl in E; discriminate|]. destruct (IH H) as (a & [w A] & B). exists (S a).
      split; [exists w; exact A|]. intros [|j] v' Hj; cbn in Hj.
      + injection Hj as -> _. rewrite eqs_refl in E. discriminate.
      + apply B in Hj. lia.
  Qed.
  Lemma puts_dict {V} (pairs : list (str * V)) : DictOf pairs (puts pairs []).
  Proof.
    induction pairs as [|[k v] pairs IH] using rev_ind.
    - split; [constructor|]. split.
      + intros k v. split; [intros []|]. intros (i & H & _). destruct i; discriminate.
      + intros [|i] j k k' v v' H; discriminate.
    - rewrite puts_snoc. destruct IH as (N & I & O). set (d := puts pairs []) in *.
      assert (N' : NoDup (map fst (dset eqs k v d))) by now apply (dset_NoDup eqs eqs_eq).
      assert (K : forall x, In x (map fst d) <-> exists y, LastPair pairs x y).
      { intros x. rewrite in_map_iff. split.
        - intros ([x' y] & <- & H). apply I in H. eauto.
        - intros (y & H). apply I in H. exists (x, y). auto. }
      assert (FP : forall x a, FirstPos pairs x a -> FirstPos (pairs ++ [(k, v)]) x a).
      { intros x a [[w A] B]. pose proof (nth_some_lt _ _ _ A) as La. split; [exists w; rewrite nth_error_app1; auto|].
        intros j v' Hj. destruct (nth_snoc _ _ _ _ Hj) as [H|[-> _]]; [eapply B; eauto|lia]. }
      split; [exact N'|]. split.
      + intros x y. rewrite (In_nodup_get _ x y N'), (dget_dset eqs eqs_eq). destruct (eqs x k) eqn:E.
        * apply eqs_eq in E. subst x. split.
          -- intros H. injection H as <-. exists (List.length pairs). split; [apply nth_last|]. intros j v' Hj. apply nth_some_lt in Hj.
             rewrite app_length in Hj. cbn in Hj. lia.
          -- intros (i & H1 & H2). specialize (H2 _ _ (nth_last pairs (k, v))). destruct (nth_snoc _ _ _ _ H1) as [H|[_ H]]; [apply nth_some_lt in H; lia|congruence].
        * rewrite <- (In_nodup_get d x y N), I. split.
          -- intros (i & H1 & H2). exists i. split; [rewrite nth_error_app1; auto; now apply nth_some_lt in H1|]. intros j v' Hj.
             destruct (nth_snoc _ _ _ _ Hj) as [H|[_ H]]; [eapply H2; eauto|]. injection H as -> _. rewrite eqs_refl in E. discriminate.
          -- intros (i & H1 & H2). destruct (nth_snoc _ _ _ _ H1) as [H|[_ H]]; [|injection H as -> _; rewrite eqs_refl in E; discriminate].
             exists i. split; auto. intros j v' Hj. eapply H2. rewrite nth_error_app1; eauto. now apply nth_some_lt in Hj.
      + intros i j x x' w w' Hi Hj L.
        assert (Ki : nth_error (map fst (dset eqs k v d)) i = Some x) by (rewrite nth_error_map, Hi; reflexivity).
        assert (Kj : nth_error (map fst (dset eqs k v d)) j = Some x') by (rewrite nth_error_map, Hj; reflexivity).
        rewrite dset_keys in Ki, Kj.
        assert (Old : forall i j x x', nth_error (map fst d) i = Some x -> nth_error (map fst d) j = Some x' -> (i < j)%nat ->
                 exists a b, FirstPos (pairs ++ [(k, v)]) x a /\ FirstPos (pairs ++ [(k, v)]) x' b /\ (a < b)%nat).
        { clear -O FP. intros i j x x' Ki Kj L. rewrite nth_error_map in Ki, Kj. destruct (nth_error d i) as [[a b]|] eqn:E; [|discriminate].
          destruct (nth_error d j) as [[a' b']|] eqn:E'; [|discriminate]. cbn in Ki, Kj. injection Ki as <-. injection Kj as <-.
          destruct (O i j a a' b b' E E' L) as (p & q & H1 & H2 & H3). exists p, q. auto. }
        unfold dmem in Ki, Kj. destruct (dget eqs k d) as [z|] eqn:M; [now apply (Old i j)|].
        destruct (nth_snoc _ _ _ _ Kj) as [Kj'|[Ej ->]].
        * apply (Old i j); auto. destruct (nth_snoc _ _ _ _ Ki) as [|[Ei _]]; auto. apply nth_some_lt in Kj'. lia.
        * destruct (nth_snoc _ _ _ _ Ki) as [Ki'|[Ei _]]; [|lia].
          assert (F1 : exists a, FirstPos pairs x a).
          { apply nth_error_In, K in Ki' as (y & i0 & H & _). apply first_exists. apply nth_error_In in H. now apply (in_map fst) in H. }
          destruct F1 as [a Fa]. exists a, (List.length pairs). split; [now apply FP|]. split.
          -- split; [exists v; apply nth_last|]. intros j' v' Hj'. destruct (nth_snoc _ _ _ _ Hj') as [H|[-> _]]; [|lia].
             exfalso. assert (X : In k (map fst d)).
             { apply K, last_exists. apply nth_error_In in H. now apply (in_map fst) in H. }
             apply in_map_iff in X as ([k' y] & <- & X). apply (In_nodup_get d k' y N) in X. cbn in M. congruence.
          -- destruct Fa as [[w0 A] _]. now apply nth_some_lt in A.
  Qed.

  Lemma merge_err ss e : merge leb ss = Err e <-> e = EValue /\ (ss = [] \/ exists s s' x, In s ss /\ In s' ss /\ In x ss /\
    map fst s <> map fst s' /\ ~ NoDup (map fst x)).
  Proof.
    unfold merge. destruct ss as [|s r].
    - split; [intros H; injection H as <-; auto|]. intros [-> _]. reflexivity.
    - destruct (forallb (fun s' => eq_list leb (map fst s) (map fst s')) r) eqn:E.
      + split; [discriminate|]. intros [_ [H|(a & b & x & Ha & Hb & _ & H & _)]]; [discriminate|]. exfalso. apply H.
        rewrite forallb_forall in E. assert (A : forall s', In s' (s :: r) -> map fst s' = map fst s).
        { intros s' [<-|K]; auto. apply E in K. apply (eq_list_eq leb TOT) in K. auto. }
        rewrite (A a Ha), (A b Hb). reflexivity.
      + destruct (forallb (fun s' => nodup_b leb (map fst s')) (s :: r)) eqn:D.
        * split; [discriminate|]. intros [_ [H|(a & b & x & _ & _ & Hx & _ & H)]]; [discriminate|]. exfalso. apply H.
          rewrite forallb_forall in D. apply (nodup_b_spec leb TOT). now apply D.
        * split; [|intros [-> _]; reflexivity]. intros H. injection H as <-. split; auto. right.
          assert (X : forall A (f : A -> bool) l, forallb f l = false -> exists a, In a l /\ f a = false).
          { clear. intros A f l. induction l as [|a l IH]; cbn; [discriminate|]. destruct (f a) eqn:E; cbn; intros H; [destruct (IH H) as (b & ? & ?); eauto|eauto]. }
          apply X in E as (b & Hb & E). apply X in D as (x & Hx & D). exists s, b, x. split; [now left|]. split; [now right|]. split; auto. split.
          -- intros K. apply (eq_list_eq leb TOT) in K. congruence.
          -- intros K. apply (nodup_b_spec leb TOT) in K. congruence.
  Qed.
  (** The frame cannot be made exactly when the times differ and some time is still repeated. *)
  Lemma frame_err draw d e : (forall s : series, List.length (dedup (map fst s)) = List.length s) ->
    frame_of leb dedup draw d = Err e <-> e = EValue /\ exists s s' x, In s (map snd d) /\ In s' (map snd d) /\ In x (map snd d) /\
      dedup (map fst s) <> dedup (map fst s') /\ ~ NoDup (dedup (map fst x)).
  Proof.
    intros L. assert (R : forall s, map fst (redate dedup s) = dedup (map fst s)).
    { intros s. unfold redate. apply combine_fst. now rewrite map_length, L. }
    destruct d as [|[k s0] [|y d]].
    - cbn. split; [discriminate|]. intros (_ & s & _ & _ & [] & _).
    - cbn. split; [discriminate|]. intros (_ & s & s' & _ & [<-|[]] & [<-|[]] & _ & H & _). now elim H.
    - change (frame_of leb dedup draw ((k, s0) :: y :: d)) with (fix_indexes leb dedup draw ((k, s0) :: y :: d)).
      set (D := (k, s0) :: y :: d). assert (ND : D <> []) by discriminate. unfold fix_indexes.
      replace (Nat.leb (List.length D) 1) with false by reflexivity. clearbody D.
      pose proof (merge_err (map (fun x => redate dedup (snd x)) D)) as M.
      assert (E : (exists s s' x : series, In s (map snd D) /\ In s' (map snd D) /\ In x (map snd D) /\ dedup (map fst s) <> dedup (map fst s') /\ ~ NoDup (dedup (map fst x)))
                <-> merge leb (map (fun x => redate dedup (snd x)) D) = Err EValue).
      { rewrite M. split.
        - intros (s & s' & x & H1 & H2 & H3 & H4 & H5). split; auto. right.
          assert (X : forall s, In s (map snd D) -> In (redate dedup s) (map (fun x => redate dedup (snd x)) D)).
          { intros a Ha. apply in_map_iff in Ha as (b & <- & Hb). apply in_map_iff. eauto. }
          exists (redate dedup s), (redate dedup s'), (redate dedup x). rewrite !R. auto 6.
        - intros [_ [H|(s & s' & x & H1 & H2 & H3 & H4 & H5)]].
          + destruct D; [contradiction|discriminate].
          + apply in_map_iff in H1 as (a & <- & H1). apply in_map_iff in H2 as (b & <- & H2). apply in_map_iff in H3 as (c & <- & H3).
            rewrite !R in *. exists (snd a), (snd b), (snd c). repeat split; auto; now apply in_map. }
      destruct (merge leb (map (fun x => redate dedup (snd x)) D)) as [m|e0]; cbn [bind].
      + split; [discriminate|]. intros [_ H]. apply E in H. discriminate.
      + assert (e0 = EValue) as -> by (apply (M e0); auto). split.
        * intros H. injection H as <-. split; auto. now apply E.
        * now intros [-> _].
  Qed.

  (** ** Plots *)
  Context {P : Type} (peq : P -> P -> bool) (dflt : P).
  Lemma puts_good (pairs : list (str * series)) : Forall (fun x => Good (snd x)) pairs -> Forall (fun x => Good (snd x)) (puts pairs []).
  Proof.
    intros F. apply Forall_forall. intros [k v] H. destruct (puts_dict pairs) as (_ & I & _). apply I in H as (i & H & _).
    rewrite Forall_forall in F. apply (F (k, v)). now apply nth_error_In in H.
  Qed.
  Lemma put_puts legend p (cs : list (con T P)) : forall d, fold_left (put peq legend p) cs d = puts (pairs_of peq legend c_result p cs) d.
  Proof.
    induction cs as [|c cs IH]; intros d; cbn [fold_left]; auto. rewrite IH. unfold pairs_of. cbn [flat_map]. unfold put.
    destruct (dget peq p (c_result c)) as [s|]; cbn [app]; reflexivity.
  Qed.
  Definition AllGood (cs : list (con T P)) : Prop := forall c p s, In c cs -> In (p, s) (c_result c) -> Good s.
  Lemma dget_In {V} p (l : list (P * V)) s : dget peq p l = Some s -> exists p', In (p', s) l.
  Proof. induction l as [|[q v] l IH]; cbn; [discriminate|]. destruct (peq p q); [intros H; injection H as <-; eauto|]. intros H. destruct (IH H); eauto. Qed.
  Lemma pairs_good legend p cs : AllGood cs -> Forall (fun x => Good (snd x)) (pairs_of peq legend c_result p cs).
  Proof.
    intros A. apply Forall_forall. intros x H. unfold pairs_of in H. apply in_flat_map in H as (c & Hc & H).
    destruct (dget peq p (c_result c)) as [s|] eqn:E; [|destruct H]. destruct H as [<-|[]]. apply dget_In in E as [p' E]. eapply A; eauto.
  Qed.
  Definition PlotOf (draw : option str) (pairs : list (str * series)) (t : str) (ft : frame T (option Q) * str) : Prop :=
    snd ft = t /\ exists d, DictOf pairs d /\ FrameOf leb dedup draw d (fst ft).
  Lemma built draw pairs t : Forall (fun x => Good (snd x)) pairs ->
    exists f, frame_of leb dedup draw (puts pairs []) = Ok f /\ PlotOf draw pairs t (f, t).
  Proof.
    intros F. destruct (frame_ok draw _ (puts_good _ F)) as (f & E & O). exists f. split; auto. split; auto. exists (puts pairs []). split; auto. apply puts_dict.
  Qed.

  Context {F : Type} (uuid : nat -> F).
  (** Making and adding plots one by one is making all, then adding all. *)
  Inductive Builds {X} (build : nat -> X -> res (frame T (option Q) * str)) : nat -> list X -> list (frame T (option Q) * str) -> Prop :=
  | bnil k : Builds build k [] []
  | bcons k x xs ft fts : build k x = Ok ft -> Builds build (S k) xs fts -> Builds build k (x :: xs) (ft :: fts).
  Lemma add_all_plots {X} (build : nat -> X -> res (frame T (option Q) * str)) max g k xs fts : Builds build k xs fts ->
    add_all uuid build max g k xs = add_plots uuid max g k fts.
  Proof.
    induction 1 as [|k x xs [f t] fts E _ IH]; cbn [add_all add_plots]; auto. rewrite E. cbn [bind fst snd].
    destruct (add_plot uuid max g k f t); cbn [bind]; auto. now rewrite IH.
  Qed.
  Lemma builds_len {X} (build : nat -> X -> res (frame T (option Q) * str)) k xs fts : Builds build k xs fts -> List.length xs = List.length fts.
  Proof. induction 1; cbn; auto. Qed.
  Lemma view_page {X} (build : nat -> X -> res (frame T (option Q) * str)) max per_line title xs fts : Builds build 0 xs fts ->
    view uuid build max per_line title xs = page uuid max per_line title fts.
  Proof.
    intros B. unfold view, page. rewrite (builds_len _ _ _ _ B). destruct (init uuid (Z.of_nat (List.length fts)) per_line title); cbn [bind]; auto.
    now rewrite (add_all_plots _ max _ _ _ _ B).
  Qed.
  Lemma view_ok_builds {X} (build : nat -> X -> res (frame T (option Q) * str)) max per_line title xs p :
    view uuid build max per_line title xs = Ok p -> exists fts, Builds build 0 xs fts.
  Proof.
    unfold view. destruct (init uuid (Z.of_nat (List.length xs)) per_line title) as [g|]; cbn [bind]; [|discriminate].
    assert (G : forall xs k ss, add_all uuid build max g k xs = Ok ss -> exists fts, Builds build k xs fts).
    { clear. induction xs as [|x xs IH]; intros k ss H; cbn [add_all] in H; [exists []; constructor|].
      destruct (build k x) as [ft|] eqn:E; cbn [bind] in H; [|discriminate]. destruct (add_plot uuid max g k (fst ft) (snd ft)); cbn [bind] in H; [|discriminate].
      destruct (add_all uuid build max g (S k) xs) eqn:E2; cbn [bind] in H; [|discriminate]. apply IH in E2 as [fts B]. exists (ft :: fts). now constructor. }
    destruct (add_all uuid build max g 0 xs) eqn:E; cbn [bind]; [|discriminate]. intros _. eapply G; eauto.
  Qed.
  Lemma builds_F2 {X} (build : nat -> X -> res (frame T (option Q) * str)) (R : nat -> X -> frame T (option Q) * str -> Prop) xs :
    forall k, (forall i x, nth_error xs i = Some x -> exists ft, build (k + i)%nat x = Ok ft /\ R (k + i)%nat x ft) ->
    exists fts, Builds build k xs fts /\ List.length fts = List.length xs /\ forall i x ft, nth_error xs i = Some x -> nth_error fts i = Some ft -> R (k + i)%nat x ft.
  Proof.
    induction xs as [|x xs IH]; intros k H.
    - exists []. split; [constructor|]. split; auto. intros [|i]; discriminate.
    - destruct (H 0%nat x eq_refl) as (ft & E & Rf). rewrite Nat.add_0_r in *. destruct (IH (S k)) as (fts & B & L & A).
      { intros i y Hy. specialize (H (S i) y Hy). now replace (S k + i)%nat with (k + S i)%nat by lia. }
      exists (ft :: fts). split; [now constructor|]. split; [cbn; lia|]. intros [|i] y f H1 H2; cbn in *.
      + injection H1 as <-. injection H2 as <-. now rewrite Nat.add_0_r.
      + specialize (A i y f H1 H2). now replace (k + S i)%nat with (S k + i)%nat by lia.
  Qed.
  Lemma plot_page draw pivot label cs pivots max per_line title : AllGood cs ->
    exists fs, List.length fs = List.length pivots /\
      (forall i p ft, nth_error pivots i = Some p -> nth_error fs i = Some ft ->
         PlotOf draw (pairs_of peq c_str c_result p cs) (if peq p dflt then [] else pivot ++ $": " ++ label p) ft) /\
      plot leb dedup peq dflt uuid draw pivot label cs pivots max per_line title = page uuid max per_line title fs.
  Proof.
    intros A. destruct (builds_F2 (fun _ => pivot_plot leb dedup peq dflt draw pivot label cs)
      (fun _ p ft => PlotOf draw (pairs_of peq c_str c_result p cs) (if peq p dflt then [] else pivot ++ $": " ++ label p) ft) pivots 0) as (fts & B & L & R).
    { intros i p _. unfold pivot_plot. rewrite put_puts. destruct (built draw (pairs_of peq c_str c_result p cs) (pivot_title peq dflt pivot label p)) as (f & E & O); [now apply pairs_good|].
      rewrite E. cbn [bind]. eexists. split; [reflexivity|]. exact O. }
    exists fts. split; auto. split; [exact R|]. unfold plot. now apply view_page.
  Qed.
  Lemma permuted_page draw names cs pivots max per_line title : AllGood cs -> (List.length pivots <= List.length names)%nat ->
    exists fs, List.length fs = List.length pivots /\
      (forall k i p t ft, nth_error pivots k = Some (i, p) -> nth_error names k = Some t -> nth_error fs k = Some ft ->
         PlotOf draw (pairs_of peq c_short c_result p (filter (fun c => Nat.eqb (c_trace c) i) cs)) t ft) /\
      plot_permuted leb dedup peq uuid draw (Some names) cs pivots max per_line title = page uuid max per_line title fs.
  Proof.
    intros A Ln. destruct (builds_F2 (permute_plot leb dedup peq draw (Some names) cs)
      (fun k ip ft => forall t, nth_error names k = Some t -> PlotOf draw (pairs_of peq c_short c_result (snd ip) (filter (fun c => Nat.eqb (c_trace c) (fst ip)) cs)) t ft) pivots 0) as (fts & B & L & R).
    { intros k [i p] Hk. cbn [Nat.add fst snd]. unfold permute_plot. cbn [fst snd]. rewrite put_puts.
      destruct (nth_error names k) as [t|] eqn:Et; [|apply nth_error_None in Et; apply nth_some_lt in Hk; lia]. cbn [bind].
      destruct (built draw (pairs_of peq c_short c_result p (filter (fun c => Nat.eqb (c_trace c) i) cs)) t) as (f & E & O).
      { apply pairs_good. intros c q s Hc. apply filter_In in Hc as [Hc _]. now apply A. }
      rewrite E. cbn [bind]. eexists. split; [reflexivity|]. intros t' Ht. injection Ht as <-. exact O. }
    exists fts. split; auto. split.
    - intros k i p t ft H1 H2 H3. exact (R k (i, p) ft H1 H3 t H2).
    - unfold plot_permuted. now apply view_page.
  Qed.
  Lemma permuted_short draw names cs pivots max per_line title p : (List.length names < List.length pivots)%nat ->
    plot_permuted leb dedup peq uuid draw (Some names) cs pivots max per_line title <> Ok p.
  Proof.
    intros L H. unfold plot_permuted in H. apply view_ok_builds in H as [fts B].
    assert (G : forall k xs fts, Builds (permute_plot leb dedup peq draw (Some names) cs) k xs fts -> (k <= List.length names)%nat -> (k + List.length xs <= List.length names)%nat).
    { clear. induction 1 as [|k x xs ft fts E _ IH]; intros Hk; cbn [List.length]; [lia|]. unfold permute_plot in E.
      destruct (nth_error names k) eqn:N; cbn [bind] in E; [|discriminate]. apply nth_some_lt in N. specialize (IH ltac:(lia)). lia. }
    apply G in B; lia.
  Qed.
  Lemma permuted_single draw cs x pivots max per_line title :
    plot_permuted leb dedup peq uuid draw None cs (x :: pivots) max per_line title = Err (if (per_line =? 0)%Z then EZeroDiv else EType).
  Proof.
    unfold plot_permuted, view. destruct (init uuid (Z.of_nat (List.length (x :: pivots))) per_line title) as [g|e] eqn:E; cbn [bind].
    - destruct (Z.eqb_spec per_line 0) as [Z0|_]; [|reflexivity].
      assert (H : init uuid (Z.of_nat (List.length (x :: pivots))) per_line title = Err EZeroDiv) by (apply init_err; [lia|right; cbn [List.length]; repeat split; auto; lia]).
      rewrite H in E. discriminate.
    - apply init_err in E; [|lia]. destruct E as [[E _]|(_ & -> & ->)]; [cbn [List.length] in E; lia|reflexivity].
  Qed.
  Lemma add_all_more {X} (build : nat -> X -> res (frame T (option Q) * str)) max (g g' : gen) x e xs ys : forall k ss, add_all uuid build max g k xs = Ok ss ->
    (k + List.length xs <= n_figs g')%nat -> build (k + List.length xs)%nat x = Err e -> add_all uuid build max g' k (xs ++ x :: ys) = Err e.
  Proof.
    induction xs as [|y xs IH]; intros k ss H L B; cbn [app add_all List.length] in *.
    - rewrite Nat.add_0_r in B. now rewrite B.
    - destruct (build k y) as [ft|]; cbn [bind] in *; [|discriminate].
      destruct (add_plot uuid max g k (fst ft) (snd ft)) as [sc|] eqn:A; cbn [bind] in H; [|discriminate].
      apply add_plot_ok in A as (M & _ & ->).
      rewrite (proj2 (add_plot_ok uuid max g' k (fst ft) (snd ft) _) (conj M (conj (ltac:(lia) : (k < n_figs g')%nat) eq_refl))). cbn [bind].
      destruct (add_all uuid build max g (S k) xs) as [ss'|] eqn:E; cbn [bind] in H; [|discriminate].
      erewrite IH; [reflexivity|exact E|lia|]. replace (S k + List.length xs)%nat with (k + S (List.length xs))%nat by lia. exact B.
  Qed.
  Lemma permuted_index draw names cs pivots max per_line title p : (List.length names < List.length pivots)%nat -> (0 < per_line)%Z ->
    plot_permuted leb dedup peq uuid draw (Some names) cs (firstn (List.length names) pivots) max per_line title = Ok p ->
    plot_permuted leb dedup peq uuid draw (Some names) cs pivots max per_line title = Err EIndex.
  Proof.
    intros L Pl. unfold plot_permuted, view. destruct (init uuid (Z.of_nat (List.length (firstn _ pivots))) per_line title) as [g|] eqn:E; cbn [bind]; [|discriminate].
    destruct (add_all uuid _ max g 0 _) as [ss|] eqn:A; cbn [bind]; [|discriminate]. intros _.
    destruct (init uuid (Z.of_nat (List.length pivots)) per_line title) as [g'|e] eqn:E'.
    2: { apply init_err in E'; [|lia]. destruct E' as [[? _]|(_ & ? & _)]; lia. }
    cbn [bind]. destruct (init_ok uuid _ _ _ _ (Zle_0_nat (List.length pivots)) E' Pl) as (rows & R). cbv zeta in R. destruct R as (_ & R1 & _ & R2 & _).
    assert (Ln : List.length (firstn (List.length names) pivots) = List.length names) by (rewrite firstn_length; lia).
    destruct (skipn (List.length names) pivots) as [|x ys] eqn:K.
    { apply (f_equal (@List.length _)) in K. rewrite skipn_length in K. cbn in K. lia. }
    rewrite <- (firstn_skipn (List.length names) pivots) at 1. rewrite K.
    erewrite add_all_more; [reflexivity|exact A| |].
    - rewrite R1, Ln. lia.
    - rewrite Ln. cbn [Nat.add]. unfold permute_plot. rewrite (proj2 (nth_error_None names (List.length names))) by lia. reflexivity.
  Qed.
  Lemma concat_puts key (c : con T P) ps : forall d, fold_left (fun d p => match dget peq p (c_result c) with Some s => dset eqs (key p) s d | None => d end) ps d =
    puts (own_pairs peq key (c_result c) ps) d.
  Proof.
    induction ps as [|p ps IH]; intros d; cbn [fold_left]; auto. rewrite IH. unfold own_pairs. cbn [flat_map].
    destruct (dget peq p (c_result c)) as [s|]; cbn [app]; reflexivity.
  Qed.
  Lemma concat_page draw column pivot label cs pivots max per_line title : AllGood cs ->
    exists fs, List.length fs = List.length cs /\
      (forall i c ft, nth_error cs i = Some c -> nth_error fs i = Some ft ->
         PlotOf draw (own_pairs peq (fun p => if peq p dflt then join $"," column else pivot ++ $": " ++ label p) (c_result c) pivots) (c_str c) ft) /\
      plot_concat leb dedup peq dflt uuid draw column pivot label cs pivots max per_line title = page uuid max per_line title fs.
  Proof.
    intros A. destruct (builds_F2 (fun _ => concat_plot leb dedup peq dflt draw column pivot label pivots)
      (fun _ c ft => PlotOf draw (own_pairs peq (fun p => if peq p dflt then join $"," column else pivot ++ $": " ++ label p) (c_result c) pivots) (c_str c) ft) cs 0) as (fts & B & L & R).
    { intros i c Hc. unfold concat_plot. rewrite (concat_puts (concat_key peq dflt column pivot label)).
      destruct (built draw (own_pairs peq (concat_key peq dflt column pivot label) (c_result c) pivots) (c_str c)) as (f & E & O).
      { apply Forall_forall. intros x H. unfold own_pairs in H. apply in_flat_map in H as (p & _ & H).
        destruct (dget peq p (c_result c)) as [s|] eqn:E; [|destruct H]. destruct H as [<-|[]]. apply dget_In in E as [p' E].
        apply nth_error_In in Hc. eapply A; eauto. }
      rewrite E. cbn [bind]. eexists. split; [reflexivity|]. exact O. }
    exists fts. split; auto. split; [exact R|]. unfold plot_concat. now apply view_page.
  Qed.
  (** With distinct legends the dictionary is the list itself. *)
  Lemma dict_distinct {V} (pairs d : list (str * V)) : NoDup (map fst pairs) -> DictOf pairs d -> d = pairs.
  Proof.
    intros N (N1 & I & O).
    assert (U : forall i j k v w, nth_error pairs i = Some (k, v) -> nth_error pairs j = Some (k, w) -> i = j).
    { intros i j k v w Hi Hj. apply (proj1 (NoDup_nth_error (map fst pairs)) N).
      - rewrite map_length. now apply nth_some_lt in Hi.
      - now rewrite !nth_error_map, Hi, Hj. }
    assert (L : forall k v, LastPair pairs k v <-> In (k, v) pairs).
    { intros k v. split; [intros (i & H & _); now apply nth_error_In in H|]. intros H. apply In_nth_error in H as [i H]. exists i. split; auto.
      intros j v' Hj. rewrite (U _ _ _ _ _ H Hj). lia. }
    (* both lists are sorted by position *)
    assert (S1 : StronglySorted (fun a b => exists i j, nth_error pairs i = Some a /\ nth_error pairs j = Some b /\ (i < j)%nat) d).
    { assert (G : forall l k0, (forall i x, nth_error l i = Some x -> nth_error d (k0 + i)%nat = Some x) ->
                StronglySorted (fun a b => exists i j, nth_error pairs i = Some a /\ nth_error pairs j = Some b /\ (i < j)%nat) l).
      { induction l as [|[k v] l IH]; intros k0 H; constructor.
        - apply (IH (S k0)). intros i x Hx. specialize (H (S i) x Hx). now replace (S k0 + i)%nat with (k0 + S i)%nat by lia.
        - apply Forall_forall. intros [k' v'] Hin. apply In_nth_error in Hin as [j Hj]. pose proof (H 0%nat (k, v) eq_refl) as H0. pose proof (H (S j) (k', v') Hj) as H1.
          destruct (O _ _ _ _ _ _ H0 H1 ltac:(lia)) as (a & b & [[w A] _] & [[w' B] _] & Lab).
          apply nth_error_In in H0, H1. apply I, L, In_nth_error in H0 as [a' H0]. apply I, L, In_nth_error in H1 as [b' H1].
          rewrite (U _ _ _ _ _ H0 A) in H0. rewrite (U _ _ _ _ _ H1 B) in H1. exists a, b. auto. }
      apply (G d 0%nat). auto. }
    assert (S2 : StronglySorted (fun a b => exists i j, nth_error pairs i = Some a /\ nth_error pairs j = Some b /\ (i < j)%nat) pairs).
    { assert (G : forall l k0, (forall i x, nth_error l i = Some x -> nth_error pairs (k0 + i)%nat = Some x) ->
                StronglySorted (fun a b => exists i j, nth_error pairs i = Some a /\ nth_error pairs j = Some b /\ (i < j)%nat) l).
      { induction l as [|x l IH]; intros k0 H; constructor.
        - apply (IH (S k0)). intros i y Hy. specialize (H (S i) y Hy). now replace (S k0 + i)%nat with (k0 + S i)%nat by lia.
        - apply Forall_forall. intros y Hin. apply In_nth_error in Hin as [j Hj]. pose proof (H 0%nat x eq_refl) as H0. pose proof (H (S j) y Hj) as H1.
          exists (k0 + 0)%nat, (k0 + S j)%nat. repeat split; auto. lia. }
      apply (G pairs 0%nat). auto. }
    eapply (sorted_unique _ _ _ d pairs S1 S2). Unshelve.
    - intros [k v]. rewrite I, L. reflexivity.
    - intros [k v] [k' v'] (i & j & A1 & A2 & A3) (i' & j' & B1 & B2 & B3). rewrite (U _ _ _ _ _ A1 B2), (U _ _ _ _ _ A2 B1) in A3. lia.
    - intros [k v] (i & j & A1 & A2 & A3). rewrite (U _ _ _ _ _ A1 A2) in A3. lia.
  Qed.
End Plot.

(** Exact times. *)
From Coq Require Import Qcanon.
From Verif Require Import Model.Dups Proofs.DupsP.
Definition qc_leb (a b : Qc) : bool := if Qclt_le_dec b a then false else true.
Lemma qc_leb_le a b : qc_leb a b = true <-> (a <= b)%Qc.
Proof.
  unfold qc_leb. destruct (Qclt_le_dec b a) as [H|H]; split; auto; [discriminate|]. intros K. exfalso. now apply (Qclt_not_le b a).
Qed.
Lemma qc_total : total_order qc_leb.
Proof.
  split.
  - intros a b. rewrite !qc_leb_le. destruct (Qclt_le_dec a b) as [H|H]; [left; now apply Qclt_le_weak|now right].
  - intros a b. rewrite !qc_leb_le. apply Qcle_antisym.
  - intros a b c. rewrite !qc_leb_le. apply Qcle_trans.
Qed.
Lemma small_groups_good max_delta (s : list (Qc * option Q)) : (0 < max_delta)%Qc -> StronglySorted Qcle (map fst s) ->
  (forall x y, In x (map fst s) -> In y (map fst s) -> (x < y)%Qc -> (count_occ Qc_eq_dec (map fst s) x <= 3)%nat) ->
  total_order qc_leb /\ Good qc_leb (handle_dups q_arith max_delta) s.
Proof.
  intros H1 H2 H3. split; [exact qc_total|]. destruct (handle_strict max_delta (map fst s) H1 H2 H3) as (A & B & _). split.
  - clear -A. induction A as [|x l A IH F]; constructor; auto. rewrite Forall_forall in *. intros y Hy. specialize (F y Hy).
    unfold lt, ltb. apply negb_true_iff. destruct (qc_leb y x) eqn:E; auto. apply qc_leb_le in E. exfalso. now apply (Qclt_not_le x y).
  - now rewrite B, map_length.
Qed.
