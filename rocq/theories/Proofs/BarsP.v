From Coq Require Import List ZArith QArith Bool Lia Lqa.
From Verif Require Import Lib.PyStr Model.Bars Spec.Bars.
Import ListNotations.
Local Open Scope list_scope.

Definition anchor (stacked : bool) (w : Q) (i j : nat) : Q := if stacked then of_nat j else (of_nat j + of_nat i * w)%Q.
Definition row (stacked : bool) (w : Q) (i : nat) (ends s : list Q) : list bar :=
  map (fun jve => Bar i (anchor stacked w i (fst (fst jve))) w (snd jve) (snd (fst jve))) (combine (combine (seq 0 (List.length s)) s) ends).
Definition next (stacked : bool) (ends s : list Q) : list Q := if stacked then map (fun p => (fst p + snd p)%Q) (combine ends s) else ends.
Fixpoint rows (stacked : bool) (w : Q) (i : nat) (ends : list Q) (ss : list (list Q)) : list bar :=
  match ss with [] => [] | s :: ss' => row stacked w i ends s ++ rows stacked w (S i) (next stacked ends s) ss' end.

Lemma combine_map_l {A B C} (f : A -> B) (l : list A) (k : list C) : combine (map f l) k = map (fun p => (f (fst p), snd p)) (combine l k).
Proof. revert k. induction l as [|a l IH]; intros [|c k]; cbn; try reflexivity. now rewrite IH. Qed.
Lemma anchors_eq (stacked : bool) w i (s : list Q) :
  combine (if stacked then map of_nat (seq 0 (List.length s)) else map (fun a => a + of_nat i * w)%Q (map of_nat (seq 0 (List.length s)))) s =
  map (fun jv => (anchor stacked w i (fst jv), snd jv)) (combine (seq 0 (List.length s)) (s : list Q)).
Proof. destruct stacked; [|rewrite map_map]; rewrite combine_map_l; reflexivity. Qed.
Lemma combine_seq_length (s : list Q) : List.length (combine (seq 0 (List.length s)) s) = List.length s.
Proof. rewrite combine_length, seq_length. lia. Qed.

Lemma draw_ok stacked w n ss : (0 < n)%nat -> Forall (fun s => List.length s = n) ss -> forall i ends, List.length ends = n ->
  draw stacked w i ends ss = Ok (rows stacked w i ends ss).
Proof.
  intros Hn H. induction H as [|s ss L H IH]; intros i ends E; cbn [draw rows]; [reflexivity|]. cbv zeta.
  rewrite anchors_eq. unfold broadcast.
  replace (List.length (map (fun jv => (anchor stacked w i (fst jv), snd jv)) (combine (seq 0 (List.length s)) s)) =? List.length ends)%nat with true
    by (symmetry; apply Nat.eqb_eq; rewrite map_length, combine_seq_length; lia).
  cbn [bind]. rewrite combine_map_l, map_map. cbn [fst snd]. fold (row stacked w i ends s). change (if stacked then map (fun p => (fst p + snd p)%Q) (combine ends s) else ends) with (next stacked ends s).
  assert (R : row stacked w i ends s <> []).
  { unfold row. intros N. apply map_eq_nil in N. apply (f_equal (@List.length _)) in N. rewrite combine_length, combine_seq_length in N. cbn in N. lia. }
  destruct (row stacked w i ends s) as [|b r] eqn:Q; [congruence|]. rewrite IH.
  - reflexivity.
  - unfold next. destruct stacked; [|assumption]. rewrite map_length, combine_length. lia.
Qed.
Lemma in_row stacked w i ends s b : List.length ends = List.length s ->
  (In b (row stacked w i ends s) <-> exists j v, nth_error s j = Some v /\ b = Bar i (anchor stacked w i j) w (nth j ends 0%Q) v).
Proof.
  intros L. unfold row. rewrite in_map_iff.
  assert (G : forall (s ends : list Q) k j v e, List.length ends = List.length s ->
    (In (j, v, e) (combine (combine (seq k (List.length s)) s) ends) <-> (k <= j)%nat /\ nth_error s (j - k) = Some v /\ nth (j - k) ends 0%Q = e)).
  { clear. induction s as [|x s IH]; intros [|y ends] k j v e L; try discriminate; cbn [List.length seq combine In].
    - split; [intros []|]. intros (_ & H & _). destruct (j - k)%nat; discriminate.
    - rewrite IH by (now injection L). split.
      + intros [E|(H1 & H2 & H3)]; [injection E as <- <- <-; rewrite Nat.sub_diag; repeat split; auto; lia|].
        split; [lia|]. replace (j - k)%nat with (S (j - S k)) by lia. auto.
      + intros (H1 & H2 & H3). destruct (Nat.eq_dec k j) as [->|N]; [left; rewrite Nat.sub_diag in *; cbn in *; congruence|].
        right. split; [lia|]. replace (j - k)%nat with (S (j - S k)) in * by lia. auto. }
  split.
  - intros ([[j v] e] & <- & I). apply G in I; [|assumption]. rewrite Nat.sub_0_r in I. destruct I as (_ & H1 & <-). exists j, v. auto.
  - intros (j & v & H & ->). exists (j, v, nth j ends 0%Q). split; [reflexivity|]. apply G; [assumption|]. rewrite Nat.sub_0_r. repeat split; [lia|assumption].
Qed.
Definition sh (stacked : bool) (w : Q) (i : nat) (ends : list Q) (ss : list (list Q)) (k j : nat) (v : Q) (b : bar) : Prop :=
  b_series b = (i + k)%nat /\ b_x b = anchor stacked w (i + k) j /\ b_width b = w /\ b_height b = v /\
  (b_bottom b == nth j ends 0 + (if stacked then fold_right Qplus 0 (map (fun s => nth j s 0) (firstn k ss)) else 0))%Q.
Lemma next_nth (stacked : bool) ends s j : List.length ends = List.length s -> (nth j (next stacked ends s) 0 == nth j ends 0 + (if stacked then nth j s 0 else 0))%Q.
Proof.
  unfold next. destruct stacked; [|intros; ring]. revert s j. induction ends as [|e ends IH]; intros [|x s] j L; try discriminate.
  - destruct j; reflexivity.
  - destruct j as [|j]; cbn [combine map nth fst snd]; [reflexivity|]. apply IH. now injection L.
Qed.
Lemma rows_bars (stacked : bool) w n ss : Forall (fun s => List.length s = n) ss -> forall i ends, List.length ends = n ->
  Bars ss (sh stacked w i ends ss) (rows stacked w i ends ss).
Proof.
  intros H. induction H as [|s ss L H IH]; intros i ends E.
  - split; [intros b []|]. split; [|reflexivity]. intros i' j v (s & Q & _). destruct i'; discriminate.
  - cbn [rows].
    assert (E' : List.length (next stacked ends s) = n) by (unfold next; destruct stacked; [rewrite map_length, combine_length; lia|assumption]).
    destruct (IH (S i) _ E') as (A & B & C). clear IH. split; [|split].
    + intros b I. apply in_app_iff in I as [I|I].
      * apply in_row in I as (j & v & V & ->); [|lia]. exists 0%nat, j, v. split; [exists s; auto|]. unfold sh. cbn. rewrite Nat.add_0_r. repeat split.
        destruct stacked; ring.
      * destruct (A b I) as (k & j & v & (s' & V1 & V2) & S1 & S2 & S3 & S4 & S5). exists (S k), j, v. split; [exists s'; auto|].
        unfold sh. replace (i + S k)%nat with (S i + k)%nat by lia. repeat split; try assumption.
        rewrite S5, next_nth by lia. destruct stacked; [|ring]. cbn [firstn map fold_right]. ring.
    + intros k j v (s' & V1 & V2). destruct k as [|k].
      * injection V1 as <-. eexists. split.
        -- apply in_app_iff. left. apply in_row; [lia|]. exists j, v. split; [assumption|reflexivity].
        -- unfold sh. cbn. rewrite Nat.add_0_r. repeat split. destruct stacked; ring.
      * destruct (B k j v) as (b & I & S1 & S2 & S3 & S4 & S5); [exists s'; auto|]. exists b. split; [apply in_app_iff; now right|].
        unfold sh. replace (i + S k)%nat with (S i + k)%nat by lia. repeat split; try assumption.
        rewrite S5, next_nth by lia. destruct stacked; [|ring]. cbn [firstn map fold_right]. ring.
    + rewrite app_length, C. cbn [map fold_right]. f_equal. unfold row. rewrite map_length, combine_length, combine_seq_length. lia.
Qed.
Lemma max_equal n (ss : list (list Q)) : ss <> [] -> Forall (fun s => List.length s = n) ss -> fold_right Nat.max 0%nat (map (@List.length Q) ss) = n.
Proof.
  intros Hne H. destruct H as [|s ss L H]; [congruence|]. clear Hne. revert s L. induction H as [|s' ss L' H IH]; intros s L; cbn in *; [lia|].
  specialize (IH s' L'). lia.
Qed.
Lemma nth_repeat0 m j : nth j (repeat 0%Q m) 0%Q = 0%Q.
Proof. revert j. induction m; intros [|j]; cbn; auto. Qed.
Lemma bars_ok (stacked : bool) spacing n ss : ss <> [] -> (0 < n)%nat -> Forall (fun s => List.length s = n) ss ->
  exists bars w, plot_axis stacked spacing ss = Ok bars /\
  (w == (1 - spacing) / (if stacked then 1 else of_nat (List.length ss)))%Q /\
  Bars ss (fun i j v b => b_series b = i /\ (b_x b == of_nat j + (if stacked then 0 else of_nat i * w))%Q /\ b_width b = w /\ b_height b = v /\
    exists t, b_bottom b = t /\ if stacked then Below ss i j t else t == 0)%Q bars.
Proof.
  intros Hne Hn H. unfold plot_axis. destruct ss as [|s0 ss0] eqn:E; [congruence|]. rewrite <- E in *. clear E. cbv zeta.
  rewrite (max_equal n ss Hne H). eexists _, ((1 - spacing) / of_nat (if stacked then 1%nat else List.length ss))%Q. split; [apply (draw_ok _ _ n); auto; apply repeat_length|]. split.
  - destruct stacked; reflexivity.
  - destruct (rows_bars stacked ((1 - spacing) / of_nat (if stacked then 1%nat else List.length ss))%Q n ss H 0%nat (repeat 0%Q n) (repeat_length _ _)) as (A & B & C).
    split; [|split; [|exact C]].
    + intros b I. destruct (A b I) as (i & j & v & V & S1 & S2 & S3 & S4 & S5). exists i, j, v. split; [assumption|].
      cbn [Nat.add] in *. rewrite nth_repeat0 in S5. repeat split; try assumption.
      * rewrite S2. unfold anchor. destruct stacked; ring.
      * exists (b_bottom b). split; [reflexivity|]. unfold Below. destruct stacked; rewrite S5; ring.
    + intros i j v V. destruct (B i j v V) as (b & I & S1 & S2 & S3 & S4 & S5). exists b. split; [assumption|].
      cbn [Nat.add] in *. rewrite nth_repeat0 in S5. repeat split; try assumption.
      * rewrite S2. unfold anchor. destruct stacked; ring.
      * exists (b_bottom b). split; [reflexivity|]. unfold Below. destruct stacked; rewrite S5; ring.
Qed.

(** ** Bars do not overlap *)
Lemma fop_app {A} (R : A -> A -> Prop) l k : ForallOrdPairs R l -> ForallOrdPairs R k -> (forall a b, In a l -> In b k -> R a b) -> ForallOrdPairs R (l ++ k).
Proof.
  intros Hl Hk H. induction Hl as [|a l F Hl IH]; cbn; [assumption|]. constructor.
  - apply Forall_app. split; [assumption|]. apply Forall_forall. intros b I. apply H; [now left|assumption].
  - apply IH. intros. apply H; [now right|assumption].
Qed.
Lemma of_nat_le a b : (a <= b)%nat -> (of_nat a <= of_nat b)%Q.
Proof. intros H. unfold of_nat. rewrite <- Zle_Qle. lia. Qed.
Lemma of_nat_S a : (of_nat (S a) == of_nat a + 1)%Q.
Proof. unfold of_nat. rewrite Nat2Z.inj_succ. unfold Z.succ. rewrite inject_Z_plus. reflexivity. Qed.
Lemma of_nat_pos a : (0 <= of_nat a)%Q.
Proof. apply (of_nat_le 0 a). lia. Qed.
Lemma apart_place w m i j i' j' : (0 <= w)%Q -> (of_nat m * w <= 1)%Q -> (i < m)%nat -> (j < j')%nat ->
  (of_nat j + of_nat i * w + w <= of_nat j' + of_nat i' * w)%Q.
Proof.
  intros Hw Hm Hi Hj. assert (A := of_nat_le (S i) m ltac:(lia)). rewrite of_nat_S in A. assert (B := of_nat_le (S j) j' ltac:(lia)). rewrite of_nat_S in B.
  assert (C := of_nat_pos i'). assert (D : (0 <= of_nat i' * w)%Q) by (apply Qmult_le_0_compat; assumption).
  assert (E : ((of_nat i + 1) * w <= of_nat m * w)%Q) by (apply Qmult_le_compat_r; assumption). lra.
Qed.
Lemma apart_series w i i' j : (0 <= w)%Q -> (i < i')%nat -> (of_nat j + of_nat i * w + w <= of_nat j + of_nat i' * w)%Q.
Proof.
  intros Hw H. assert (A := of_nat_le (S i) i' ltac:(lia)). rewrite of_nat_S in A.
  assert (E : ((of_nat i + 1) * w <= of_nat i' * w)%Q) by (apply Qmult_le_compat_r; assumption). lra.
Qed.
Lemma row_apart w m i ends s : (0 <= w)%Q -> (of_nat m * w <= 1)%Q -> (i < m)%nat -> ForallOrdPairs Apart (row false w i ends s).
Proof.
  intros Hw Hm Hi. unfold row.
  assert (G : forall k (s ends : list Q), ForallOrdPairs Apart (map (fun jve => Bar i (anchor false w i (fst (fst jve))) w (snd jve) (snd (fst jve))) (combine (combine (seq k (List.length s)) s) ends)) /\
    Forall (fun b => exists j, (k <= j)%nat /\ b_x b = anchor false w i j /\ b_width b = w) (map (fun jve => Bar i (anchor false w i (fst (fst jve))) w (snd jve) (snd (fst jve))) (combine (combine (seq k (List.length s)) s) ends))).
  { intros k s'. revert k. induction s' as [|x s' IH]; intros k e; cbn [List.length seq combine map]; [split; constructor|].
    destruct e as [|y e]; cbn [combine map]; [split; constructor|]. destruct (IH (S k) e) as [A B]. split.
    - constructor; [|assumption]. eapply Forall_impl; [|exact B]. intros b (j & Hj & X & W). left. cbn [b_x b_width fst snd]. rewrite X. unfold anchor.
      apply (apart_place w m); auto.
    - constructor; [exists k; auto|]. eapply Forall_impl; [|exact B]. intros b (j & Hj & X & W). exists j. repeat split; [lia|assumption..]. }
  apply G.
Qed.
Lemma rows_apart w m n ss : (0 <= w)%Q -> (of_nat m * w <= 1)%Q -> Forall (fun s => List.length s = n) ss -> forall i ends, List.length ends = n ->
  (i + List.length ss <= m)%nat -> ForallOrdPairs Apart (rows false w i ends ss).
Proof.
  intros Hw Hm H. induction H as [|s ss L H IH]; intros i ends E Hi; cbn [rows]; [constructor|]. cbn [List.length] in Hi. cbn [next]. apply fop_app.
  - apply (row_apart w m); auto. lia.
  - apply IH; [assumption|lia].
  - intros b c Ib Ic. apply in_row in Ib as (j & v & _ & ->); [|lia].
    destruct (rows_bars false w n ss H (S i) ends E) as (A & _ & _). destruct (A c Ic) as (k & j' & v' & (s' & V1 & _) & S1 & S2 & S3 & _).
    assert (Hk : (k < List.length ss)%nat) by (apply nth_error_Some; congruence).
    unfold Apart. cbn [b_x b_width]. rewrite S2, S3. unfold anchor.
    destruct (Nat.lt_trichotomy j j') as [Q|[->|Q]].
    + left. apply (apart_place w m); auto. lia.
    + left. apply apart_series; auto. lia.
    + right. apply (apart_place w m); auto. lia.
Qed.
Lemma bars_apart spacing n ss bars : (0 <= spacing <= 1)%Q -> (0 < n)%nat -> Forall (fun s => List.length s = n) ss -> plot_axis false spacing ss = Ok bars ->
  ForallOrdPairs Apart bars.
Proof.
  intros Hs Hn H. unfold plot_axis. destruct ss as [|s0 ss0] eqn:E; [discriminate|]. rewrite <- E in *. cbv zeta.
  assert (Hne : ss <> []) by congruence. clear E s0 ss0.
  rewrite (max_equal n ss Hne H). rewrite (draw_ok _ _ n); auto using repeat_length. intros [= <-].
  assert (P : (1 <= of_nat (List.length ss))%Q) by (apply (of_nat_le 1); destruct ss; cbn; [congruence|lia]).
  apply (rows_apart _ (List.length ss) n); auto using repeat_length.
  - apply Qle_shift_div_l; lra.
  - setoid_replace (of_nat (List.length ss) * ((1 - spacing) / of_nat (List.length ss)))%Q with (1 - spacing)%Q by (field; lra). lra.
Qed.
Lemma draw_unequal w m ss : (1 < m)%nat -> forall i s, In s ss -> (List.length s <> m)%nat -> (List.length s <> 1)%nat ->
  exists e, draw false w i (repeat 0%Q m) ss = Err e /\ (e = EValue \/ e = EIndex).
Proof.
  intros Hm. induction ss as [|s0 ss IH]; intros i s I N1 N2; [destruct I|]. cbn [draw]. cbv zeta.
  rewrite (anchors_eq false w i s0 : combine (map (fun a => a + of_nat i * w)%Q (map of_nat (seq 0 (List.length s0)))) s0 = _).
  unfold broadcast. rewrite map_length, combine_seq_length, repeat_length.
  assert (R : exists a b r, repeat 0%Q m = a :: b :: r) by (destruct m as [|[|m]]; [lia..|]; cbn; eauto). destruct R as (a & b & r & R).
  assert (K : In s ss -> exists e, draw false w (S i) (repeat 0%Q m) ss = Err e /\ (e = EValue \/ e = EIndex)) by (intros; eapply IH; eauto).
  destruct (Nat.eqb_spec (List.length s0) m) as [L|L].
  - assert (J : In s ss) by (destruct I as [-> |I]; [contradiction|assumption]). cbn [bind].
    destruct (map _ (combine _ (repeat 0%Q m))); [eauto|]. destruct (K J) as (e & -> & D). cbn. eauto.
  - destruct s0 as [|x [|y s0]].
    + cbn. rewrite R. cbn. eauto.
    + assert (J : In s ss) by (destruct I as [<- |I]; [cbn in N2; lia|assumption]). destruct (K J) as (e & F & D).
      cbn [List.length seq combine map bind]. destruct (map _ (map _ (repeat 0%Q m))); [eauto|]. rewrite F. cbn. eauto.
    + cbn [List.length seq combine map bind]. rewrite R. cbn. eauto.
Qed.
Lemma max_ge (ss : list (list Q)) s : In s ss -> (List.length s <= fold_right Nat.max 0 (map (@List.length Q) ss))%nat.
Proof. induction ss as [|x ss IH]; intros []; cbn; [subst; lia|]. specialize (IH H). lia. Qed.
Lemma bars_unequal spacing ss s s' : In s ss -> In s' ss -> (1 < List.length s < List.length s')%nat ->
  exists e, plot_axis false spacing ss = Err e /\ (e = EValue \/ e = EIndex).
Proof.
  intros I I' L. unfold plot_axis. destruct ss as [|s0 ss0] eqn:E; [destruct I|]. rewrite <- E in *. cbv zeta. clear E.
  assert (A := max_ge _ _ I'). eapply draw_unequal; [lia|exact I|lia|lia].
Qed.

Lemma bars_nothing stacked spacing : plot_axis stacked spacing [] = Err (if stacked then EValue else EZeroDiv) /\
  forall ss, ss <> [] -> Forall (fun s => s = []) ss -> plot_axis stacked spacing ss = Err EIndex.
Proof.
  split; [now destruct stacked|]. intros [|s ss] N F; [congruence|]. assert (forall l : list (list Q), Forall (fun s => s = []) l -> fold_right Nat.max 0%nat (map (@List.length Q) l) = 0%nat) as Z.
  { induction 1 as [|x l -> _ IH]; [reflexivity|]. cbn. exact IH. }
  inversion F; subst. cbn [plot_axis]. rewrite Z by auto. cbn. now destruct stacked.
Qed.
