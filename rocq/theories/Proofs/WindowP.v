(** Lemmas about windows, normalisation and duration. *)
From Coq Require Import List Arith ZArith Bool Sorted Permutation Lia Reals Lra.
From Flocq Require Import Core BinarySingleNaN.
From Verif Require Import Lib.F64 Lib.F64Facts Lib.F64Ord Model.Dups Model.Window Spec.Interval.
Import ListNotations.
Local Open Scope nat_scope.

Definition times_num {R} (f : list (float * R)) : Prop := Forall (fun r => num (fst r) = true) f.

(** ** Binary search as counting *)
(** [p] holds on a prefix of [arr] only. *)
Fixpoint prefix_of {T} (p : T -> bool) (arr : list T) : nat :=
  match arr with [] => 0 | x :: rest => if p x then S (prefix_of p rest) else 0 end.
Lemma prefix_le {T} (p : T -> bool) arr : prefix_of p arr <= length arr.
Proof. induction arr as [|x arr IH]; cbn; [lia|]. destruct (p x); lia. Qed.
Lemma prefix_lt {T} (p : T -> bool) arr i x : nth_error arr i = Some x -> i < prefix_of p arr -> p x = true.
Proof.
  revert i. induction arr as [|y arr IH]; intros i Hi Hlt; [destruct i; discriminate|].
  cbn in Hlt. destruct (p y) eqn:E; [|lia]. destruct i; cbn in Hi; [injection Hi as <-; auto|].
  apply (IH i); auto. lia.
Qed.
Definition downward {T} (p : T -> bool) (arr : list T) : Prop :=
  ForallOrdPairs (fun x y => p y = true -> p x = true) arr.
Lemma prefix_ge {T} (p : T -> bool) arr i x : downward p arr -> nth_error arr i = Some x -> prefix_of p arr <= i -> p x = false.
Proof.
  intros Hd. revert i. induction Hd as [|y arr Hy Hd IH]; intros i Hi Hle; [destruct i; discriminate|].
  cbn in Hle. destruct (p y) eqn:E.
  - destruct i; [lia|]. cbn in Hi. apply (IH i); auto. lia.
  - destruct i; cbn in Hi; [injection Hi as <-; auto|]. apply nth_error_In in Hi.
    rewrite Forall_forall in Hy. specialize (Hy _ Hi). destruct (p x) eqn:Px; auto. specialize (Hy eq_refl); congruence.
Qed.
Lemma bsearch_prefix {T} (p : T -> bool) arr fuel lo hi : downward p arr ->
  hi - lo < fuel -> lo <= prefix_of p arr -> prefix_of p arr <= hi -> hi <= length arr ->
  bsearch fuel lo hi p arr = prefix_of p arr.
Proof.
  intros Hd. revert lo hi. induction fuel as [|fuel IH]; intros lo hi Hf Hlo Hhi Hlen; [lia|].
  cbn [bsearch]. destruct (Nat.ltb_spec lo hi) as [L|L]; [|lia].
  set (mid := lo + (hi - lo) / 2).
  assert (D := Nat.div_mod_eq (hi - lo) 2). assert (M := Nat.mod_upper_bound (hi - lo) 2 ltac:(lia)).
  assert (Hm : lo <= mid < hi) by (unfold mid; lia).
  destruct (nth_error arr mid) as [x|] eqn:E; [|apply nth_error_None in E; lia].
  destruct (p x) eqn:P.
  - apply IH; auto; try lia. destruct (le_lt_dec (prefix_of p arr) mid) as [G|G]; [|lia].
    rewrite (prefix_ge p arr mid x Hd E G) in P. discriminate.
  - apply IH; auto; try lia. destruct (le_lt_dec (prefix_of p arr) mid) as [G|G]; auto.
    rewrite (prefix_lt p arr mid x E G) in P. discriminate.
Qed.
Lemma bsearch_all {T} (p : T -> bool) arr : downward p arr ->
  bsearch (S (length arr)) 0 (length arr) p arr = prefix_of p arr.
Proof. intros Hd. apply bsearch_prefix; auto; try lia. apply prefix_le. Qed.

(** ** Slices are filters *)
Lemma sorted_downward (q : float -> bool) ts :
  StronglySorted (fun a b => fle a b = true) ts -> Forall (fun t => num t = true) ts ->
  (forall a b, num a = true -> num b = true -> fle a b = true -> q b = true -> q a = true) -> downward q ts.
Proof.
  intros Hs Hn Hq. induction Hs as [|t ts Hs IH Hf]; constructor.
  - inversion Hn as [|? ? N1 N2]; subst. apply Forall_forall. intros y Hy Q. rewrite Forall_forall in Hf, N2. apply (Hq t y); auto.
  - apply IH. now inversion Hn.
Qed.
Lemma filter_none {T} (p : T -> bool) l : (forall x, In x l -> p x = false) -> filter p l = [].
Proof. induction l as [|x l IH]; intros H; auto. cbn. rewrite (H x) by now left. apply IH. intros; apply H; now right. Qed.
Lemma filter_all {T} (p : T -> bool) l : (forall x, In x l -> p x = true) -> filter p l = l.
Proof. induction l as [|x l IH]; intros H; auto. cbn. rewrite (H x) by now left. f_equal. apply IH. intros; apply H; now right. Qed.
Lemma downward_tail {T} (p : T -> bool) x l : downward p (x :: l) -> p x = false -> forall y, In y l -> p y = false.
Proof.
  intros Hd E y Hy. inversion Hd as [|? ? H1 H2]; subst. rewrite Forall_forall in H1. specialize (H1 y Hy).
  destruct (p y) eqn:Py; auto. specialize (H1 eq_refl); congruence.
Qed.
Lemma firstn_prefix {T U} (g : T -> U) (p : U -> bool) l : downward p (map g l) ->
  firstn (prefix_of p (map g l)) l = filter (fun x => p (g x)) l.
Proof.
  induction l as [|x l IH]; intros Hd; auto. cbn [map prefix_of filter]. destruct (p (g x)) eqn:E; cbn [firstn].
  - f_equal. apply IH. now inversion Hd.
  - symmetry. apply filter_none. intros y Hy. apply (downward_tail p (g x) (map g l)); auto. now apply in_map.
Qed.
Lemma slice_filter {T U} (g : T -> U) (a b : U -> bool) l : downward a (map g l) -> downward b (map g l) ->
  firstn (prefix_of b (map g l) - prefix_of a (map g l)) (skipn (prefix_of a (map g l)) l) =
  filter (fun x => negb (a (g x)) && b (g x)) l.
Proof.
  induction l as [|x l IH]; intros Ha Hb; auto. cbn [map prefix_of].
  destruct (a (g x)) eqn:Ea.
  - destruct (b (g x)) eqn:Eb.
    + cbn [Nat.sub skipn filter]. rewrite Ea. cbn [negb andb]. apply IH; [now inversion Ha|now inversion Hb].
    + cbn [Nat.sub firstn]. symmetry. apply filter_none. intros y [<-|Hy]; [now rewrite Ea|].
      rewrite (downward_tail b (g x) (map g l) Hb Eb (g y)), andb_false_r; auto. now apply in_map.
  - rewrite Nat.sub_0_r. cbn [skipn].
    change (if b (g x) then S (prefix_of b (map g l)) else 0) with (prefix_of b (map g (x :: l))).
    rewrite firstn_prefix by auto. apply filter_ext_in. intros y [<-|Hy]; [now rewrite Ea|].
    rewrite (downward_tail a (g x) (map g l) Ha Ea (g y)); auto. now apply in_map.
Qed.
Lemma skip_filter {T U} (g : T -> U) (a : U -> bool) l : downward a (map g l) ->
  firstn (length (map g l) - prefix_of a (map g l)) (skipn (prefix_of a (map g l)) l) = filter (fun x => negb (a (g x))) l.
Proof.
  intros Ha. rewrite map_length, <- skipn_length, firstn_all.
  induction l as [|x l IH]; auto. cbn [map prefix_of filter]. destruct (a (g x)) eqn:E; cbn [skipn negb].
  - apply IH. now inversion Ha.
  - f_equal. symmetry. apply filter_all. intros y Hy.
    rewrite (downward_tail a (g x) (map g l) Ha E (g y)); auto. now apply in_map.
Qed.

Section Frames.
  Context {R : Type}.
  Implicit Types f : list (float * R).

  Lemma slice_spec s e f : num s = true -> (match e with Some e => num e = true | None => True end) ->
    times_num f -> time_sorted f -> slice_pos s e f = filter (fun r => inside s e (fst r)) f.
  Proof.
    intros Hs He Hn Hst. unfold slice_pos.
    assert (Hs' : StronglySorted (fun a b => fle a b = true) (map fst f)).
    { clear - Hst. induction Hst as [|x f Hs IH Hf]; cbn; constructor; auto. apply Forall_forall. intros y Hy.
      apply in_map_iff in Hy as (z & <- & Hz). rewrite Forall_forall in Hf. auto. }
    assert (Hn' : Forall (fun t => num t = true) (map fst f)) by (now apply Forall_map).
    assert (Da : downward (fun x => flt x s) (map fst f)).
    { apply sorted_downward; auto. intros a b Na Nb. rewrite fle_ford, !flt_ford by auto. lra. }
    unfold search_left. cbn [a_lt f_arith]. rewrite bsearch_all by auto. destruct e as [e|].
    - assert (Db : downward (fun x => negb (flt e x)) (map fst f)).
      { apply sorted_downward; auto. intros a b Na Nb. rewrite <- !fle_negb_flt, !fle_ford by auto. lra. }
      unfold search_right. cbn [a_lt f_arith]. rewrite bsearch_all by auto. rewrite slice_filter by auto.
      apply filter_ext_in. intros r Hr. unfold times_num in Hn. rewrite Forall_forall in Hn. specialize (Hn r Hr).
      unfold inside. now rewrite !fle_negb_flt by auto.
    - rewrite skip_filter by auto. apply filter_ext_in. intros r Hr. unfold times_num in Hn. rewrite Forall_forall in Hn.
      specialize (Hn r Hr). unfold inside. now rewrite andb_true_r, fle_negb_flt by auto.
  Qed.

  (** ** Sorting *)
  Lemma insert_time_perm x f : Permutation (insert_time x f) (x :: f).
  Proof. induction f as [|y f IH]; cbn; auto. destruct (flt (fst y) (fst x)); auto. rewrite IH. apply perm_swap. Qed.
  Lemma sort_index_perm f : Permutation (sort_index f) f.
  Proof. induction f as [|x f IH]; auto. cbn [sort_index fold_right]. fold (sort_index f). rewrite insert_time_perm. now constructor. Qed.
  Lemma sort_index_num f : times_num f -> times_num (sort_index f).
  Proof.
    unfold times_num. rewrite !Forall_forall. intros H x Hx. apply H. eapply Permutation_in; [apply sort_index_perm|auto].
  Qed.
  Lemma sort_index_sorted f : times_num f -> time_sorted (sort_index f).
  Proof.
    induction f as [|x f IH]; intros Hn; [constructor|]. inversion Hn as [|? ? Nx Nf]; subst. cbn [sort_index fold_right].
    fold (sort_index f). specialize (IH Nf). assert (Ns := sort_index_num f Nf). revert IH Ns. generalize (sort_index f). clear - Nx.
    intros f Hs Ns. induction Hs as [|y f Hs IH Hf]; [repeat constructor|]. inversion Ns as [|? ? Ny Nf]; subst.
    cbn [insert_time]. destruct (flt (fst y) (fst x)) eqn:E.
    - constructor; [now apply IH|]. apply Forall_forall. intros z Hz.
      apply (Permutation_in _ (insert_time_perm x f)) in Hz. destruct Hz as [<-|Hz].
      + apply flt_ford in E; auto. apply fle_ford; auto. lra.
      + rewrite Forall_forall in Hf. auto.
    - assert (L : fle (fst x) (fst y) = true) by (rewrite fle_negb_flt by auto; now rewrite E).
      constructor; [now constructor|]. constructor; auto. apply Forall_forall. intros z Hz.
      unfold times_num in Nf. rewrite Forall_forall in Hf, Nf. specialize (Hf z Hz). specialize (Nf z Hz).
      apply fle_ford in L, Hf; auto. apply fle_ford; auto. lra.
  Qed.
  Lemma sort_index_id f : times_num f -> time_sorted f -> sort_index f = f.
  Proof.
    intros Hn Hs. induction Hs as [|x f Hs IH Hf]; auto. inversion Hn as [|? ? Nx Nf]; subst. cbn [sort_index fold_right].
    fold (sort_index f). rewrite IH by auto. destruct f as [|y f]; auto. cbn [insert_time].
    inversion Hf as [|? ? L _]; subst. inversion Nf; subst. rewrite fle_negb_flt in L by auto. apply negb_true_iff in L. now rewrite L.
  Qed.

  (** ** C16 *)
  Definition num_end (e : option float) : Prop := match e with Some e => num e = true | None => True end.
  Theorem windowify_spec w f : num (fst w) = true -> num_end (snd w) -> Forall (fun r => nn (fst r) = true) f ->
    windowify w f = filter (fun r => inside (fst w) (upper (snd w)) (fst r)) (sort_index f).
  Proof.
    intros Hs He Hn. assert (Nn : times_num f) by (eapply Forall_impl; [|exact Hn]; cbv beta; intros; now apply num_nn).
    assert (K : forall f', times_num f' -> time_sorted f' -> Forall (fun r => nn (fst r) = true) f' ->
       (if ftruthy (fst w) then slice_pos (fst w) None f' else f') = filter (fun r => inside (fst w) None (fst r)) f').
    { intros f' N1 S1 P1. destruct (ftruthy (fst w)) eqn:T; [apply slice_spec; auto; exact I|].
      symmetry. apply filter_all. intros r Hr. rewrite Forall_forall in P1. specialize (P1 r Hr).
      unfold inside. rewrite andb_true_r. destruct (fst w) eqn:E; try discriminate. rewrite fle_ford by (auto; now apply num_nn).
      cbn [ford B2R]. now apply ford_nonneg. }
    unfold windowify. destruct f as [|r f]; auto. cbv zeta. set (f' := sort_index (r :: f)).
    assert (N1 := sort_index_num _ Nn). assert (S1 := sort_index_sorted _ Nn). fold f' in N1, S1.
    assert (P1 : Forall (fun r => nn (fst r) = true) f').
    { rewrite Forall_forall in *. intros x Hx. apply Hn. eapply Permutation_in; [apply sort_index_perm|auto]. }
    destruct (snd w) as [e|] eqn:E; cbn [upper]; [|apply K; auto].
    destruct (ftruthy e); [|apply K; auto]. apply slice_spec; auto.
  Qed.
  Theorem windowify_sorted w f : num (fst w) = true -> num_end (snd w) -> Forall (fun r => nn (fst r) = true) f -> time_sorted f ->
    windowify w f = filter (fun r => inside (fst w) (upper (snd w)) (fst r)) f.
  Proof.
    intros Hs He Hn Hst. rewrite windowify_spec by auto. rewrite sort_index_id; auto.
    eapply Forall_impl; [|exact Hn]; cbv beta; intros; now apply num_nn.
  Qed.
End Frames.

(** ** C17 *)
Lemma py_max_ge a b t : num a = true -> num b = true -> num t = true -> fle (py_max a b) t = fle a t && fle b t.
Proof.
  intros Na Nb Nt. unfold py_max. destruct (flt a b) eqn:E.
  - apply flt_ford in E; auto. destruct (fle b t) eqn:B; [|now rewrite andb_false_r]. rewrite andb_true_r.
    symmetry. apply fle_ford in B; auto. apply fle_ford; auto. lra.
  - assert (L : fle b a = true) by (rewrite fle_negb_flt by auto; now rewrite E). apply fle_ford in L; auto.
    destruct (fle a t) eqn:A; auto. symmetry. apply fle_ford in A; auto. apply fle_ford; auto. lra.
Qed.
Lemma py_max_le a b t : num a = true -> num b = true -> num t = true -> fle t (py_max a b) = fle t a || fle t b.
Proof.
  intros Na Nb Nt. unfold py_max. destruct (flt a b) eqn:E.
  - apply flt_ford in E; auto. destruct (fle t a) eqn:A; auto. cbn. apply fle_ford in A; auto. apply fle_ford; auto. lra.
  - assert (L : fle b a = true) by (rewrite fle_negb_flt by auto; now rewrite E). apply fle_ford in L; auto.
    destruct (fle t b) eqn:B; [|now rewrite orb_false_r]. rewrite orb_true_r. apply fle_ford in B; auto. apply fle_ford; auto. lra.
Qed.
(** Which times pass the combined window: after both starts, before one of the ends. *)
Theorem max_window_spec win abs base t :
  num (fadd (fst win) base) = true -> num (fst abs) = true -> num t = true ->
  num_end (moved (snd win) base) -> num_end (snd abs) ->
  let w := calc_max_window win abs base in
  num (fst w) = true /\ num_end (snd w) /\
  inside (fst w) (snd w) t =
    (fle (fadd (fst win) base) t && fle (fst abs) t) &&
    match snd win, snd abs with
    | Some e, Some a => fle t (fadd e base) || fle t a
    | Some e, None => fle t (fadd e base)
    | None, Some a => fle t a
    | None, None => true
    end.
Proof.
  intros N1 N2 Nt Ne Na. cbv zeta. unfold calc_max_window. cbn [fst snd].
  split; [unfold py_max; now destruct (flt _ _)|]. split.
  - destruct (snd win), (snd abs); cbn in *; auto. unfold py_max. now destruct (flt _ _).
  - unfold inside. rewrite py_max_ge by auto. f_equal.
    destruct (snd win), (snd abs); cbn in *; auto. now apply py_max_le.
Qed.
Theorem in_both_kept win abs base t :
  num (fadd (fst win) base) = true -> num (fst abs) = true -> num t = true ->
  num_end (moved (snd win) base) -> num_end (snd abs) ->
  let w := calc_max_window win abs base in
  in_both win abs base t = true -> inside (fst w) (upper (snd w)) t = true.
Proof.
  intros N1 N2 Nt Ne Na. cbv zeta. destruct (max_window_spec win abs base t) as (M1 & M2 & M3); auto. intros H.
  assert (K : inside (fst (calc_max_window win abs base)) (snd (calc_max_window win abs base)) t = true).
  { rewrite M3. unfold in_both, inside in H. destruct (snd win), (snd abs); cbn [moved] in *;
    repeat (apply andb_true_iff in H as [H ?]; try apply andb_true_iff in H as [H ?]);
    repeat match goal with X : _ && _ = true |- _ => apply andb_true_iff in X as [? ?] end;
    repeat match goal with X : _ = true |- _ => rewrite X end; auto. }
  unfold inside in *. apply andb_true_iff in K as [K1 K2]. rewrite K1. destruct (snd (calc_max_window win abs base)) as [e|]; auto.
  cbn [upper]. now destruct (ftruthy e).
Qed.
Theorem in_both_exact win abs base t :
  num (fadd (fst win) base) = true -> num (fst abs) = true -> num t = true ->
  num_end (moved (snd win) base) -> num_end (snd abs) ->
  let w := calc_max_window win abs base in
  (snd win = None \/ snd abs = None) -> match snd w with Some e => ftruthy e = true | None => True end ->
  inside (fst w) (upper (snd w)) t = in_both win abs base t.
Proof.
  intros N1 N2 Nt Ne Na. cbv zeta. destruct (max_window_spec win abs base t) as (M1 & M2 & M3); auto. intros Hone Hz.
  assert (U : upper (snd (calc_max_window win abs base)) = snd (calc_max_window win abs base)).
  { destruct (snd (calc_max_window win abs base)) as [e|]; auto. cbn in *. now rewrite Hz. }
  rewrite U, M3. unfold in_both, inside. destruct (snd win) eqn:E1, (snd abs) eqn:E2; cbn [moved].
  - destruct Hone; discriminate.
  - now rewrite andb_true_r, <- !andb_assoc, (andb_comm (fle (fst abs) t)).
  - rewrite andb_true_r. now rewrite <- andb_assoc.
  - now rewrite !andb_true_r.
Qed.

(** ** C18 *)
Section Norm.
  Context {R : Type}.
  Implicit Types f : list (float * R).
  Theorem normalize_spec base f : normalize_time base f =
    (if ftruthy base then map (fun r => (fsub (fst r) base, snd r)) f else f).
  Proof. reflexivity. Qed.
  Lemma fin_num x : finite x -> num x = true.
  Proof. now destruct x. Qed.
  (** Order of two times not before the base. *)
  Theorem norm_order base a b : finite base -> finite a -> finite b -> nn base = true ->
    fle base a = true -> fle a b = true -> fle (fsub a base) (fsub b base) = true.
  Proof.
    intros Fb Fa Fb' Nb H1 H2. apply fle_ford in H1, H2; auto using fin_num. rewrite !ford_finite in * by auto.
    apply fsub_mono; auto. apply nn_pos in Nb. lra.
  Qed.
  (** Up to twice the base the subtraction is exact. *)
  Theorem norm_exact base a b : finite base -> finite a -> finite b -> nn base = true ->
    fle base a = true -> flt a b = true -> fle b (fadd base base) = true ->
    flt (fsub a base) (fsub b base) = true /\
    (B2R (fsub a base) = B2R a - B2R base)%R /\ (B2R (fsub b base) = B2R b - B2R base)%R.
  Proof.
    intros Fb Fa Fb' Nb H1 H2 H3. apply fle_ford in H1; auto using fin_num. apply flt_ford in H2; auto using fin_num.
    rewrite !ford_finite in * by auto. assert (P := nn_pos _ Nb).
    assert (D : (B2R b <= 2 * B2R base)%R).
    { assert (C := Bplus_correct prec64 emax64 _ _ mode_NE base base Fb Fb). fold (fadd base base) in C.
      assert (Fd : generic_format radix2 fexp64 (B2R base + B2R base)).
      { replace (B2R base + B2R base)%R with (B2R base * bpow radix2 1)%R by (cbn; lra).
        destruct (Req_dec (B2R base) 0) as [Z|Z]; [rewrite Z, Rmult_0_l; apply generic_format_0|].
        apply (generic_format_FLT radix2 (SpecFloat.emin prec64 emax64) prec64).
        assert (G := generic_format_B2R prec64 emax64 base). 
        apply (FLT_format_generic radix2 (SpecFloat.emin prec64 emax64) prec64) in G. destruct G as [[m e] E1 E2 E3].
        exists (Float radix2 m (e + 1)); cbn [Fnum Fexp] in *; auto; [|lia].
        rewrite E1. unfold F2R. cbn [Fnum Fexp]. rewrite bpow_plus. lra. }
      rewrite (round_generic radix2 fexp64 (round_mode mode_NE) _ Fd) in C.
      destruct (Rlt_bool_spec (Rabs (B2R base + B2R base)) (bpow radix2 emax64)) as [L|L].
      - destruct C as (E & F & _). apply fle_ford in H3; auto using fin_num. rewrite !ford_finite, E in H3 by auto. lra.
      - rewrite Rabs_pos_eq in L by lra. assert (B := abs_B2R_lt_emax prec64 emax64 b).
        apply Rabs_def2 in B. lra. }
    assert (E1 : (B2R (fsub a base) = B2R a - B2R base)%R) by (apply fsub_exact; auto; lra).
    assert (E2 : (B2R (fsub b base) = B2R b - B2R base)%R) by (apply fsub_exact; auto; lra).
    split; auto. destruct (fsub_spec a base Fa Fb) as (F1 & _ & N1); [lra|]. destruct (fsub_spec b base Fb' Fb) as (F2 & _ & N2); [lra|].
    apply flt_ford; auto using fin_num. rewrite !ford_finite by auto. lra.
  Qed.
End Norm.

(** ** C19 *)
Lemma fold_max l x : num x = true -> Forall (fun t => num t = true) l ->
  In (fold_left py_max l x) (x :: l) /\ Forall (fun t => fle t (fold_left py_max l x) = true) (x :: l).
Proof.
  revert x. induction l as [|y l IH]; intros x Hx Hl; cbn [fold_left].
  - split; [now left|]. constructor; auto. apply fle_ford; auto. lra.
  - inversion Hl as [|? ? Hy Hl']; subst. 
    assert (Hm : num (py_max x y) = true) by (unfold py_max; now destruct (flt x y)).
    destruct (IH _ Hm Hl') as [I F]. inversion F as [|? ? F1 F2]; subst. split.
    + destruct I as [E|I]; [|right; now right]. rewrite <- E. unfold py_max. destruct (flt x y); [right; now left|now left].
    + assert (Nr : num (fold_left py_max l (py_max x y)) = true).
      { destruct I as [E|I]; [now rewrite <- E|]. rewrite Forall_forall in Hl'. auto. }
      assert (M : fle x (py_max x y) = true /\ fle y (py_max x y) = true).
      { rewrite !py_max_le by auto. split; apply orb_true_iff; [left|right]; apply fle_ford; auto; lra. }
      destruct M as [M1 M2]. apply fle_ford in M1, M2, F1; auto.
      repeat constructor; auto; apply fle_ford; auto; lra.
Qed.
Lemma py_min_le a b t : num a = true -> num b = true -> num t = true -> fle (py_min a b) t = fle a t || fle b t.
Proof.
  intros Na Nb Nt. unfold py_min. destruct (flt b a) eqn:E.
  - apply flt_ford in E; auto. destruct (fle a t) eqn:A; auto. cbn. apply fle_ford in A; auto. apply fle_ford; auto. lra.
  - assert (L : fle a b = true) by (rewrite fle_negb_flt by auto; now rewrite E). apply fle_ford in L; auto.
    destruct (fle b t) eqn:B; [|now rewrite orb_false_r]. rewrite orb_true_r. apply fle_ford in B; auto. apply fle_ford; auto. lra.
Qed.
Lemma fold_min l x : num x = true -> Forall (fun t => num t = true) l ->
  In (fold_left py_min l x) (x :: l) /\ Forall (fun t => fle (fold_left py_min l x) t = true) (x :: l).
Proof.
  revert x. induction l as [|y l IH]; intros x Hx Hl; cbn [fold_left].
  - split; [now left|]. constructor; auto. apply fle_ford; auto. lra.
  - inversion Hl as [|? ? Hy Hl']; subst. 
    assert (Hm : num (py_min x y) = true) by (unfold py_min; now destruct (flt y x)).
    destruct (IH _ Hm Hl') as [I F]. inversion F as [|? ? F1 F2]; subst. split.
    + destruct I as [E|I]; [|right; now right]. rewrite <- E. unfold py_min. destruct (flt y x); [right; now left|now left].
    + assert (Nr : num (fold_left py_min l (py_min x y)) = true).
      { destruct I as [E|I]; [now rewrite <- E|]. rewrite Forall_forall in Hl'. auto. }
      assert (M : fle (py_min x y) x = true /\ fle (py_min x y) y = true).
      { rewrite !py_min_le by auto. split; apply orb_true_iff; [left|right]; apply fle_ford; auto; lra. }
      destruct M as [M1 M2]. apply fle_ford in M1, M2, F1; auto.
      repeat constructor; auto; apply fle_ford; auto; lra.
Qed.

Section Duration.
  Context {R : Type}.
  Implicit Types (f : list (float * R)) (fs : list (list (float * R))).
  Lemma last_row_In f r : last_row f = Some r -> In r f.
  Proof.
    induction f as [|x f IH]; [discriminate|]. destruct f as [|y f]; cbn [last_row]; [intros [= ->]; now left|].
    intros H. right. now apply IH.
  Qed.
  Lemma last_row_max f r : times_num f -> time_sorted f -> last_row f = Some r -> forall x, In x f -> fle (fst x) (fst r) = true.
  Proof.
    intros Hn Hs. induction Hs as [|y f Hs IH Hf]; [discriminate|]. intros Hl x Hx. inversion Hn; subst.
    destruct f as [|z f].
    - cbn in Hl. injection Hl as <-. destruct Hx as [<-|[]]. apply fle_ford; auto. lra.
    - cbn [last_row] in Hl. destruct Hx as [<-|Hx]; [|now apply IH].
      rewrite Forall_forall in Hf. apply Hf. now apply last_row_In.
  Qed.
  Lemma head_min r f : times_num (r :: f) -> time_sorted (r :: f) -> forall x, In x (r :: f) -> fle (fst r) (fst x) = true.
  Proof.
    intros Hn Hs x [<-|Hx]; inversion Hs as [|? ? _ Hf]; inversion Hn; subst; [apply fle_ford; auto; lra|].
    rewrite Forall_forall in Hf. auto.
  Qed.
  (** The duration is the distance between the first and the last time of all rows. *)
  Theorem duration_spec fs : Forall times_num fs -> Forall time_sorted fs -> concat fs <> [] ->
    exists lo hi, In lo (concat fs) /\ In hi (concat fs) /\
      (forall r, In r (concat fs) -> fle (fst lo) (fst r) = true /\ fle (fst r) (fst hi) = true) /\
      get_duration fs = fsub (fst hi) (fst lo).
  Proof.
    intros Hn Hs Hne. unfold get_duration.
    set (maxs := flat_map (fun f => match last_row f with Some r => [fst r] | None => [] end) fs).
    set (mins := flat_map (fun f => match f with r :: _ => [fst r] | [] => [] end) fs).
    assert (Mx : forall t, In t maxs -> exists r, In r (concat fs) /\ fst r = t).
    { intros t Ht. apply in_flat_map in Ht as (f & Hf & Ht). destruct (last_row f) as [r|] eqn:E; [|destruct Ht].
      destruct Ht as [<-|[]]. exists r. split; auto. apply in_concat. exists f. split; auto. now apply last_row_In. }
    assert (Mn : forall t, In t mins -> exists r, In r (concat fs) /\ fst r = t).
    { intros t Ht. apply in_flat_map in Ht as (f & Hf & Ht). destruct f as [|r f]; [destruct Ht|].
      destruct Ht as [<-|[]]. exists r. split; auto. apply in_concat. exists (r :: f). split; auto. now left. }
    assert (Ux : forall r, In r (concat fs) -> exists t, In t maxs /\ fle (fst r) t = true).
    { intros r Hr. apply in_concat in Hr as (f & Hf & Hr). rewrite Forall_forall in Hn, Hs.
      destruct (last_row f) as [r'|] eqn:E.
      - exists (fst r'). split; [apply in_flat_map; exists f; rewrite E; split; auto; now left|]. apply (last_row_max f); auto.
      - exfalso. destruct f as [|x f]; [destruct Hr|]. clear - E. revert x E. induction f as [|y f IH]; intros x E; [discriminate|].
        cbn [last_row] in E. apply (IH y E). }
    assert (Un : forall r, In r (concat fs) -> exists t, In t mins /\ fle t (fst r) = true).
    { intros r Hr. apply in_concat in Hr as (f & Hf & Hr). rewrite Forall_forall in Hn, Hs.
      destruct f as [|x f]; [destruct Hr|]. exists (fst x). split; [apply in_flat_map; exists (x :: f); split; auto; now left|].
      apply (head_min x f); auto. }
    assert (Nc : forall r, In r (concat fs) -> num (fst r) = true).
    { intros r Hr. apply in_concat in Hr as (f & Hf & Hr). rewrite Forall_forall in Hn. specialize (Hn f Hf).
      unfold times_num in Hn. rewrite Forall_forall in Hn. auto. }
    assert (Nx : Forall (fun t => num t = true) maxs) by (apply Forall_forall; intros t Ht; destruct (Mx t Ht) as (r & Hr & <-); auto).
    assert (Nn : Forall (fun t => num t = true) mins) by (apply Forall_forall; intros t Ht; destruct (Mn t Ht) as (r & Hr & <-); auto).
    destruct (concat fs) as [|r0 rs] eqn:Ec; [congruence|].
    destruct (Ux r0 (or_introl eq_refl)) as (tx & Itx & _). destruct (Un r0 (or_introl eq_refl)) as (tn & Itn & _).
    destruct maxs as [|x xs]; [destruct Itx|]. destruct mins as [|n ns]; [destruct Itn|]. cbn [max_list min_list].
    destruct (fold_max xs x) as [Ix Fx]; [now inversion Nx|now inversion Nx|].
    destruct (fold_min ns n) as [In' Fn]; [now inversion Nn|now inversion Nn|].
    set (hi := fold_left py_max xs x) in *. set (lo := fold_left py_min ns n) in *.
    destruct (Mx hi Ix) as (rh & Hh & Eh). destruct (Mn lo In') as (rl & Hl & El).
    exists rl, rh. rewrite Eh, El. split; auto. split; auto. split; auto.
    intros r Hr. destruct (Ux r Hr) as (t & It & Lt). destruct (Un r Hr) as (u & Iu & Lu).
    rewrite Forall_forall in Fx, Fn, Nx, Nn. specialize (Fx t It). specialize (Fn u Iu).
    assert (N1 := Nx t It). assert (N2 := Nn u Iu). assert (N3 := Nx hi Ix). assert (N4 := Nn lo In').
    apply fle_ford in Lt, Lu, Fx, Fn; auto. split; apply fle_ford; auto; lra.
  Qed.
  Theorem duration_empty fs : concat fs = [] -> get_duration fs = fzero.
  Proof.
    intros H. unfold get_duration. replace (flat_map _ fs) with (@nil float); auto. symmetry.
    apply concat_nil_Forall in H. induction H as [|f fs E _ IH]; auto. cbn. now rewrite E, IH.
  Qed.
  (** It is never negative and no single event spans more. *)
  Theorem duration_bounds fs : Forall (fun f => Forall (fun r => nn (fst r) = true /\ finite (fst r)) f) fs -> Forall time_sorted fs ->
    fle fzero (get_duration fs) = true /\
    (forall f a b, In f fs -> In a f -> In b f -> fle (fst a) (fst b) = true ->
       fle (fsub (fst b) (fst a)) (get_duration fs) = true).
  Proof.
    intros Hn Hs.
    assert (Hn' : Forall times_num fs).
    { eapply Forall_impl; [|exact Hn]. cbv beta. intros f Hf. eapply Forall_impl; [|exact Hf]. cbv beta. intros r [Hr _]. now apply num_nn. }
    assert (Hc : forall r, In r (concat fs) -> nn (fst r) = true /\ finite (fst r)).
    { intros r Hr. apply in_concat in Hr as (f & Hf & Hr). rewrite Forall_forall in Hn. specialize (Hn f Hf). rewrite Forall_forall in Hn. auto. }
    destruct (concat fs) as [|r0 rs] eqn:Ec.
    - rewrite duration_empty by auto. split; [reflexivity|]. intros f a b Hf Ha. exfalso.
      assert (In a (concat fs)) by (apply in_concat; eauto). now rewrite Ec in H.
    - rewrite <- Ec in Hc. destruct (duration_spec fs) as (lo & hi & Hlo & Hhi & Hb & ->); auto; [now rewrite Ec|].
      destruct (Hc _ Hlo) as [N1 F1]. destruct (Hc _ Hhi) as [N2 F2]. split.
      + destruct (fsub_nn (fst hi) (fst lo)) as [N F]; auto; [now apply Hb|]. apply fle_ford; [reflexivity|now apply num_nn|].
        cbn [ford B2R fzero]. now apply ford_nonneg.
      + intros f a b Hf Ha Hb' L. assert (Ia : In a (concat fs)) by (apply in_concat; eauto).
        assert (Ib : In b (concat fs)) by (apply in_concat; eauto). destruct (Hc _ Ia). destruct (Hc _ Ib).
        apply fsub_widen; auto; now apply Hb.
  Qed.
End Duration.

Theorem window_rows (R : Type) (w : window) (f : list (F64.float * R)) :
  num (fst w) = true -> num_end (snd w) -> Forall (fun r => nn (fst r) = true) f ->
  exists f', Permutation f' f /\ time_sorted f' /\ (time_sorted f -> f' = f) /\
    windowify w f = filter (fun r => inside (fst w) (upper (snd w)) (fst r)) f'.
Proof.
  intros Hs He Hn. assert (Nn : times_num f) by (eapply Forall_impl; [|exact Hn]; cbv beta; intros; now apply num_nn).
  exists (sort_index f). split; [apply sort_index_perm|]. split; [now apply sort_index_sorted|]. split; [now apply sort_index_id|].
  now apply windowify_spec.
Qed.
Theorem apply_user_norm (R : Type) (base : F64.float) (w : window) (fs : list (list (F64.float * R))) :
  apply_user true base w fs =
  map (map (fun r => (if ftruthy base then fsub (fst r) base else fst r, snd r))) (apply_user false base w fs).
Proof.
  unfold apply_user. rewrite !map_map. apply map_ext. intros f. unfold normalize_time. destruct (ftruthy base); auto.
  rewrite <- (map_id (windowify w f)) at 1. apply map_ext. now intros [].
Qed.
