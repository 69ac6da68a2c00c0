(** Lemmas about memory bookkeeping. *)
From Coq Require Import List Ascii String ZArith NArith Bool Lia.
From Verif Require Import Lib.PyStr Lib.PyStrFacts Model.Base Model.Memory Spec.Memory.
Import ListNotations.
Local Open Scope list_scope.

Theorem meminfo (pre : list str) blanks n post : (forall l, In l pre -> ~ exists a b, l = a ++ $"MemFree" ++ b) ->
  free_memory_kb (Some (pre ++ memfree_line blanks n :: post)) = Some (Z.of_N n).
Proof.
  intros Hp. unfold free_memory_kb. rewrite filter_app.
  assert (E : filter (contains $"MemFree") pre = []).
  { clear -Hp. induction pre as [|l pre IH]; auto. cbn [filter]. destruct (contains $"MemFree" l) eqn:C.
    - exfalso. apply (Hp l (or_introl eq_refl)). now apply contains_spec.
    - apply IH. intros x Hx. apply Hp. now right. }
  rewrite E. cbn [app filter].
  assert (C : contains $"MemFree" (memfree_line blanks n) = true).
  { apply contains_spec. exists [], ($":" ++ repeat " "%char (S blanks) ++ str_of_N n ++ $" kB" ++ [nl]). reflexivity. }
  rewrite C. unfold memfree_line.
  assert (W : word_ok (str_of_N n)).
  { pose proof (str_of_Z_word (Z.of_N n)) as H. split; [apply str_of_N_nonnil|].
    eapply Forall_impl; [|apply str_of_N_digits]. intros a Ha. unfold is_space, is_digit, in_range in *.
    apply andb_prop in Ha as [H1 H2]. apply N.leb_le in H1, H2.
    rewrite !orb_false_iff, !andb_false_iff, !N.leb_gt, !N.eqb_neq. lia. }
  assert (S : split_ws ($"MemFree:" ++ repeat " "%char (S blanks) ++ str_of_N n ++ $" kB" ++ [nl]) = [$"MemFree:"; str_of_N n; $"kB"]).
  { cbn [repeat app]. change ($"MemFree:" ++ " "%char :: repeat " "%char blanks ++ str_of_N n ++ $" kB" ++ [nl])
      with ($"MemFree:" ++ " "%char :: (repeat " "%char blanks ++ str_of_N n ++ $" kB" ++ [nl])).
    rewrite split_ws_word; [|split; [discriminate|repeat constructor]|reflexivity].
    rewrite split_ws_space by (clear; induction blanks; constructor; auto). f_equal.
    change ($" kB" ++ [nl]) with (" "%char :: $"kB" ++ [nl]). rewrite split_ws_word by (auto; reflexivity). reflexivity. }
  rewrite S. pose proof (py_int10_dec (Z.of_N n)) as P. unfold str_of_Z in P.
  destruct (Z.of_N n) eqn:Z0; try lia; rewrite <- Z0 in *; rewrite ?N2Z.id in P; try exact P.
Qed.

Theorem meminfo_only m n : free_memory_kb m = Some n ->
  exists pre l post a w c, m = Some (pre ++ l :: post) /\ (forall x, In x pre -> ~ exists a b, x = a ++ $"MemFree" ++ b) /\
    (exists a b, l = a ++ $"MemFree" ++ b) /\ split_ws l = [a; w; c] /\ py_int10 w = Some n.
Proof.
  unfold free_memory_kb. destruct m as [lines|]; [|discriminate]. intros H.
  assert (F : exists pre l post, lines = pre ++ l :: post /\ (forall x, In x pre -> contains $"MemFree" x = false) /\ contains $"MemFree" l = true /\
    match split_ws l with [_; num_kb; _] => py_int10 num_kb | _ => None end = Some n).
  { revert H. induction lines as [|x lines IH]; cbn [filter]; [discriminate|]. destruct (contains $"MemFree" x) eqn:E.
    - intros H. exists [], x, lines. split; auto. split; [intros y []|]. auto.
    - intros H. destruct (IH H) as (pre & l & post & -> & A & B & C). exists (x :: pre), l, post. split; auto. split; auto. intros y [<-|Hy]; auto. }
  destruct F as (pre & l & post & -> & A & B & C). destruct (split_ws l) as [|a [|w [|c [|]]]] eqn:S; try discriminate.
  exists pre, l, post, a, w, c. split; auto. split; [|split; [now apply contains_spec|auto]].
  intros x Hx Hc. apply contains_spec in Hc. rewrite (A x Hx) in Hc. discriminate.
Qed.

Section Gen.
  Variables (gdd : str -> res dict) (low : Z -> Z -> bool) (free : option Z) (start : Z) (rss : nat -> Z).
  Notation gen := (gen gdd low free start rss).
  Lemma gen_rows evs : forall check count i, fst (gen check count i evs) = mapM (row_dict gdd) evs.
  Proof.
    induction evs as [|e evs IH]; intros check count i; cbn [Memory.gen mapM]; auto.
    destruct (row_dict gdd e) as [d|x]; auto.
    match goal with |- context [gen ?c ?n ?k evs] => specialize (IH c n k); destruct (gen c n k evs) as [rs ws] end.
    cbn [fst] in *. now rewrite IH.
  Qed.
  Lemma gen_off evs : forall count i, snd (gen false count i evs) = [].
  Proof.
    induction evs as [|e evs IH]; intros count i; cbn [Memory.gen]; auto.
    destruct (row_dict gdd e) as [d|x]; auto. cbn [andb].
    match goal with |- context [gen ?c ?n ?k evs] => specialize (IH n k); destruct (gen c n k evs) as [rs ws] end.
    exact IH.
  Qed.
  Definition lowb (i : nat) : bool := match free with Some f => negb (f =? 0)%Z && low (rss i - start)%Z f | None => false end.
  Lemma lowb_ok i : lowb i = true <-> Low low free start rss i.
  Proof.
    unfold lowb, Low. destruct free as [f|]; [|split; [discriminate|now intros (f & ? & _)]].
    rewrite andb_true_iff, negb_true_iff, Z.eqb_neq. split.
    - intros [A B]. exists f. auto.
    - intros (f' & [= <-] & A & B). auto.
  Qed.
  Definition parsed (evs : list event) (j : nat) : Prop := exists e d, nth_error evs j = Some e /\ row_dict gdd e = Ok d.
  Lemma gen_warns evs : forall i c, (1 <= c)%Z ->
    let due k := exists n, Z.of_nat k = (Z.of_nat i + (c - 1) + Z.of_nat n * 10000)%Z in
    forall w, In w (snd (gen true c i evs)) <->
      due w /\ Low low free start rss w /\ (forall j, i <= j <= w -> parsed evs (j - i)) /\ (forall j, due j -> j < w -> ~ Low low free start rss j).
  Proof.
    induction evs as [|e evs IH]; intros i c Hc; cbv zeta; intros w; cbn [Memory.gen].
    - split; [intros []|]. intros ((n & Hn) & _ & H & _). destruct (H i) as (e & d & E & _); [lia|]. now rewrite PeanoNat.Nat.sub_diag in E.
    - destruct (row_dict gdd e) as [d|x] eqn:R.
      2:{ split; [intros []|]. intros ((n & Hn) & _ & H & _). destruct (H i) as (e' & d & E & E2); [lia|].
          rewrite PeanoNat.Nat.sub_diag in E. injection E as <-. congruence. }
      fold (lowb i). cbn [andb]. destruct (c - 1 =? 0)%Z eqn:D.
      + apply Z.eqb_eq in D. cbn [andb]. destruct (lowb i) eqn:B.
        * (* warned now *)
          pose proof (gen_off evs CHECK_MEM_COUNT (S i)) as O.
          destruct (gen false CHECK_MEM_COUNT (S i) evs) as [rs ws]. cbn [snd] in *. subst ws. apply lowb_ok in B. split.
          -- intros [<-|[]]. split; [exists 0; lia|]. split; auto. split.
             ++ intros j Hj. assert (j = i) as -> by lia. rewrite PeanoNat.Nat.sub_diag. exists e, d. auto.
             ++ intros j (n & Hn) Hj. lia.
          -- intros ((n & Hn) & _ & _ & H). destruct (PeanoNat.Nat.eq_dec w i) as [->|Hne]; [now left|].
             exfalso. apply (H i); auto; [exists 0; lia|lia].
        * specialize (IH (S i) CHECK_MEM_COUNT ltac:(unfold CHECK_MEM_COUNT; lia) w). cbv zeta in IH.
          destruct (gen true CHECK_MEM_COUNT (S i) evs) as [rs ws]. cbn [snd] in *. rewrite IH. unfold CHECK_MEM_COUNT. split.
          -- intros ((n & Hn) & HL & HP & HF). split; [exists (S n); lia|]. split; auto. split.
             ++ intros j Hj. destruct (PeanoNat.Nat.eq_dec j i) as [->|Hne]; [rewrite PeanoNat.Nat.sub_diag; exists e, d; auto|].
                replace (j - i) with (S (j - S i)) by lia. apply HP. lia.
             ++ intros j (m & Hm) Hj HLj. destruct m as [|m].
                ** assert (j = i) by lia. subst j. apply lowb_ok in HLj. congruence.
                ** apply (HF j); auto. exists m. lia.
          -- intros ((n & Hn) & HL & HP & HF). destruct n as [|n].
             { assert (w = i) by lia. subst w. apply lowb_ok in HL. congruence. }
             split; [exists n; lia|]. split; auto. split.
             ++ intros j Hj. specialize (HP j ltac:(lia)). replace (j - i) with (S (j - S i)) in HP by lia. exact HP.
             ++ intros j (m & Hm) Hj. apply HF; auto. exists (S m). lia.
      + apply Z.eqb_neq in D. cbn [andb].
        specialize (IH (S i) (c - 1)%Z ltac:(lia) w). cbv zeta in IH.
        destruct (gen true (c - 1) (S i) evs) as [rs ws]. cbn [snd] in *. rewrite IH. split.
        * intros ((n & Hn) & HL & HP & HF). split; [exists n; lia|]. split; auto. split.
          -- intros j Hj. destruct (PeanoNat.Nat.eq_dec j i) as [->|Hne]; [rewrite PeanoNat.Nat.sub_diag; exists e, d; auto|].
             replace (j - i) with (S (j - S i)) by lia. apply HP. lia.
          -- intros j (m & Hm) Hj. apply HF; auto. exists m. lia.
        * intros ((n & Hn) & HL & HP & HF). split; [exists n; lia|]. split; auto. split.
          -- intros j Hj. specialize (HP j ltac:(lia)). replace (j - i) with (S (j - S i)) in HP by lia. exact HP.
          -- intros j (m & Hm) Hj. apply HF; auto. exists m. lia.
  Qed.
  Lemma gen_once evs : forall b c i, List.length (snd (gen b c i evs)) <= 1.
  Proof.
    induction evs as [|e evs IH]; intros b c i; cbn [Memory.gen]; auto.
    destruct (row_dict gdd e) as [d|x]; auto. fold (lowb i). destruct (b && (c - 1 =? 0)%Z && lowb i).
    - pose proof (gen_off evs (if b && (c - 1 =? 0)%Z then CHECK_MEM_COUNT else (c - 1)%Z) (S i)) as O.
      match goal with |- context [gen ?b' ?n ?k evs] => destruct (gen b' n k evs) as [rs ws] end. cbn in *. subst. auto.
    - match goal with |- context [gen ?b' ?n ?k evs] => specialize (IH b' n k); destruct (gen b' n k evs) as [rs ws] end. exact IH.
  Qed.
  Theorem rows_same evs : fst (generate_parsed_data gdd low free start rss evs) = mapM (row_dict gdd) evs.
  Proof. apply gen_rows. Qed.
  Theorem warned evs : List.length (snd (generate_parsed_data gdd low free start rss evs)) <= 1 /\
    forall i, In i (snd (generate_parsed_data gdd low free start rss evs)) <-> FirstLow gdd low free start rss evs i.
  Proof.
    split; [apply gen_once|]. intros i. unfold generate_parsed_data. rewrite (gen_warns evs 0 1 ltac:(lia) i).
    unfold FirstLow, Checked, Upto, parsed.
    assert (K : forall j, (exists n, Z.of_nat j = (Z.of_nat 0 + (1 - 1) + Z.of_nat n * 10000)%Z) <-> exists n, j = n * (10 * (10 * (10 * 10)))).
    { intros j. split; intros (n & H); exists n; lia. }
    rewrite K. split.
    - intros (A & B & C & D). split; auto. split; auto. split.
      + intros j Hj. specialize (C j ltac:(lia)). now rewrite PeanoNat.Nat.sub_0_r in C.
      + intros j Hj. apply D. now apply K.
    - intros (A & B & C & D). split; auto. split; auto. split.
      + intros j Hj. rewrite PeanoNat.Nat.sub_0_r. apply C. lia.
      + intros j Hj. apply D. now apply K.
  Qed.
End Gen.

Section Optimize.
  Context {V : Type} (veq : V -> V -> bool).
  Hypothesis Hv : forall x y, veq x y = true <-> x = y.
  Lemma unique_ok l : NoDup (unique veq l) /\ forall x, In x (unique veq l) <-> In x l.
  Proof.
    induction l as [|a l [N I]]; cbn [unique].
    - split; [constructor|reflexivity].
    - split.
      + constructor; [|now apply NoDup_filter]. rewrite filter_In. intros [_ H].
        assert (veq a a = true) by now apply Hv. rewrite H0 in H. discriminate.
      + intros x. cbn [In]. rewrite filter_In, I, negb_true_iff. split.
        * intros [->|[H _]]; auto.
        * intros [->|H]; auto. destruct (veq a x) eqn:E; auto. left. now apply Hv.
  Qed.
  Lemma distinct_unique l n : Distinct l n <-> n = List.length (unique veq l).
  Proof.
    destruct (unique_ok l) as [N I]. split.
    - intros (u & Hu & <- & Hi). apply PeanoNat.Nat.le_antisymm; apply NoDup_incl_length; auto; intros x Hx.
      + now apply I, Hi.
      + now apply Hi, I.
    - intros ->. exists (unique veq l). auto.
  Qed.
  Theorem optimized_ok (f g : list (str * column V)) : optimize_dataframe veq f = Ok g ->
    Forall2 (fun a b => fst b = fst a /\ c_vals (snd b) = c_vals (snd a) /\
      (c_kind (snd b) = c_kind (snd a) \/
       c_kind (snd a) = KS /\ c_kind (snd b) = KCategory /\
       exists n, Distinct (c_vals (snd a)) n /\ 2 * n <= List.length (c_vals (snd a)))) f g.
  Proof.
    revert g. induction f as [|[a c] f IH]; intros g; cbn [optimize_dataframe mapM fst snd].
    - intros [= <-]. constructor.
    - unfold optimize_column. destruct (c_kind c) eqn:K.
      1,2,4,5: (cbn; destruct (mapM _ f) as [g'|] eqn:M; [|discriminate]; intros [= <-]; constructor; auto).
      destruct (List.length (c_vals c) =? 0) eqn:Z0; [discriminate|].
      destruct (List.length (c_vals c) <? 2 * _) eqn:L; cbn; (destruct (mapM _ f) as [g'|] eqn:M; [|discriminate]);
        intros [= <-]; constructor; auto. cbn [fst snd c_kind c_vals]. split; auto. split; auto. right. split; auto. split; auto.
      eexists. split; [apply distinct_unique; reflexivity|]. apply PeanoNat.Nat.ltb_ge in L. exact L.
  Qed.
  Theorem optimized_same (f : list (str * column V)) : Forall (fun a => c_kind (snd a) <> KS) f -> optimize_dataframe veq f = Ok f.
  Proof.
    induction 1 as [|[a c] f Hc _ IH]; auto. unfold optimize_dataframe in *. cbn [mapM fst snd] in *. unfold optimize_column at 1.
    destruct (c_kind c) eqn:K; try congruence; cbn; rewrite IH; reflexivity.
  Qed.
  Theorem optimized_fails (f : list (str * column V)) :
    match optimize_dataframe veq f with Ok _ => True | Err e => e = EZeroDiv end /\
    (optimize_dataframe veq f = Err EZeroDiv <-> exists n c, In (n, c) f /\ c_kind c = KS /\ c_vals c = []).
  Proof.
    unfold optimize_dataframe. induction f as [|[a c] f [IH1 IH2]]; cbn [mapM fst snd].
    - split; auto. split; [discriminate|]. intros (n & c & [] & _).
    - assert (E : (optimize_column veq c = Err EZeroDiv /\ c_kind c = KS /\ c_vals c = []) \/
                  ((exists c', optimize_column veq c = Ok c') /\ ~ (c_kind c = KS /\ c_vals c = []))).
      { unfold optimize_column. destruct (c_kind c) eqn:K; try (right; split; [eexists; reflexivity|intros [? _]; discriminate]).
        destruct (c_vals c) as [|v l] eqn:L; [left; auto|]. right. split; [|intros [_ ?]; discriminate].
        cbn [List.length PeanoNat.Nat.eqb]. destruct (_ <? _); eexists; reflexivity. }
      destruct E as [(E & K & L)|((c' & E) & K)]; rewrite E; cbn [bind].
      + split; auto. split; auto. intros _. exists a, c. split; [now left|auto].
      + destruct (mapM _ f) as [g|e] eqn:M.
        * split; [exact I|]. split; [discriminate|]. intros (n & c1 & [Heq|Hi] & Hk); [injection Heq as <- <-; contradiction|].
          exfalso. assert (Ok g = Err EZeroDiv) by (apply IH2; eauto). discriminate.
        * subst e. split; [reflexivity|]. split; [intros _|reflexivity]. destruct IH2 as [IH2 _]. destruct (IH2 eq_refl) as (n & c1 & Hi & H). exists n, c1. split; [now right|auto].
  Qed.
End Optimize.

Lemma mapM_times gdd evs : mapM (fun e => do d <- row_dict gdd e ;; Ok (ev_time e, d)) evs =
  (do rows <- mapM (row_dict gdd) evs ;; Ok (combine (map ev_time evs) rows)).
Proof.
  induction evs as [|e evs IH]; [reflexivity|]. cbn [mapM bind]. rewrite IH. destruct (row_dict gdd e) as [d|x]; [|reflexivity].
  cbn [bind]. destruct (mapM (row_dict gdd) evs); reflexivity.
Qed.
Theorem frame_same fuel gdd evs low free start rss : create_dataframe fuel gdd evs =
  (do evs' <- explode_all fuel evs ;; do rows <- fst (generate_parsed_data gdd low free start rss evs') ;;
   Ok (combine (map ev_time evs') rows)).
Proof.
  unfold create_dataframe. destruct (explode_all fuel evs) as [evs'|x]; [|reflexivity]. cbn [bind].
  rewrite rows_same. apply mapM_times.
Qed.
