(** [num_cpus_in_mask] counts the cpus of the mask. *)
From Coq Require Import List Ascii String ZArith NArith Bool Lia.
From Verif Require Import Lib.PyStr Lib.PyStrFacts Lib.ReplaceFacts Model.Power Spec.Events Spec.Power Proofs.EventsP.
Import ListNotations.
Local Open Scope list_scope.

Fixpoint popP (p : positive) : nat := match p with xH => 1 | xO q => popP q | xI q => S (popP q) end.
Definition pop (n : N) : nat := match n with N0 => 0 | Npos p => popP p end.
Definition b2N (b : bool) : N := if b then 1 else 0.
Definition nbit (b : bool) : nat := if b then 1 else 0.
Lemma pop_step n b : pop (2 * n + b2N b) = (pop n + nbit b)%nat.
Proof. destruct n, b; cbn; lia. Qed.
Definition bval (acc : N) (bits : list bool) : N := fold_left (fun a b => 2 * a + b2N b)%N bits acc.
Definition ones (bits : list bool) : nat := List.length (filter (fun b => b) bits).
Lemma pop_bval bits : forall acc, pop (bval acc bits) = (pop acc + ones bits)%nat.
Proof.
  induction bits as [|b bits IH]; intros acc; unfold bval, ones in *; cbn [fold_left filter List.length]; [lia|].
  rewrite IH, pop_step. destruct b; cbn [nbit List.length]; lia.
Qed.
Lemma count_app c a b : count_ch c (a ++ b) = (count_ch c a + count_ch c b)%nat.
Proof. unfold count_ch. now rewrite filter_app, app_length. Qed.
Lemma fmt2_pop f : forall n, (n < 2 ^ N.of_nat f)%N -> count_ch "1" (fmt_fuel 2 f n) = pop n.
Proof.
  induction f as [|f IH]; intros n Hn.
  - cbn in Hn. assert (n = 0%N) as -> by lia. reflexivity.
  - cbn [fmt_fuel]. destruct (N.ltb_spec n 2) as [Hlt|Hge].
    + assert (n = 0 \/ n = 1)%N as [-> | ->] by lia; reflexivity.
    + rewrite Nat2N.inj_succ, N.pow_succ_r' in Hn. rewrite count_app, IH by (apply N.div_lt_upper_bound; [discriminate|exact Hn]).
      replace (pop n) with (pop (2 * (n / 2) + n mod 2)) by (now rewrite <- (N.div_mod n 2)).
      assert (Hm := N.mod_lt n 2 ltac:(lia)).
      assert (n mod 2 = 0 \/ n mod 2 = 1)%N as [-> | ->] by (revert Hm; generalize (n mod 2)%N; lia).
      * rewrite (pop_step (n / 2) false : pop (2 * (n / 2) + 0) = _). reflexivity.
      * rewrite (pop_step (n / 2) true : pop (2 * (n / 2) + 1) = _). reflexivity.
Qed.
Lemma bin_count n : count_ch "1" (bin_text (Z.of_N n)) = pop n.
Proof.
  unfold bin_text. rewrite count_app.
  destruct (Z.ltb_spec (Z.of_N n) 0); [lia|]. change (count_ch "1" ($"0b")) with 0%nat.
  rewrite Z.abs_eq, N2Z.id by lia. apply fmt2_pop, size_nat_bound.
Qed.

Lemma nibble_spec c n : nibble c = Some n -> Ascii.eqb "," c = false /\
  exists d, digit_val c = Some d /\ (d < 16)%N /\ forall acc, bval acc n = (acc * 16 + d)%N.
Proof.
  assert (H : match nibble c with
              | Some n => Ascii.eqb "," c = false /\
                  match digit_val c with Some d => (d <? 16)%N && (bval 0 n =? d)%N && (List.length n =? 4)%nat = true | None => False end
              | None => True end) by (now destruct c as [[] [] [] [] [] [] [] []]).
  intros E. rewrite E in H. destruct H as [H1 H2]. split; auto.
  destruct (digit_val c) as [d|]; [|easy]. exists d. split; auto.
  apply andb_true_iff in H2 as [H2 H4]. apply andb_true_iff in H2 as [H2 H3].
  apply N.ltb_lt in H2. apply N.eqb_eq in H3. split; auto. intros acc.
  destruct n as [|b3 [|b2 [|b1 [|b0 [|]]]]]; try discriminate H4. rewrite <- H3.
  unfold bval. cbn [fold_left]. destruct b3, b2, b1, b0; cbn [b2N]; lia.
Qed.
Lemma mask_digits s bits : MaskText s bits ->
  let d := replace $"," [] s in
  Forall hex_digit d /\ (d = [] <-> bits = []) /\
  forall acc, fold_left (fun n c => n * 16 + match digit_val c with Some d => d | None => 0 end)%N d acc = bval acc bits.
Proof.
  change ($",") with [","%char]. cbv zeta. rewrite replace_char.
  induction 1 as [|s b H (I1 & I2 & I3)|c n s b Hc H (I1 & I2 & I3)]; cbn [flat_map].
  - repeat split; auto.
  - rewrite Ascii.eqb_refl. cbn [app]. repeat split; auto; apply I2.
  - apply nibble_spec in Hc as Hs. destruct Hs as (E & d & Hd & Hl & Hv). rewrite E. cbn [app].
    split; [|split].
    + constructor; auto. now exists d.
    + split; [discriminate|]. intros Hn. apply app_eq_nil in Hn as [-> _]. now destruct c as [[] [] [] [] [] [] [] []].
    + intros acc. cbn [fold_left]. rewrite Hd, I3. unfold bval. rewrite fold_left_app. change (bval (acc * 16 + d) b = bval (bval acc n) b). now rewrite Hv.
Qed.
Lemma ones_rev l : ones (rev l) = ones l.
Proof.
  unfold ones. induction l as [|b l IH]; auto. cbn [rev]. rewrite filter_app, app_length, IH. destruct b; cbn; lia.
Qed.
Lemma filter_seq l : forall k, List.length (filter (fun i => nth (i - k) l false) (seq k (List.length l))) = ones l.
Proof.
  induction l as [|b l IH]; intros k; auto. cbn [List.length seq filter]. rewrite Nat.sub_diag. change (nth 0 (b :: l) false) with b.
  assert (E : filter (fun i => nth (i - k) (b :: l) false) (seq (S k) (List.length l)) =
              filter (fun i => nth (i - S k) l false) (seq (S k) (List.length l))).
  { apply filter_ext_in. intros i Hi. apply in_seq in Hi. replace (i - k)%nat with (S (i - S k)) by lia. reflexivity. }
  rewrite E. unfold ones in *. cbn [filter]. destruct b; cbn [List.length]; now rewrite IH.
Qed.
Lemma cpus_count bits : List.length (cpus_of bits) = ones bits.
Proof.
  unfold cpus_of. rewrite <- (rev_length bits), <- (ones_rev bits), <- (filter_seq (rev bits) 0). f_equal.
  apply filter_ext. intros i. now rewrite Nat.sub_0_r.
Qed.
Lemma mask_count s bits : MaskText s bits -> bits <> [] -> num_cpus_in_mask s = Ok (List.length (cpus_of bits)).
Proof.
  intros H Hn. apply mask_digits in H as (H1 & H2 & H3). unfold num_cpus_in_mask.
  rewrite (int16_hex (replace $"," [] s) (Z.of_N (hex_val (replace $"," [] s)))).
  - rewrite bin_count. unfold hex_val. rewrite H3, pop_bval, cpus_count. reflexivity.
  - constructor; auto. intros E. apply H2 in E. auto.
Qed.
Lemma mask_empty s : MaskText s [] -> num_cpus_in_mask s = Err EValue.
Proof.
  intros H. apply mask_digits in H as (H1 & H2 & H3). unfold num_cpus_in_mask. now rewrite (proj2 H2 eq_refl).
Qed.
