(** Facts about the string library. *)
From Coq Require Import List Ascii String ZArith NArith Bool Lia.
From Verif Require Import Lib.PyStr.
Import ListNotations.

(** Decide a closed boolean property of characters by enumeration. *)
Ltac ascii_enum c :=
  destruct c as [[] [] [] [] [] [] [] []]; vm_compute; try reflexivity; try discriminate; auto.

Lemma is_ch_eq d c : is_ch d c = true <-> d = c.
Proof. apply Ascii.eqb_eq. Qed.
Lemma ascii_eqb_refl c : Ascii.eqb c c = true.
Proof. apply Ascii.eqb_refl. Qed.
Lemma ascii_eqb_neq a b : a <> b -> Ascii.eqb a b = false.
Proof. apply Ascii.eqb_neq. Qed.

Lemma eqs_refl a : eqs a a = true.
Proof. induction a; cbn; auto. now rewrite Ascii.eqb_refl. Qed.
Lemma eqs_eq a b : eqs a b = true <-> a = b.
Proof.
  split.
  - revert b; induction a as [|x a IH]; destruct b as [|y b]; cbn; try discriminate; auto.
    intros H. apply andb_prop in H as [H1 H2].
    apply Ascii.eqb_eq in H1. f_equal; auto.
  - intros ->. apply eqs_refl.
Qed.
Lemma eqs_neq a b : eqs a b = false <-> a <> b.
Proof.
  destruct (eqs a b) eqn:E.
  - apply eqs_eq in E. split; congruence.
  - split; auto. intros _ ->. now rewrite eqs_refl in E.
Qed.
Lemma eqs_sym a b : eqs a b = eqs b a.
Proof.
  destruct (eqs a b) eqn:E.
  - apply eqs_eq in E as ->. now rewrite eqs_refl.
  - apply eqs_neq in E. symmetry. apply eqs_neq. congruence.
Qed.
Lemma str_dec (a b : str) : {a = b} + {a <> b}.
Proof. apply list_eq_dec, ascii_dec. Qed.

Lemma is_prefix_spec p s : is_prefix p s = true <-> exists r, s = p ++ r.
Proof.
  split.
  - revert s; induction p as [|x p IH]; intros s H; [now exists s|].
    destruct s as [|y s]; cbn in H; [discriminate|].
    apply andb_prop in H as [H1 H2]. apply Ascii.eqb_eq in H1 as ->.
    destruct (IH _ H2) as [r ->]. now exists r.
  - intros [r ->]. induction p; cbn; auto. now rewrite Ascii.eqb_refl.
Qed.
Lemma is_prefix_app p r : is_prefix p (p ++ r) = true.
Proof. apply is_prefix_spec. now exists r. Qed.
Lemma is_suffix_spec p s : is_suffix p s = true <-> exists r, s = r ++ p.
Proof.
  unfold is_suffix. rewrite is_prefix_spec. split; intros [r H].
  - exists (rev r). rewrite <- (rev_involutive s), H, rev_app_distr, rev_involutive. reflexivity.
  - exists (rev r). now rewrite H, rev_app_distr.
Qed.
Lemma contains_spec p s : contains p s = true <-> exists a b, s = a ++ p ++ b.
Proof.
  split.
  - induction s as [|c s IH]; cbn [contains]; intros H; apply orb_prop in H as [H|H].
    + apply is_prefix_spec in H as [r H]. exists [], r. exact H.
    + discriminate.
    + apply is_prefix_spec in H as [r H]. exists [], r. exact H.
    + destruct (IH H) as (a & b & ->). exists (c :: a), b. reflexivity.
  - intros (a & b & ->). induction a as [|c a IH].
    + cbn [app]. destruct (p ++ b) eqn:E; cbn [contains]; rewrite <- E, is_prefix_app; reflexivity.
    + cbn [app contains]. rewrite IH. now rewrite orb_true_r.
Qed.
Lemma contains_refl p : contains p p = true.
Proof. apply contains_spec. exists [], []. now rewrite app_nil_r. Qed.
Lemma contains_trans p q s : contains p q = true -> contains q s = true -> contains p s = true.
Proof.
  rewrite !contains_spec. intros (a & b & ->) (a' & b' & ->).
  exists (a' ++ a), (b ++ b'). now rewrite !app_assoc.
Qed.
Lemma has_char_In c s : has_char c s = true <-> In c s.
Proof.
  unfold has_char. rewrite existsb_exists. split.
  - intros (x & Hx & E). apply is_ch_eq in E as <-. exact Hx.
  - intros H. exists c. split; auto. apply is_ch_eq. reflexivity.
Qed.
Lemma has_char_app c a b : has_char c (a ++ b) = has_char c a || has_char c b.
Proof. apply existsb_app. Qed.

(** ** split_ws *)
Definition no_space (s : str) : Prop := Forall (fun c => is_space c = false) s.
Definition all_space (s : str) : Prop := Forall (fun c => is_space c = true) s.
Definition word_ok (w : str) : Prop := w <> [] /\ no_space w.

Lemma split_ws_space sp s : all_space sp -> split_ws (sp ++ s) = split_ws s.
Proof. induction 1; cbn [app split_ws]; auto. now rewrite H. Qed.
Lemma split_ws_word_end w : word_ok w -> split_ws w = [w].
Proof.
  intros [Hne H]. induction w as [|c w IH]; [congruence|].
  inversion H; subst. cbn [split_ws]. rewrite H2.
  destruct w as [|d w]; auto. inversion H3; subst. rewrite H4.
  rewrite IH; auto; discriminate.
Qed.
Lemma split_ws_word w sp s : word_ok w -> is_space sp = true ->
  split_ws (w ++ sp :: s) = w :: split_ws s.
Proof.
  intros [Hne H] Hsp. induction w as [|c w IH]; [congruence|].
  inversion H; subst. cbn [app split_ws]. rewrite H2.
  destruct w as [|d w].
  - cbn [app]. rewrite Hsp. f_equal. cbn [split_ws]. now rewrite Hsp.
  - cbn [app]. inversion H3; subst. rewrite H4.
    change (d :: w ++ sp :: s) with ((d :: w) ++ sp :: s).
    rewrite IH; auto; discriminate.
Qed.
Lemma split_ws_all_space sp : all_space sp -> split_ws sp = [].
Proof. intros H. rewrite <- (app_nil_r sp), split_ws_space; auto. Qed.
Lemma split_ws_join ws : Forall word_ok ws -> split_ws (join $" " ws) = ws.
Proof.
  change ($" ") with [" "%char].
  induction 1 as [|w ws Hw Hws IH]; auto.
  destruct ws as [|w' ws]; [now apply split_ws_word_end|].
  change (join [" "%char] (w :: w' :: ws)) with (w ++ " "%char :: join [" "%char] (w' :: ws)).
  rewrite split_ws_word; auto. now rewrite IH.
Qed.
Lemma split_ws_words s : Forall word_ok (split_ws s).
Proof.
  induction s as [|c r IH]; cbn [split_ws]; auto.
  destruct (is_space c) eqn:E; auto.
  assert (word_ok [c]) by (split; [discriminate|repeat constructor; auto]).
  destruct r as [|d r]; auto.
  destruct (is_space d); [constructor; auto|].
  destruct (split_ws (d :: r)) as [|w ws]; auto.
  inversion IH; subst. constructor; auto. destruct H2. split; [discriminate|constructor; auto].
Qed.

(** ** split_ch *)
Lemma split_ch_nonnil sep s : split_ch sep s <> [].
Proof.
  destruct s as [|c s]; cbn; [discriminate|].
  destruct (Ascii.eqb c sep); [discriminate|].
  destruct (split_ch sep s); discriminate.
Qed.
Lemma split_ch_nosep sep w : ~ In sep w -> split_ch sep w = [w].
Proof.
  induction w as [|c w IH]; intros H; auto. cbn [split_ch].
  rewrite ascii_eqb_neq by (intros ->; apply H; now left).
  rewrite IH; auto. intros Hi; apply H; now right.
Qed.
Lemma split_ch_app sep w s : ~ In sep w -> split_ch sep (w ++ sep :: s) = w :: split_ch sep s.
Proof.
  induction w as [|c w IH]; intros H; cbn [app split_ch].
  - now rewrite Ascii.eqb_refl.
  - rewrite ascii_eqb_neq by (intros ->; apply H; now left).
    rewrite IH; auto. intros Hi; apply H; now right.
Qed.
Lemma split_ch_join sep ws : ws <> [] -> Forall (fun w => ~ In sep w) ws ->
  split_ch sep (join [sep] ws) = ws.
Proof.
  intros Hne H. induction H as [|w ws Hw Hws IH]; [congruence|].
  destruct ws as [|w' ws]; [now apply split_ch_nosep|].
  change (join [sep] (w :: w' :: ws)) with (w ++ sep :: join [sep] (w' :: ws)).
  rewrite split_ch_app; auto. now rewrite IH.
Qed.
Lemma join_split_ch sep s : join [sep] (split_ch sep s) = s.
Proof.
  induction s as [|c s IH]; auto. cbn [split_ch].
  destruct (Ascii.eqb_spec c sep) as [->|Hn].
  - assert (Hn := split_ch_nonnil sep s).
    destruct (split_ch sep s) as [|w ws]; [congruence|].
    change (join [sep] ([] :: w :: ws)) with (sep :: join [sep] (w :: ws)). now rewrite IH.
  - assert (Hn' := split_ch_nonnil sep s).
    destruct (split_ch sep s) as [|w ws]; [congruence|].
    destruct ws as [|w' ws]; cbn in *; congruence.
Qed.
Lemma split_ch_pieces sep s : Forall (fun w => ~ In sep w) (split_ch sep s).
Proof.
  induction s as [|c s IH]; cbn [split_ch]; [constructor; auto|].
  destruct (Ascii.eqb_spec c sep) as [->|Hn]; [constructor; auto|].
  assert (Hn' := split_ch_nonnil sep s).
  destruct (split_ch sep s) as [|w ws]; [congruence|].
  inversion IH; subst. constructor; auto. intros [->|Hi]; auto.
Qed.

(** ** split_once *)
Lemma split_once_Some sep s a b :
  split_once sep s = Some (a, b) <-> s = a ++ sep :: b /\ ~ In sep a.
Proof.
  split.
  - revert a b; induction s as [|c s IH]; cbn [split_once]; intros a b H; [discriminate|].
    destruct (Ascii.eqb_spec c sep) as [->|Hn].
    + injection H as <- <-. split; auto.
    + destruct (split_once sep s) as [[a' b']|]; [|discriminate].
      injection H as <- <-. destruct (IH a' b' eq_refl) as [-> Hni]. split; auto.
      intros [->|Hi]; auto.
  - intros [-> Hni]. induction a as [|c a IH]; cbn [app split_once].
    + now rewrite Ascii.eqb_refl.
    + rewrite ascii_eqb_neq by (intros ->; apply Hni; now left).
      rewrite IH; auto. intros Hi; apply Hni; now right.
Qed.
Lemma split_once_None sep s : split_once sep s = None <-> ~ In sep s.
Proof.
  split.
  - induction s as [|c s IH]; cbn [split_once]; intros H; auto.
    destruct (Ascii.eqb_spec c sep) as [->|Hn]; [discriminate|].
    destruct (split_once sep s) as [[]|]; [discriminate|].
    intros [->|Hi]; auto. now apply IH.
  - induction s as [|c s IH]; intros H; auto. cbn [split_once].
    rewrite ascii_eqb_neq by (intros ->; apply H; now left).
    rewrite IH; auto. intros Hi; apply H; now right.
Qed.

(** ** stripping *)
Lemma drop_while_app {A} (p : A -> bool) a b :
  Forall (fun c => p c = true) a -> drop_while p (a ++ b) = drop_while p b.
Proof. induction 1; cbn; auto. now rewrite H. Qed.
Lemma drop_while_head {A} (p : A -> bool) c s : p c = false -> drop_while p (c :: s) = c :: s.
Proof. intros H. cbn. now rewrite H. Qed.
Lemma drop_while_all {A} (p : A -> bool) s : Forall (fun c => p c = true) s -> drop_while p s = [].
Proof. intros H. rewrite <- (app_nil_r s). now rewrite drop_while_app. Qed.
Lemma take_drop_while {A} (p : A -> bool) s : take_while p s ++ drop_while p s = s.
Proof. induction s as [|c s IH]; cbn; auto. destruct (p c); cbn; congruence. Qed.
Lemma take_while_Forall {A} (p : A -> bool) s : Forall (fun c => p c = true) (take_while p s).
Proof. induction s as [|c s IH]; cbn; auto. destruct (p c) eqn:E; auto. Qed.
Lemma drop_while_hd {A} (p : A -> bool) s c r : drop_while p s = c :: r -> p c = false.
Proof.
  induction s as [|d s IH]; cbn; [discriminate|].
  destruct (p d) eqn:E; auto. now injection 1 as -> ->.
Qed.

Lemma strip_no_space s : no_space s -> strip s = s.
Proof.
  intros H. unfold strip, lstrip, rstrip.
  assert (D : drop_while is_space s = s).
  { destruct H; auto. cbn. now rewrite H. }
  rewrite D. assert (D' : drop_while is_space (rev s) = rev s).
  { apply Forall_rev in H. destruct H; auto. cbn. now rewrite H. }
  now rewrite D', rev_involutive.
Qed.

(** ** Integer printing and parsing *)
Definition is_numeral (b : N) (c : ascii) : Prop :=
  exists d, digit_val c = Some d /\ (d < b)%N /\ Ascii.eqb c "_" = false.

Lemma digit_char_val d : (d < 36)%N -> digit_val (digit_char d) = Some d.
Proof.
  intros H.
  assert (E : List.In d (map N.of_nat (seq 0 36))).
  { apply in_map_iff. exists (N.to_nat d). split; [lia|]. apply in_seq. lia. }
  cbn in E. repeat (destruct E as [<-|E]; [reflexivity|]). destruct E.
Qed.
Lemma digit_char_us d : (d < 36)%N -> Ascii.eqb (digit_char d) "_" = false.
Proof.
  intros H.
  assert (E : List.In d (map N.of_nat (seq 0 36))).
  { apply in_map_iff. exists (N.to_nat d). split; [lia|]. apply in_seq. lia. }
  cbn in E. repeat (destruct E as [<-|E]; [reflexivity|]). destruct E.
Qed.
Lemma digit_char_10 d : (d < 10)%N -> is_digit (digit_char d) = true.
Proof.
  intros H.
  assert (E : List.In d (map N.of_nat (seq 0 10))).
  { apply in_map_iff. exists (N.to_nat d). split; [lia|]. apply in_seq. lia. }
  cbn in E. repeat (destruct E as [<-|E]; [reflexivity|]). destruct E.
Qed.

Lemma digits_loop_app b acc p s1 s2 n :
  digits_loop b acc p s1 = Some n -> s1 <> [] ->
  digits_loop b acc p (s1 ++ s2) = digits_loop b n PDigit s2.
Proof.
  revert acc p. induction s1 as [|c s1 IH]; intros acc p H Hne; [congruence|].
  cbn [app digits_loop] in *.
  destruct (Ascii.eqb c "_").
  - destruct p; try discriminate.
    destruct s1; [cbn in H; discriminate|]. apply IH; auto; discriminate.
  - destruct (digit_val c); [|discriminate]. destruct (n0 <? b)%N; [|discriminate].
    destruct s1; [cbn in H; injection H as <-; reflexivity|]. apply IH; auto; discriminate.
Qed.

Lemma fmt_fuel_nonnil b f n : f <> O -> fmt_fuel b f n <> [].
Proof.
  destruct f; [congruence|]. intros _. cbn. destruct (n <? b)%N; [discriminate|].
  destruct (fmt_fuel b f (n / b)); discriminate.
Qed.

Lemma fmt_fuel_parse b f : (2 <= b)%N -> (b <= 36)%N ->
  forall n, (n < 2 ^ N.of_nat f)%N -> f <> O -> digits_loop b 0 PStart (fmt_fuel b f n) = Some n.
Proof.
  intros Hb Hb'. induction f as [|f IH]; intros n Hn Hf; [congruence|].
  cbn [fmt_fuel]. destruct (N.ltb_spec n b) as [Hlt|Hge].
  - cbn [digits_loop]. rewrite digit_char_us, digit_char_val by lia.
    destruct (N.ltb_spec n b); [|lia]. f_equal; lia.
  - assert (Hq : (n / b < 2 ^ N.of_nat f)%N).
    { apply N.div_lt_upper_bound; [lia|].
      assert (2 ^ N.of_nat (S f) = 2 * 2 ^ N.of_nat f)%N
        by (rewrite Nat2N.inj_succ, N.pow_succ_r'; lia).
      nia. }
    assert (Hf0 : f <> O).
    { intros ->. cbn in Hn. lia. }
    erewrite digits_loop_app; [|apply IH; auto|now apply fmt_fuel_nonnil].
    assert (Hm : (n mod b < b)%N) by (apply N.mod_lt; lia).
    cbn [digits_loop]. rewrite digit_char_us, digit_char_val by lia.
    destruct (N.ltb_spec (n mod b) b); [|lia].
    f_equal. rewrite (N.div_mod n b) at 3 by lia. lia.
Qed.

Lemma size_nat_bound n : (n < 2 ^ N.of_nat (S (N.size_nat n)))%N.
Proof.
  assert (H := N.size_gt n).
  assert (E : N.of_nat (N.size_nat n) = N.size n).
  { clear H. destruct n as [|p]; auto. cbn [N.size_nat N.size].
    induction p as [p IH|p IH|]; cbn [Pos.size_nat Pos.size]; auto;
    rewrite Nat2N.inj_succ, IH; reflexivity. }
  rewrite Nat2N.inj_succ, N.pow_succ_r', E. lia.
Qed.

Lemma parse_fmt b n : (2 <= b)%N -> (b <= 36)%N -> parse_digits b (fmt_base b n) = Some n.
Proof.
  intros. unfold parse_digits, fmt_base. apply fmt_fuel_parse; auto.
  apply size_nat_bound.
Qed.

Lemma fmt_base_nonnil b n : fmt_base b n <> [].
Proof. apply fmt_fuel_nonnil. discriminate. Qed.

Lemma fmt_fuel_Forall (P : ascii -> Prop) b f n :
  (0 < b)%N -> (forall d, (d < b)%N -> P (digit_char d)) -> Forall P (fmt_fuel b f n).
Proof.
  intros Hb HP. revert n. induction f as [|f IH]; intros n; cbn [fmt_fuel]; auto.
  destruct (N.ltb_spec n b); [constructor; auto|].
  apply Forall_app. split; auto. constructor; auto. apply HP. apply N.mod_lt. lia.
Qed.
Lemma str_of_N_digits n : Forall (fun c => is_digit c = true) (str_of_N n).
Proof. apply fmt_fuel_Forall; [lia|]. apply digit_char_10. Qed.
Lemma str_of_N_nonnil n : str_of_N n <> [].
Proof. apply fmt_base_nonnil. Qed.
Lemma str_of_N_parse n : parse_digits 10 (str_of_N n) = Some n.
Proof. apply parse_fmt; lia. Qed.
Lemma str_of_N_inj a b : str_of_N a = str_of_N b -> a = b.
Proof.
  intros H. assert (E := str_of_N_parse a). rewrite H, str_of_N_parse in E. congruence.
Qed.
Lemma str_of_nat_inj a b : str_of_nat a = str_of_nat b -> a = b.
Proof. intros H. apply str_of_N_inj in H. lia. Qed.

Lemma digit_no_space c : is_digit c = true -> is_space c = false.
Proof. ascii_enum c. Qed.
Lemma digit_not_sign c : is_digit c = true -> Ascii.eqb c "-" = false /\ Ascii.eqb c "+" = false.
Proof. ascii_enum c. Qed.
Lemma str_of_N_nospace n : no_space (str_of_N n).
Proof. eapply Forall_impl; [|apply str_of_N_digits]. intros; now apply digit_no_space. Qed.

(** First digit of a positive number's numeral is not 0. *)
Lemma fmt_fuel_lead b f n : (2 <= b)%N -> (b <= 36)%N -> (0 < n)%N -> (n < 2 ^ N.of_nat f)%N -> f <> O ->
  exists d r, fmt_fuel b f n = digit_char d :: r /\ (0 < d)%N /\ (d < b)%N.
Proof.
  intros Hb Hb'. revert n. induction f as [|f IH]; intros n Hp Hn Hf; [congruence|].
  cbn [fmt_fuel]. destruct (N.ltb_spec n b) as [Hlt|Hge]; [now exists n, []|].
  assert (Hq : (n / b < 2 ^ N.of_nat f)%N).
  { apply N.div_lt_upper_bound; [lia|].
    assert (2 ^ N.of_nat (S f) = 2 * 2 ^ N.of_nat f)%N
      by (rewrite Nat2N.inj_succ, N.pow_succ_r'; lia). nia. }
  assert (Hf0 : f <> O) by (intros ->; cbn in Hn; lia).
  destruct (IH (n / b)%N) as (d & r & E & Hd); auto.
  { apply N.div_str_pos. lia. }
  exists d, (r ++ [digit_char (n mod b)]). rewrite E. auto.
Qed.

Lemma digit_char_not0 d : (0 < d)%N -> (d < 36)%N -> Ascii.eqb (digit_char d) "0" = false.
Proof.
  intros H0 H.
  assert (E : List.In d (map N.of_nat (seq 1 35))).
  { apply in_map_iff. exists (N.to_nat d). split; [lia|]. apply in_seq. lia. }
  cbn in E. repeat (destruct E as [<-|E]; [reflexivity|]). destruct E.
Qed.

Lemma parse_base0_dec n : parse_base0 (str_of_N n) = Some n.
Proof.
  destruct n as [|p]; [reflexivity|].
  destruct (fmt_fuel_lead 10 (S (N.size_nat (Npos p))) (Npos p)) as (d & r & E & Hd & Hd');
    try lia; [apply size_nat_bound|].
  assert (Hp := str_of_N_parse (Npos p)).
  unfold str_of_N, fmt_base in *. rewrite E in *.
  cbn [parse_base0]. rewrite digit_char_not0 by lia. exact Hp.
Qed.

Lemma sign_split_digits s : s <> [] -> Forall (fun c => is_digit c = true) s ->
  sign_split s = (false, s).
Proof.
  intros Hne H. destruct H as [|c s Hc Hs]; [congruence|]. cbn.
  destruct (digit_not_sign c Hc) as [-> ->]. reflexivity.
Qed.

Lemma str_of_Z_word z : word_ok (str_of_Z z).
Proof.
  split.
  - destruct z; cbn [str_of_Z]; try apply str_of_N_nonnil; discriminate.
  - destruct z; cbn [str_of_Z]; try apply str_of_N_nospace.
    constructor; [reflexivity|apply str_of_N_nospace].
Qed.
Lemma py_int0_dec z : py_int0 (str_of_Z z) = Some z.
Proof.
  unfold py_int0. rewrite strip_no_space.
  2:{ apply str_of_Z_word. }
  destruct z as [|p|p].
  - reflexivity.
  - cbn [str_of_Z]. rewrite sign_split_digits; [|apply str_of_N_nonnil|apply str_of_N_digits].
    rewrite parse_base0_dec. cbn. reflexivity.
  - cbn [str_of_Z sign_split]. rewrite Ascii.eqb_refl. rewrite parse_base0_dec. reflexivity.
Qed.

Lemma py_int10_dec z : py_int10 (str_of_Z z) = Some z.
Proof.
  unfold py_int10. rewrite strip_no_space.
  2:{ apply str_of_Z_word. }
  destruct z as [|p|p].
  - reflexivity.
  - cbn [str_of_Z]. rewrite sign_split_digits; [|apply str_of_N_nonnil|apply str_of_N_digits].
    rewrite str_of_N_parse. cbn. reflexivity.
  - cbn [str_of_Z sign_split]. rewrite Ascii.eqb_refl. rewrite str_of_N_parse. reflexivity.
Qed.


(** ** Dictionaries *)
Section DictFacts.
Context {K V : Type} (keq : K -> K -> bool) (keq_spec : forall a b, keq a b = true <-> a = b).
Lemma keq_refl k : keq k k = true.
Proof. now apply keq_spec. Qed.
Lemma keq_neq a b : a <> b -> keq a b = false.
Proof. destruct (keq a b) eqn:E; auto. apply keq_spec in E. congruence. Qed.
Lemma dget_dset k v k' (d : list (K * V)) :
  dget keq k' (dset keq k v d) = if keq k' k then Some v else dget keq k' d.
Proof.
  induction d as [|[k0 v0] d IH]; cbn.
  - reflexivity.
  - destruct (keq k k0) eqn:E.
    + apply keq_spec in E as ->. cbn. destruct (keq k' k0); auto.
    + cbn. rewrite IH. destruct (keq k' k0) eqn:E'; auto.
      destruct (keq k' k) eqn:E''; auto. apply keq_spec in E', E''. subst.
      rewrite keq_refl in E. discriminate.
Qed.
Lemma dget_In k v (d : list (K * V)) : dget keq k d = Some v -> In (k, v) d.
Proof.
  induction d as [|[k0 v0] d IH]; cbn; [discriminate|].
  destruct (keq k k0) eqn:E; auto. apply keq_spec in E as ->. injection 1 as ->. auto.
Qed.
Lemma dget_None k (d : list (K * V)) : dget keq k d = None <-> ~ In k (map fst d).
Proof.
  induction d as [|[k0 v0] d IH]; cbn; [tauto|].
  destruct (keq k k0) eqn:E.
  - apply keq_spec in E as ->. split; [discriminate|]. intros H; exfalso; apply H; auto.
  - rewrite IH. split; [|tauto]. intros H [->|Hi]; auto. now rewrite keq_refl in E.
Qed.
Lemma In_dget k v (d : list (K * V)) : NoDup (map fst d) -> In (k, v) d -> dget keq k d = Some v.
Proof.
  induction d as [|[k0 v0] d IH]; cbn; [tauto|]. inversion 1; subst. intros [E|Hi].
  - injection E as -> ->. now rewrite keq_refl.
  - rewrite keq_neq; auto. intros ->. apply H2. now apply (in_map fst) in Hi.
Qed.
Lemma dset_keys k v (d : list (K * V)) :
  map fst (dset keq k v d) = if dmem keq k d then map fst d else map fst d ++ [k].
Proof.
  unfold dmem. induction d as [|[k0 v0] d IH]; cbn; auto.
  destruct (keq k k0) eqn:E; cbn; auto. rewrite IH. destruct (dget keq k d); auto.
Qed.
Lemma dset_NoDup k v (d : list (K * V)) : NoDup (map fst d) -> NoDup (map fst (dset keq k v d)).
Proof.
  intros H. rewrite dset_keys. unfold dmem. destruct (dget keq k d) eqn:E; auto.
  apply dget_None in E. apply NoDup_rev in H.
  rewrite <- (rev_involutive (map fst d ++ [k])), rev_app_distr. apply NoDup_rev. cbn.
  constructor; auto. now rewrite <- in_rev.
Qed.
Lemma dset_new k v (d : list (K * V)) : dget keq k d = None -> dset keq k v d = d ++ [(k, v)].
Proof.
  induction d as [|[k0 v0] d IH]; cbn; auto.
  destruct (keq k k0); [discriminate|]. intros H. now rewrite IH.
Qed.
Lemma dget_app k (d1 d2 : list (K * V)) :
  dget keq k (d1 ++ d2) = match dget keq k d1 with Some v => Some v | None => dget keq k d2 end.
Proof. induction d1 as [|[k0 v0] d IH]; cbn; auto. destruct (keq k k0); auto. Qed.
Lemma dget_ddel k k' (d : list (K * V)) :
  dget keq k' (ddel keq k d) = if keq k k' then None else dget keq k' d.
Proof.
  unfold ddel. induction d as [|[k0 v0] d IH]; cbn.
  - now destruct (keq k k').
  - destruct (keq k k0) eqn:E; cbn.
    + rewrite IH. apply keq_spec in E as ->.
      destruct (keq k0 k') eqn:E; auto.
      rewrite keq_neq; auto. intros ->. now rewrite keq_refl in E.
    + rewrite IH. destruct (keq k' k0) eqn:E'; auto.
      apply keq_spec in E' as ->. now rewrite E.
Qed.
Lemma dupdate_app (d p1 p2 : list (K * V)) :
  dupdate keq d (p1 ++ p2) = dupdate keq (dupdate keq d p1) p2.
Proof. apply fold_left_app. Qed.
Lemma dget_dupdate k ps (d : list (K * V)) :
  dget keq k (dupdate keq d ps) =
  match dget keq k (rev ps) with Some v => Some v | None => dget keq k d end.
Proof.
  revert d. induction ps as [|[k0 v0] ps IH]; intros d; auto.
  cbn [dupdate fold_left fst snd]. fold (dupdate keq (dset keq k0 v0 d) ps). rewrite IH.
  cbn [rev]. rewrite dget_app, dget_dset. cbn [dget].
  destruct (dget keq k (rev ps)); auto. destruct (keq k k0); auto.
Qed.
End DictFacts.
