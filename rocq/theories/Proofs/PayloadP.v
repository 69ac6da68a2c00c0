(** Proofs about generate_data_dict and string_cast_int. *)
From Coq Require Import List Ascii String ZArith NArith Bool Lia.
From Verif Require Import Lib.PyStr Lib.PyStrFacts Lib.F64 Model.Base Spec.Payload.
Import ListNotations.

Lemma Words_split s ws : Words s ws -> split_ws s = ws.
Proof.
  induction 1 as [sp H|sp w r ws Hsp Hw Hr H IH].
  - now apply split_ws_all_space.
  - rewrite split_ws_space by auto. destruct Hr as [->|(c & r' & -> & Hc)].
    + rewrite app_nil_r, split_ws_word_end by auto. cbn in IH. now rewrite <- IH.
    + rewrite split_ws_word by auto. f_equal. rewrite <- IH. cbn. now rewrite Hc.
Qed.
Lemma split_Words s : Words s (split_ws s).
Proof.
  remember (List.length s) as n eqn:En. assert (Hn : List.length s <= n) by lia. clear En.
  revert s Hn. induction n as [|n IH]; intros s Hn.
  - destruct s; [|cbn in Hn; lia]. apply Words_nil. constructor.
  - assert (Es : split_ws s = split_ws (drop_while is_space s)).
    { rewrite <- (take_drop_while is_space s) at 1. apply split_ws_space, take_while_Forall. }
    rewrite Es. clear Es.
    assert (Ed : s = take_while is_space s ++ drop_while is_space s) by (symmetry; apply take_drop_while).
    rewrite Ed at 1.
    assert (Hl : List.length (drop_while is_space s) <= List.length s).
    { rewrite <- (take_drop_while is_space s) at 2. rewrite app_length. lia. }
    assert (Hh := drop_while_hd is_space s).
    destruct (drop_while is_space s) as [|c r] eqn:E.
    + rewrite app_nil_r. apply Words_nil, take_while_Forall.
    + specialize (Hh c r eq_refl).
      set (t := c :: r) in *.
      set (w := take_while (fun c => negb (is_space c)) t).
      set (q := drop_while (fun c => negb (is_space c)) t).
      assert (Ht : t = w ++ q) by (symmetry; apply take_drop_while).
      assert (Hw : word_ok w).
      { split.
        - unfold w, t. cbn. rewrite Hh. discriminate.
        - eapply Forall_impl; [|apply (take_while_Forall (fun c => negb (is_space c)) t)].
          intros a Ha. cbn in Ha. now apply negb_true_iff. }
      assert (Hq : q = [] \/ exists c r', q = c :: r' /\ is_space c = true).
      { destruct q as [|d q'] eqn:Eq; auto. right. exists d, q'. split; auto.
        unfold q in Eq. apply drop_while_hd in Eq. now apply negb_false_iff. }
      assert (Hlq : List.length q <= n).
      { assert (List.length t = List.length w + List.length q) by (rewrite Ht at 1; apply app_length).
        destruct Hw as [Hw _]. clearbody w q t. destruct w; [congruence|]. cbn [List.length] in *. lia. }
      rewrite Ht. clearbody w q.
      replace (split_ws (w ++ q)) with (w :: split_ws q).
      * apply Words_cons; auto. apply take_while_Forall.
      * destruct Hq as [Hq|(d & q' & Hq & Hd)].
        -- rewrite Hq, app_nil_r, (split_ws_word_end w) by auto. reflexivity.
        -- rewrite Hq, (split_ws_word w) by auto. cbn. now rewrite Hd.
Qed.
Lemma Words_iff s ws : Words s ws <-> split_ws s = ws.
Proof. split; [apply Words_split|intros <-; apply split_Words]. Qed.

(** Every word list decomposes into leading bare words and groups. *)
Lemma words_decompose ws : exists pre gs,
  ws = pre ++ flat_map g_words gs /\ Forall (fun w => ~ In "="%char w) pre /\ Forall group_ok gs.
Proof.
  induction ws as [|w ws (pre & gs & -> & Hp & Hg)].
  - exists [], []. auto.
  - destruct (split_once "=" w) as [[k v]|] eqn:E.
    + apply split_once_Some in E as [-> Hk].
      exists [], (Grp k v pre :: gs). repeat split; auto.
      constructor; auto. split; auto.
    + apply split_once_None in E. exists (w :: pre), gs. repeat split; auto.
Qed.

(** What a group contributes. *)
Definition g_cell (g : pgroup) : str * cell :=
  (g_key g,
   match py_int0 (g_val g) with
   | Some z => CInt z
   | None => CStr (join $" " (g_val g :: match g_key g with [] => [] | _ => g_more g end))
   end).
Definition bad_group (g : pgroup) : Prop := g_key g = [] /\ g_more g <> [].

Lemma join_snoc_word sep a l w : join sep (a :: l ++ [w]) = join sep (a :: l) ++ sep ++ w.
Proof.
  revert a. induction l as [|b l IH]; intros a; auto.
  change (join sep (a :: (b :: l) ++ [w])) with (a ++ sep ++ join sep (b :: l ++ [w])).
  rewrite IH. change (join sep (a :: b :: l)) with (a ++ sep ++ join sep (b :: l)).
  now rewrite <- !app_assoc.
Qed.

Lemma dset_dset {V} k (v v' : V) d : dset eqs k v' (dset eqs k v d) = dset eqs k v' d.
Proof.
  induction d as [|[k0 v0] d IH]; cbn.
  - now rewrite eqs_refl.
  - destruct (eqs k k0) eqn:E; cbn; rewrite E; auto. now rewrite IH.
Qed.

Lemma loop_more failed k ws : forall d v l rest,
  k <> [] -> Forall (fun w => ~ In "="%char w) ws ->
  gdd_loop failed (dset eqs k (CStr (join $" " (v :: l))) d) (Some k) (ws ++ rest) =
  gdd_loop failed (dset eqs k (CStr (join $" " (v :: l ++ ws))) d) (Some k) rest.
Proof.
  induction ws as [|w ws IH]; intros d v l rest Hk H.
  - now rewrite app_nil_r.
  - inversion H; subst. cbn [app gdd_loop]. rewrite (proj2 (split_once_None _ _)) by auto.
    destruct k as [|c k]; [congruence|]. set (kk := c :: k) in *.
    unfold dlookup. rewrite (dget_dset eqs eqs_eq), eqs_refl, dset_dset.
    rewrite <- join_snoc_word. rewrite IH by auto. now rewrite <- app_assoc.
Qed.
Lemma loop_more_int failed k z ws : forall d rest,
  k <> [] -> Forall (fun w => ~ In "="%char w) ws ->
  gdd_loop failed (dset eqs k (CInt z) d) (Some k) (ws ++ rest) =
  gdd_loop failed (dset eqs k (CInt z) d) (Some k) rest.
Proof.
  induction ws as [|w ws IH]; intros d rest Hk H; auto.
  inversion H; subst. cbn [app gdd_loop]. rewrite (proj2 (split_once_None _ _)) by auto.
  destruct k as [|c k]; [congruence|].
  unfold dlookup. rewrite (dget_dset eqs eqs_eq), eqs_refl. apply IH; auto.
Qed.
Lemma loop_skip d k ws : forall rest, (k = None \/ k = Some []) ->
  Forall (fun w => ~ In "="%char w) ws ->
  gdd_loop true d k (ws ++ rest) = gdd_loop true d k rest.
Proof.
  induction ws as [|w ws IH]; intros rest Hk H; auto.
  inversion H; subst. cbn [app gdd_loop]. rewrite (proj2 (split_once_None _ _)) by auto.
  destruct Hk as [->| ->]; auto.
Qed.
Lemma loop_fail d k ws rest : (k = None \/ k = Some []) ->
  Forall (fun w => ~ In "="%char w) ws -> ws <> [] ->
  gdd_loop false d k (ws ++ rest) = Err EParse.
Proof.
  intros Hk H Hne. destruct ws as [|w ws]; [congruence|]. inversion H; subst.
  cbn [app gdd_loop]. rewrite (proj2 (split_once_None _ _)) by auto.
  destruct Hk as [->| ->]; auto.
Qed.

Lemma loop_group failed g d k rest : group_ok g -> (failed = true \/ ~ bad_group g) ->
  gdd_loop failed d k (g_words g ++ rest) =
  gdd_loop failed (dset eqs (fst (g_cell g)) (snd (g_cell g)) d) (Some (g_key g)) rest.
Proof.
  intros [Hk Hm] Hb. destruct g as [key val more]. unfold bad_group, g_words, g_cell in *.
  cbn [g_key g_val g_more fst snd] in *. cbn [app gdd_loop].
  rewrite (proj2 (split_once_Some "=" (key ++ "="%char :: val) key val)) by auto.
  unfold string_cast_int.
  destruct key as [|c key].
  - assert (E : failed = true \/ more = []).
    { destruct Hb as [->|Hb]; auto. right. destruct more; auto. exfalso. apply Hb. split; auto. discriminate. }
    destruct E as [->| ->].
    + rewrite loop_skip by auto. destruct (py_int0 val); auto.
    + cbn [app]. destruct (py_int0 val); auto.
  - destruct (py_int0 val) as [z|].
    + apply loop_more_int; auto. discriminate.
    + change val with (join $" " [val]) at 1. apply (loop_more failed (c :: key) more d val []); auto.
      discriminate.
Qed.
Lemma loop_group_bad g d k rest : group_ok g -> bad_group g ->
  gdd_loop false d k (g_words g ++ rest) = Err EParse.
Proof.
  intros [Hk Hm] [E Hne]. destruct g as [key val more]. unfold g_words in *.
  cbn [g_key g_val g_more fst snd] in *. subst key. cbn [app gdd_loop split_once].
  rewrite Ascii.eqb_refl. apply loop_fail; auto.
Qed.

Lemma loop_groups failed gs : forall d k, Forall group_ok gs ->
  (failed = true \/ Forall (fun g => ~ bad_group g) gs) ->
  gdd_loop failed d k (flat_map g_words gs) = Ok (dupdate eqs d (map g_cell gs)).
Proof.
  induction gs as [|g gs IH]; intros d k Hg Hb; auto.
  inversion Hg; subst. cbn [flat_map]. rewrite loop_group; auto.
  2:{ destruct Hb as [|Hb]; auto. inversion Hb; auto. }
  rewrite IH; auto. destruct Hb as [|Hb]; auto. inversion Hb; auto.
Qed.
Lemma loop_groups_bad gs : forall d k, Forall group_ok gs -> Exists bad_group gs ->
  gdd_loop false d k (flat_map g_words gs) = Err EParse.
Proof.
  induction gs as [|g gs IH]; intros d k Hg Hb; [inversion Hb|].
  inversion Hg; subst. cbn [flat_map].
  assert (D : bad_group g \/ ~ bad_group g).
  { unfold bad_group. destruct (g_key g); [|right; intros []; discriminate].
    destruct (g_more g); [right; intros []; congruence|left; split; [auto|discriminate]]. }
  destruct D as [D|D].
  - now apply loop_group_bad.
  - rewrite loop_group by auto. apply IH; auto. inversion Hb; subst; tauto.
Qed.

(** Complete description of generate_data_dict on every payload. *)
Lemma gdd_ok s pre gs : Words s (pre ++ flat_map g_words gs) ->
  Forall (fun w => ~ In "="%char w) pre -> Forall group_ok gs ->
  (contains $"FAILED TO PARSE" s = true \/ (pre = [] /\ Forall (fun g => ~ bad_group g) gs)) ->
  generate_data_dict s = Ok (dupdate eqs [] (map g_cell gs)).
Proof.
  intros Hw Hp Hg H. unfold generate_data_dict. rewrite (Words_split _ _ Hw).
  destruct H as [->|[-> H]].
  - rewrite loop_skip by auto. apply loop_groups; auto.
  - apply loop_groups; auto.
Qed.
Lemma gdd_err s pre gs : Words s (pre ++ flat_map g_words gs) ->
  Forall (fun w => ~ In "="%char w) pre -> Forall group_ok gs ->
  contains $"FAILED TO PARSE" s = false -> (pre <> [] \/ Exists bad_group gs) ->
  generate_data_dict s = Err EParse.
Proof.
  intros Hw Hp Hg Hf H. unfold generate_data_dict. rewrite (Words_split _ _ Hw), Hf.
  destruct pre as [|p pre].
  - destruct H as [H|H]; [congruence|]. now apply loop_groups_bad.
  - apply loop_fail; auto. discriminate.
Qed.

(** Distinct keys: nothing is lost, nothing is reordered. *)
Lemma dupdate_distinct {V} (ps d : list (str * V)) :
  NoDup (map fst (d ++ ps)) -> dupdate eqs d ps = d ++ ps.
Proof.
  revert d. induction ps as [|[k v] ps IH]; intros d H.
  - now rewrite app_nil_r.
  - cbn [dupdate fold_left fst snd]. fold (dupdate eqs (dset eqs k v d) ps).
    assert (Hn : ~ In k (map fst d)).
    { rewrite map_app in H. cbn in H. apply NoDup_remove_2 in H. intros Hi. apply H.
      apply in_or_app. auto. }
    rewrite dset_new by (apply (dget_None eqs eqs_eq); auto).
    rewrite IH; rewrite <- app_assoc; auto.
Qed.

Lemma gdd_roundtrip s gs : Words s (flat_map g_words gs) -> Forall group_ok gs ->
  NoDup (map g_key gs) -> Forall (fun g => g_key g <> []) gs ->
  generate_data_dict s = Ok (map g_cell gs).
Proof.
  intros Hw Hg Hnd Hk. rewrite (gdd_ok s [] gs); auto.
  - f_equal. rewrite dupdate_distinct; auto. cbn. rewrite map_map. exact Hnd.
  - right. split; auto. eapply Forall_impl; [|exact Hk]. intros g Hne [E _]. auto.
Qed.

(** ** Integer literals *)
Lemma digs_nonnil b s n : digs b s n -> s <> [].
Proof. destruct 1; try discriminate; destruct s; discriminate. Qed.
Lemma digs_chars b s n : digs b s n -> no_space s.
Proof.
  assert (G : forall c d, digit_val c = Some d -> is_space c = false) by (intros c d; ascii_enum c).
  induction 1.
  - constructor; eauto.
  - apply Forall_app. split; auto. constructor; eauto.
  - apply Forall_app. split; auto. constructor; [reflexivity|constructor; eauto].
Qed.
Lemma digit_val_us c d : digit_val c = Some d -> Ascii.eqb c "_" = false.
Proof. ascii_enum c. Qed.

Lemma digs_loop b s n : digs b s n -> digits_loop b 0 PStart s = Some n.
Proof.
  induction 1 as [c d Hd Hb|s n c d H IH Hd Hb|s n c d H IH Hd Hb].
  - cbn [digits_loop]. rewrite (digit_val_us c d), Hd by auto. apply N.ltb_lt in Hb as ->.
    f_equal; lia.
  - rewrite (digits_loop_app b 0 PStart s [c] n IH) by (eapply digs_nonnil; eauto).
    cbn [digits_loop]. rewrite (digit_val_us c d), Hd by auto. apply N.ltb_lt in Hb as ->. auto.
  - rewrite (digits_loop_app b 0 PStart s ["_"%char; c] n IH) by (eapply digs_nonnil; eauto).
    cbn [digits_loop]. rewrite Ascii.eqb_refl, (digit_val_us c d), Hd by auto.
    apply N.ltb_lt in Hb as ->. auto.
Qed.

Lemma loop_digs b : forall s acc n p pre, (p = PDigit \/ p = PUnder) ->
  digs b pre acc -> digits_loop b acc p s = Some n ->
  digs b (pre ++ (match p with PUnder => ["_"%char] | _ => [] end) ++ s) n.
Proof.
  induction s as [|c s IH]; intros acc n p pre Hp Hpre H.
  - destruct Hp as [->| ->]; cbn in *; [|discriminate]. injection H as <-. now rewrite app_nil_r.
  - cbn [digits_loop] in H. destruct (Ascii.eqb_spec c "_") as [->|Hn].
    + destruct Hp as [->| ->]; [|discriminate].
      apply (IH acc n PUnder pre) in H; auto.
    + destruct (digit_val c) as [d|] eqn:Ed; [|discriminate].
      destruct (N.ltb_spec d b); [|discriminate].
      destruct Hp as [->| ->].
      * apply (IH _ _ PDigit (pre ++ [c])) in H; [|auto|now apply digs_snoc].
        rewrite <- app_assoc in H. exact H.
      * apply (IH _ _ PDigit (pre ++ ["_"%char; c])) in H; [|auto|now apply digs_us].
        rewrite <- app_assoc in H. exact H.
Qed.
Lemma parse_digits_iff b s n : parse_digits b s = Some n <-> digs b s n.
Proof.
  split; [|apply digs_loop]. unfold parse_digits. destruct s as [|c s]; [discriminate|].
  cbn [digits_loop]. destruct (Ascii.eqb_spec c "_"); [discriminate|].
  destruct (digit_val c) as [d|] eqn:Ed; [|discriminate].
  destruct (N.ltb_spec d b); [|discriminate].
  intros H'. apply (loop_digs b s _ n PDigit [c]) in H'; auto.
  replace (0 * b + d)%N with d by lia. now constructor.
Qed.

Lemma strip_us_iff b s n : parse_digits b (strip_us s) = Some n <->
  exists u s', s = u ++ s' /\ (u = [] \/ u = ["_"%char]) /\ digs b s' n.
Proof.
  rewrite parse_digits_iff. split.
  - intros H. destruct s as [|c s]; [exists [], []; auto|].
    cbn [strip_us] in H. destruct (Ascii.eqb_spec c "_") as [->|Hn].
    + exists ["_"%char], s. auto.
    + exists [], (c :: s). auto.
  - intros (u & s' & -> & [->| ->] & H).
    + cbn [app]. destruct s' as [|c s']; auto. cbn [strip_us].
      destruct (Ascii.eqb_spec c "_") as [->|Hn]; auto. exfalso.
      apply digs_loop in H. cbn in H. discriminate.
    + cbn [app strip_us]. now rewrite Ascii.eqb_refl.
Qed.

Lemma digs_head b s n : digs b s n -> exists c d r, s = c :: r /\ digit_val c = Some d /\ (d < b)%N.
Proof.
  induction 1 as [c d|s n c d H (c0 & d0 & r & -> & ?)|s n c d H (c0 & d0 & r & -> & ?)].
  - exists c, d, []. auto.
  - exists c0, d0, (r ++ [c]). auto.
  - exists c0, d0, (r ++ ["_"%char; c]). auto.
Qed.

Lemma parse_base0_iff s n : parse_base0 s = Some n <-> ulit s n.
Proof.
  split.
  - destruct s as [|c0 r0]; [discriminate|]. cbn [parse_base0].
    destruct (Ascii.eqb_spec c0 "0") as [->|Hn].
    + destruct r0 as [|c1 r1].
      * injection 1 as <-. apply ulit_zero. constructor; reflexivity.
      * destruct (Ascii.eqb c1 "x" || Ascii.eqb c1 "X") eqn:Ex.
        { rewrite strip_us_iff. intros (u & s' & -> & Hu & H). apply ulit_hex; auto.
          apply orb_prop in Ex as [Ex|Ex]; apply Ascii.eqb_eq in Ex; auto. }
        destruct (Ascii.eqb c1 "o" || Ascii.eqb c1 "O") eqn:Eo.
        { rewrite strip_us_iff. intros (u & s' & -> & Hu & H). apply ulit_oct; auto.
          apply orb_prop in Eo as [E|E]; apply Ascii.eqb_eq in E; auto. }
        destruct (Ascii.eqb c1 "b" || Ascii.eqb c1 "B") eqn:Eb.
        { rewrite strip_us_iff. intros (u & s' & -> & Hu & H). apply ulit_bin; auto.
          apply orb_prop in Eb as [E|E]; apply Ascii.eqb_eq in E; auto. }
        destruct (parse_digits 10 ("0"%char :: c1 :: r1)) as [[|p]|] eqn:E; try discriminate.
        injection 1 as <-. apply ulit_zero. now apply parse_digits_iff.
    + rewrite parse_digits_iff. intros H. now apply ulit_dec.
  - destruct 1 as [x u s n Hx Hu H|x u s n Hx Hu H|x u s n Hx Hu H|c s n Hc H|s H].
    + cbn [parse_base0]. rewrite Ascii.eqb_refl.
      replace (Ascii.eqb x "x" || Ascii.eqb x "X") with true by (destruct Hx as [->| ->]; reflexivity).
      apply strip_us_iff. eauto.
    + cbn [parse_base0]. rewrite Ascii.eqb_refl.
      replace (Ascii.eqb x "x" || Ascii.eqb x "X") with false by (destruct Hx as [->| ->]; reflexivity).
      replace (Ascii.eqb x "o" || Ascii.eqb x "O") with true by (destruct Hx as [->| ->]; reflexivity).
      apply strip_us_iff. eauto.
    + cbn [parse_base0]. rewrite Ascii.eqb_refl.
      replace (Ascii.eqb x "x" || Ascii.eqb x "X") with false by (destruct Hx as [->| ->]; reflexivity).
      replace (Ascii.eqb x "o" || Ascii.eqb x "O") with false by (destruct Hx as [->| ->]; reflexivity).
      replace (Ascii.eqb x "b" || Ascii.eqb x "B") with true by (destruct Hx as [->| ->]; reflexivity).
      apply strip_us_iff. eauto.
    + cbn [parse_base0]. rewrite ascii_eqb_neq by auto. now apply parse_digits_iff.
    + assert (H' := H). apply parse_digits_iff in H'.
      destruct (digs_head _ _ _ H) as (c & d & r & -> & Hd & Hlt).
      cbn [parse_base0]. destruct (Ascii.eqb_spec c "0") as [->|Hn]; auto.
      destruct r as [|c1 r1]; auto.
      assert (Hc1 : Ascii.eqb c1 "_" = true \/ exists d1, digit_val c1 = Some d1 /\ (d1 < 10)%N).
      { unfold parse_digits in H'. cbn [digits_loop] in H'.
        change (Ascii.eqb "0" "_") with false in H'. cbn [digit_val] in H'.
        destruct (Ascii.eqb c1 "_") eqn:E; auto. right.
        change (digit_val "0") with (Some 0%N) in H'.
        change (0 <? 10)%N with true in H'. cbv iota in H'.
        destruct (digit_val c1) as [d1|]; [|discriminate].
        destruct (N.ltb_spec d1 10); [|discriminate]. eauto. }
      assert (N1 : (Ascii.eqb c1 "x" || Ascii.eqb c1 "X") = false /\
                   (Ascii.eqb c1 "o" || Ascii.eqb c1 "O") = false /\
                   (Ascii.eqb c1 "b" || Ascii.eqb c1 "B") = false).
      { destruct Hc1 as [Hc1|(d1 & Hd1 & Hl1)].
        - apply Ascii.eqb_eq in Hc1 as ->. auto.
        - revert Hd1 Hl1. clear. destruct c1 as [[] [] [] [] [] [] [] []]; vm_compute; intros E L;
          try (now auto); try discriminate; injection E as <-; discriminate. }
      destruct N1 as (-> & -> & ->). now rewrite H'.
Qed.

Lemma ulit_head s n : ulit s n -> exists c d r, s = c :: r /\ digit_val c = Some d.
Proof.
  destruct 1 as [x u s n Hx Hu H|x u s n Hx Hu H|x u s n Hx Hu H|c s n Hc H|s H].
  1-3: now exists "0"%char, 0%N, (x :: u ++ s).
  - destruct (digs_head _ _ _ H) as (c' & d & r & E & Hd & _). exists c', d, r. auto.
  - destruct (digs_head _ _ _ H) as (c' & d & r & E & Hd & _). exists c', d, r. auto.
Qed.
Lemma digit_val_sign c d : digit_val c = Some d -> Ascii.eqb c "-" = false /\ Ascii.eqb c "+" = false.
Proof. ascii_enum c. Qed.

(** On blank-free text (the only text the payload parser produces). *)
Lemma py_int0_iff s z : no_space s -> (py_int0 s = Some z <-> int_literal s z).
Proof.
  intros Hs. unfold py_int0. rewrite strip_no_space by auto. split.
  - destruct s as [|c r]; [discriminate|]. cbn [sign_split].
    destruct (Ascii.eqb_spec c "-") as [->|].
    + destruct (parse_base0 r) as [n|] eqn:E; [|discriminate]. injection 1 as <-.
      apply parse_base0_iff in E. now constructor.
    + destruct (Ascii.eqb_spec c "+") as [->|].
      * destruct (parse_base0 r) as [m|] eqn:E; [|discriminate]. injection 1 as <-.
        apply parse_base0_iff in E. now constructor.
      * destruct (parse_base0 (c :: r)) as [m|] eqn:E; [|discriminate]. injection 1 as <-.
        apply parse_base0_iff in E. now constructor.
  - destruct 1 as [s n H|s n H|s n H].
    + destruct (ulit_head _ _ H) as (c & d & r & -> & Hd). cbn [sign_split].
      destruct (digit_val_sign _ _ Hd) as [-> ->]. apply parse_base0_iff in H as ->. reflexivity.
    + cbn [sign_split]. change (Ascii.eqb "+" "-") with false. change (Ascii.eqb "+" "+") with true.
      cbv iota. apply parse_base0_iff in H as ->. reflexivity.
    + cbn [sign_split]. change (Ascii.eqb "-" "-") with true. cbv iota.
      apply parse_base0_iff in H as ->. reflexivity.
Qed.

Lemma cast_int_iff s z : no_space s -> (string_cast_int s = CInt z <-> int_literal s z).
Proof.
  intros Hs. rewrite <- py_int0_iff by auto. unfold string_cast_int.
  destruct (py_int0 s); split; congruence.
Qed.
Lemma cast_str_iff s t : no_space s ->
  (string_cast_int s = CStr t <-> t = s /\ forall z, ~ int_literal s z).
Proof.
  intros Hs. unfold string_cast_int. destruct (py_int0 s) as [z|] eqn:E.
  - split; [discriminate|]. intros [_ H]. apply py_int0_iff in E; auto. now apply H in E.
  - split.
    + injection 1 as ->. split; auto. intros z H. apply py_int0_iff in H; auto. congruence.
    + intros [-> _]. reflexivity.
Qed.

Lemma fmt_digs b n : (2 <= b)%N -> (b <= 36)%N -> digs b (fmt_base b n) n.
Proof. intros. apply parse_digits_iff. now apply parse_fmt. Qed.

Lemma ulit_str_of_N n : ulit (str_of_N n) n.
Proof. apply parse_base0_iff. apply parse_base0_dec. Qed.
Lemma literal_dec z : int_literal (str_of_Z z) z.
Proof.
  destruct z as [|p|p]; cbn [str_of_Z].
  - exact (il_plain _ _ (ulit_str_of_N 0)).
  - exact (il_plain _ _ (ulit_str_of_N (Npos p))).
  - exact (il_minus _ _ (ulit_str_of_N (Npos p))).
Qed.

Lemma digs_zeros k : digs 10 (repeat "0"%char (S k)) 0.
Proof.
  induction k as [|k IH]; [now constructor|].
  replace (repeat "0"%char (S (S k))) with (repeat "0"%char (S k) ++ ["0"%char])
    by (rewrite <- repeat_cons; reflexivity).
  apply (digs_snoc 10 _ 0 "0"%char 0%N); auto; reflexivity.
Qed.

(** A zero-padded positive decimal is not a literal. *)
Lemma loop_app_zero b k s : (0 < b)%N -> s <> [] ->
  digits_loop b 0 PDigit (repeat "0"%char k ++ s) = digits_loop b 0 PDigit s.
Proof.
  intros Hb Hs. induction k as [|k IH]; auto. cbn [repeat app digits_loop].
  change (Ascii.eqb "0" "_") with false. change (digit_val "0") with (Some 0%N). cbv iota.
  apply N.ltb_lt in Hb as ->. replace (0 * b + 0)%N with 0%N by lia. exact IH.
Qed.
Lemma digits_loop_start b acc s : s <> [] -> forall n, digits_loop b acc PStart s = Some n ->
  digits_loop b acc PDigit s = Some n.
Proof.
  intros Hs n. destruct s as [|c s]; [congruence|]. cbn [digits_loop].
  destruct (Ascii.eqb c "_"); [discriminate|]. auto.
Qed.
Lemma padded_not_int k n : (0 < n)%N -> string_cast_int (repeat "0"%char (S k) ++ str_of_N n)
  = CStr (repeat "0"%char (S k) ++ str_of_N n).
Proof.
  intros Hn. set (s := repeat "0"%char (S k) ++ str_of_N n).
  assert (Hs : no_space s).
  { apply Forall_app. split; [|apply str_of_N_nospace]. apply Forall_forall.
    intros c Hc. apply repeat_spec in Hc as ->. reflexivity. }
  unfold string_cast_int, py_int0. rewrite strip_no_space by auto.
  assert (Hp : parse_digits 10 s = Some n).
  { unfold s, parse_digits. cbn [repeat app digits_loop].
    change (Ascii.eqb "0" "_") with false. change (digit_val "0") with (Some 0%N). cbv iota.
    change (0 <? 10)%N with true. cbv iota. change (0 * 10 + 0)%N with 0%N.
    rewrite loop_app_zero; [|lia|apply str_of_N_nonnil].
    apply digits_loop_start; [apply str_of_N_nonnil|]. apply str_of_N_parse. }
  assert (E : sign_split s = (false, s)) by reflexivity.
  rewrite E.
  assert (B : parse_base0 s = None).
  { assert (F : Forall (fun c => is_digit c = true) s).
    { apply Forall_app. split; [|apply str_of_N_digits]. apply Forall_forall.
      intros c Hc. apply repeat_spec in Hc as ->. reflexivity. }
    unfold s in *. cbn [repeat app] in *.
    inversion F as [|? ? F0 F1]; subst.
    destruct (repeat "0"%char k ++ str_of_N n) as [|c1 r1] eqn:E1.
    - apply app_eq_nil in E1 as [_ E1]. now apply str_of_N_nonnil in E1.
    - inversion F1 as [|? ? F2 F3]; subst. cbn [parse_base0].
      change (Ascii.eqb "0" "0") with true. cbv iota.
      replace (Ascii.eqb c1 "x" || Ascii.eqb c1 "X") with false by (revert F2; ascii_enum c1).
      replace (Ascii.eqb c1 "o" || Ascii.eqb c1 "O") with false by (revert F2; ascii_enum c1).
      replace (Ascii.eqb c1 "b" || Ascii.eqb c1 "B") with false by (revert F2; ascii_enum c1).
      rewrite Hp. destruct n; [lia|reflexivity]. }
  now rewrite B.
Qed.
