(** Proofs about the event classes with their own payload parsers. *)
From Coq Require Import List Ascii String ZArith NArith Bool Lia.
From Verif Require Import Lib.PyStr Lib.PyStrFacts Lib.ReplaceFacts Lib.Regex Lib.RegexFacts Lib.SearchFacts Lib.F64
  Model.Base Model.Events Spec.Payload Spec.Parts Spec.Lines Spec.Events
  Proofs.PayloadP Proofs.ScanP Proofs.FrameP Proofs.LineP.
Import ListNotations.
Local Open Scope list_scope.

(** ** sched_switch *)
Lemma words_head_key gs w : In w (flat_map g_words gs) -> Forall group_ok gs ->
  Forall (fun g => g_key g <> []) gs -> forall v, w <> "="%char :: v.
Proof.
  intros Hin Hg Hk v ->. apply in_flat_map in Hin as (g & Hg1 & Hin).
  rewrite Forall_forall in Hg, Hk. specialize (Hg _ Hg1). specialize (Hk _ Hg1). destruct Hg as [H1 H2].
  destruct Hin as [E|Hin].
  - destruct (g_key g) as [|c k]; [congruence|]. cbn in E. injection E as -> E. apply H1. now left.
  - rewrite Forall_forall in H2. apply (H2 _ Hin). now left.
Qed.
Lemma arrow_start left rest gs : Words left (flat_map g_words gs) -> Forall group_ok gs ->
  Forall (fun g => g_key g <> []) gs -> no_start $" ==> " left ($" ==> " ++ rest).
Proof.
  intros Hw Hg Hk a1 a2 -> Hn. destruct (is_prefix $" ==> " (a2 ++ $" ==> " ++ rest)) eqn:E; auto. exfalso.
  apply is_prefix_spec in E as [r E].
  assert (Hin : In $"==>" (split_ws (a1 ++ a2))).
  { destruct a2 as [|c0 a2]; [congruence|]. cbn in E. injection E as -> E.
    destruct a2 as [|c1 a2]; [discriminate|]. cbn in E. injection E as -> E.
    destruct a2 as [|c2 a2]; [discriminate|]. cbn in E. injection E as -> E.
    destruct a2 as [|c3 a2]; [discriminate|]. cbn in E. injection E as -> E.
    rewrite split_ws_blank by reflexivity. apply in_or_app. right.
    destruct a2 as [|c4 a2]; [left; reflexivity|]. cbn in E. injection E as -> E.
    change ("=" :: "=" :: ">" :: " " :: a2)%char with ($"==>" ++ " "%char :: a2).
    rewrite split_ws_blank by reflexivity. now left. }
  rewrite (Words_split _ _ Hw) in Hin. exact (words_head_key gs _ Hin Hg Hk $"=>" eq_refl).
Qed.
Lemma switch_fields left right gs1 gs2 :
  Words left (flat_map g_words gs1) -> Words right (flat_map g_words gs2) ->
  Forall group_ok (gs1 ++ gs2) -> NoDup (map g_key (gs1 ++ gs2)) -> Forall (fun g => g_key g <> []) (gs1 ++ gs2) ->
  exists d, generate_data_dict (switch_text (left ++ $" ==> " ++ right)) = Ok d /\
    Forall2 (fun g kc => fst kc = g_key g /\ col_cell (g_val g) (g_more g) (snd kc)) (gs1 ++ gs2) d.
Proof.
  intros H1 H2 Hg Hn Hk. unfold switch_text. apply gdd_round_trip_spec; auto.
  rewrite replace1_at; [|discriminate|].
  - change ($" ") with [" "%char]. cbn [app]. apply Words_iff. rewrite split_ws_blank by reflexivity.
    now rewrite (Words_split _ _ H1), (Words_split _ _ H2), flat_map_app.
  - apply Forall_app in Hg as [Hg _]. apply Forall_app in Hk as [Hk _]. eapply arrow_start; eauto.
Qed.

(** the kernel's own text *)
Lemma str_no_eq z : ~ In "="%char (str_of_Z z).
Proof.
  unfold str_of_Z. assert (H : forall n, ~ In "="%char (str_of_N n)).
  { intros n Hi. pose proof (str_of_N_digits n) as F. rewrite Forall_forall in F. apply F in Hi. discriminate. }
  destruct z; try apply H. intros [E|Hi]; [discriminate|now apply H in Hi].
Qed.
Lemma name_words ws k : name_ok ws -> word_ok k -> 
  Words (k ++ $"=" ++ name_text ws) (g_words (Grp k (hd [] ws) (tl ws))) /\
  (~ In "="%char k -> group_ok (Grp k (hd [] ws) (tl ws))).
Proof.
  intros (w & r & -> & Hw & He & _) Hk. cbn [hd tl]. split.
  - apply Words_iff. unfold g_words, name_text. cbn [g_key g_val g_more].
    replace (k ++ $"=" ++ join $" " (w :: r)) with (join $" " ((k ++ "="%char :: w) :: r)).
    + apply split_ws_join. inversion Hw; subst. constructor; auto. destruct Hk as [Hk1 Hk2].
      destruct H1 as [H1 H3]. split; [destruct k; [congruence|discriminate]|]. apply Forall_app. split; auto.
    + destruct r; cbn [join]; [|rewrite <- !app_assoc]; cbn; rewrite <- ?app_assoc; reflexivity.
  - intros Hn. split; auto.
Qed.
Lemma int_words z k : word_ok k ->
  Words (k ++ $"=" ++ str_of_Z z) (g_words (Grp k (str_of_Z z) [])) /\
  (~ In "="%char k -> group_ok (Grp k (str_of_Z z) [])).
Proof.
  intros Hk. split; [|intros H; split; auto]. apply Words_iff. unfold g_words. cbn [g_key g_val g_more].
  change ($"=") with ["="%char]. cbn [app]. apply split_ws_word_end. destruct Hk as [H1 H2]. destruct (str_of_Z_word z) as [H3 H4].
  split; [destruct k; [congruence|discriminate]|]. apply Forall_app. split; auto. constructor; auto.
Qed.
Definition switch_dict (p : sw_side) (state : str) (n : sw_side) : dict :=
  [($"prev_comm", CStr (name_text (sw_comm p))); ($"prev_pid", CInt (sw_pid p)); ($"prev_prio", CInt (sw_prio p));
   ($"prev_state", string_cast_int state);
   ($"next_comm", CStr (name_text (sw_comm n))); ($"next_pid", CInt (sw_pid n)); ($"next_prio", CInt (sw_prio n))].
Lemma Words_blank x y a b : Words x a -> Words y b -> Words (x ++ " "%char :: y) (a ++ b).
Proof. rewrite !Words_iff. intros <- <-. now apply split_ws_blank. Qed.
Lemma name_not_int ws k : name_ok ws -> k <> [] -> g_cell (Grp k (hd [] ws) (tl ws)) = (k, CStr (name_text ws)).
Proof.
  intros (w & r & -> & Hw & He & Hi) Hk. unfold g_cell. cbn [hd tl g_key g_val g_more].
  destruct (py_int0 w) as [z|] eqn:E.
  - exfalso. inversion Hw; subst. destruct H1. apply py_int0_iff in E; auto. now apply Hi in E.
  - destruct k; [congruence|reflexivity].
Qed.
Lemma int_cell z k : k <> [] -> g_cell (Grp k (str_of_Z z) []) = (k, CInt z).
Proof. intros Hk. unfold g_cell. cbn [g_key g_val g_more]. now rewrite py_int0_dec. Qed.
Lemma word_groups k v : word_ok k -> ~ In "="%char k -> no_space v ->
  Words (k ++ $"=" ++ v) (g_words (Grp k v [])) /\ group_ok (Grp k v []).
Proof.
  intros [H1 H2] Hk Hv. split; [|split; cbn; auto]. apply Words_iff. unfold g_words. cbn [g_key g_val g_more].
  change ($"=") with ["="%char]. cbn [app]. apply split_ws_word_end.
  split; [destruct k; [congruence|discriminate]|]. apply Forall_app. split; auto.
Qed.
Ltac key_ok := split; [discriminate|repeat constructor].
Ltac no_eq := cbn; intuition discriminate.
Lemma kernel_switch p state n : name_ok (sw_comm p) -> name_ok (sw_comm n) -> no_space state ->
  generate_data_dict (switch_text (switch_payload p state n)) = Ok (switch_dict p state n).
Proof.
  intros Hp Hn Hs. unfold switch_payload.
  set (gs1 := [Grp $"prev_comm" (hd [] (sw_comm p)) (tl (sw_comm p)); Grp $"prev_pid" (str_of_Z (sw_pid p)) [];
               Grp $"prev_prio" (str_of_Z (sw_prio p)) []; Grp $"prev_state" state []]).
  set (gs2 := [Grp $"next_comm" (hd [] (sw_comm n)) (tl (sw_comm n)); Grp $"next_pid" (str_of_Z (sw_pid n)) [];
               Grp $"next_prio" (str_of_Z (sw_prio n)) []]).
  set (left := ($"prev_comm" ++ $"=" ++ name_text (sw_comm p)) ++ " "%char ::
               ($"prev_pid" ++ $"=" ++ str_of_Z (sw_pid p)) ++ " "%char ::
               ($"prev_prio" ++ $"=" ++ str_of_Z (sw_prio p)) ++ " "%char :: ($"prev_state" ++ $"=" ++ state)).
  set (right := ($"next_comm" ++ $"=" ++ name_text (sw_comm n)) ++ " "%char ::
               ($"next_pid" ++ $"=" ++ str_of_Z (sw_pid n)) ++ " "%char ::
               ($"next_prio" ++ $"=" ++ str_of_Z (sw_prio n))).
  assert (E : switch_payload p state n = left ++ $" ==> " ++ right).
  { unfold switch_payload, left, right. repeat (rewrite <- !app_assoc; cbn [app]). reflexivity. }
  unfold switch_payload in E. rewrite E. clear E. unfold switch_text.
  destruct (name_words (sw_comm p) $"prev_comm" Hp ltac:(key_ok)) as [W1 G1].
  destruct (int_words (sw_pid p) $"prev_pid" ltac:(key_ok)) as [W2 G2].
  destruct (int_words (sw_prio p) $"prev_prio" ltac:(key_ok)) as [W3 G3].
  destruct (word_groups $"prev_state" state ltac:(key_ok) ltac:(no_eq) Hs) as [W4 G4].
  destruct (name_words (sw_comm n) $"next_comm" Hn ltac:(key_ok)) as [W5 G5].
  destruct (int_words (sw_pid n) $"next_pid" ltac:(key_ok)) as [W6 G6].
  destruct (int_words (sw_prio n) $"next_prio" ltac:(key_ok)) as [W7 G7].
  assert (H1 : Words left (flat_map g_words gs1)).
  { unfold left, gs1. cbn [flat_map]. rewrite (app_nil_r (g_words (Grp _ state []))). now repeat apply Words_blank. }
  assert (H2 : Words right (flat_map g_words gs2)).
  { unfold right, gs2. cbn [flat_map]. rewrite (app_nil_r (g_words (Grp $"next_prio" _ []))). now repeat apply Words_blank. }
  assert (K1 : Forall group_ok gs1).
  { repeat apply Forall_cons; [apply G1|apply G2|apply G3|apply G4|apply Forall_nil]; no_eq. }
  assert (K2 : Forall group_ok gs2).
  { repeat apply Forall_cons; [apply G5|apply G6|apply G7|apply Forall_nil]; no_eq. }
  assert (N1 : Forall (fun g => g_key g <> []) gs1) by (repeat constructor; discriminate).
  assert (N2 : Forall (fun g => g_key g <> []) gs2) by (repeat constructor; discriminate).
  rewrite replace1_at; [|discriminate|eapply arrow_start; eauto].
  rewrite (gdd_roundtrip _ (gs1 ++ gs2)).
  - f_equal. unfold gs1, gs2, switch_dict. cbn [map app].
    rewrite !name_not_int, !int_cell by (auto; discriminate). repeat f_equal.
  - rewrite flat_map_app. change ($" ") with [" "%char]. cbn [app]. now apply Words_blank.
  - apply Forall_app. auto.
  - cbn. repeat constructor; cbn; intuition discriminate.
  - apply Forall_app. auto.
Qed.

(** ** System calls *)
Lemma hex_iff c : is_hex c = true <-> hex_digit c.
Proof.
  unfold hex_digit. split.
  - intros H. destruct (digit_val c) as [d|] eqn:E; [exists d; split; auto|exfalso]; revert H E; [|ascii_enum c].
    revert d. destruct c as [[] [] [] [] [] [] [] []]; vm_compute; intros d H E; try discriminate; injection E as <-; reflexivity.
  - intros (d & E & H). revert E H. destruct c as [[] [] [] [] [] [] [] []]; vm_compute; intros E H; try discriminate; auto;
      injection E as <-; discriminate.
Qed.
Definition re_num (p : ascii -> bool) (n : nat) : re := RGrp n (RSeq (ROpt (RCls is_sign)) (RPlus (RCls p))).
(** A run of [p] characters with an optional sign. *)
Definition signed (p : ascii -> bool) (a : str) : Prop :=
  exists sg ds, a = sg ++ ds /\ (sg = [] \/ exists c, sg = [c] /\ is_sign c = true) /\
    ds <> [] /\ Forall (fun c => p c = true) ds.
Lemma num_step {A} p n s a b (k : st -> option A) x : (forall c, p c = true -> is_sign c = false) ->
  s_rest s = a ++ b -> signed p a -> match b with [] => True | c :: _ => p c = false end ->
  k (St (last_or (s_prev s) a) b ((n, a) :: s_caps s)) = Some x ->
  mt (re_num p n) s k = Some x.
Proof.
  intros Hp E (sg & ds & -> & Hsg & Hne & Hds) Hb Hk. unfold re_num.
  change (mt (RGrp n ?r) s ?k) with (mt r s (fun s' => k (cap_add n s s'))).
  change (mt (RSeq (ROpt ?r1) ?r2) s ?k) with
    (match mt r1 s (fun s' => mt r2 s' k) with Some y => Some y | None => mt r2 s k end).
  destruct Hsg as [-> | (c & -> & Hc)].
  - cbn [app] in *. rewrite cls_None.
    + apply (plus_max p s ds b); auto. rewrite cap_add_adv by auto. exact Hk.
    + rewrite E. destruct ds as [|d ds]; [congruence|]. inversion Hds; subst. cbn [app]. auto.
  - match goal with |- match ?t with _ => _ end = Some ?y => enough (E5 : t = Some y) by now rewrite E5 end.
    rewrite (cls_step is_sign s c (ds ++ b)) by auto. set (s1 := adv s [c] (ds ++ b)).
    apply (plus_max p s1 ds b); auto. replace (adv s1 ds b) with (adv s ([c] ++ ds) b) by (unfold s1; now rewrite adv_adv).
    rewrite cap_add_adv by now rewrite E, <- app_assoc. exact Hk.
Qed.
Lemma mat_num_inv p n s s' : mat (re_num p n) s s' -> exists a, s_rest s = a ++ s_rest s' /\ signed p a.
Proof.
  intros H. apply mat_grp_inv in H as (s1 & H & ->). apply mat_seq_inv in H as (s2 & H1 & H2).
  apply mat_plus_cls in H2 as (u & E & Hu & Hf & _). cbn [s_rest cap_add].
  apply mat_alt_inv in H1 as [H1|H1]; inversion H1; subst.
  - cbn [s_rest] in *. exists (c :: u). split; [now rewrite E|]. exists [c], u. split; [reflexivity|]. split; [right; eauto|auto].
  - exists u. split; auto. exists [], u. split; [reflexivity|]. auto.
Qed.

Lemma signed_num p (dig : ascii -> Prop) val a : (forall c, p c = true <-> dig c) -> signed p a -> exists z, Signed dig val a z.
Proof.
  intros Hp (sg & ds & -> & Hsg & Hn & Hd).
  assert (F : Forall dig ds) by (eapply Forall_impl; [|exact Hd]; intros c Hc; now apply Hp).
  destruct Hsg as [-> | (c & -> & Hc)]; [eexists; now apply Sg_none|].
  unfold is_sign in Hc. apply orb_true_iff in Hc as [Hc|Hc]; apply Ascii.eqb_eq in Hc; subst; eexists; [apply Sg_minus|apply Sg_plus]; auto.
Qed.
Lemma num_signed p (dig : ascii -> Prop) val a z : (forall c, p c = true <-> dig c) -> Signed dig val a z -> signed p a.
Proof.
  intros Hp H. assert (F : forall ds, Forall dig ds -> Forall (fun c => p c = true) ds).
  { intros ds Hd. eapply Forall_impl; [|exact Hd]. intros c Hc. now apply Hp. }
  destruct H as [s Hn Hd|s Hn Hd|s Hn Hd]; [exists [], s|exists ["+"%char], s|exists ["-"%char], s]; repeat split; auto; right; eauto.
Qed.
Lemma Signed_unique (dig : ascii -> Prop) val a z z' : (forall c, dig c -> is_sign c = false) -> Signed dig val a z -> Signed dig val a z' -> z = z'.
Proof.
  intros Hs H1 H2. destruct H1 as [s Hn Hd|s Hn Hd|s Hn Hd]; inversion H2; subst; auto;
    repeat match goal with H : Forall dig (_ :: _) |- _ => inversion H; clear H; subst end;
    match goal with H : dig _ |- _ => apply Hs in H; discriminate end.
Qed.

(** conversions *)
Lemma digits_loop16 s : forall acc p, Forall hex_digit s -> s <> [] \/ p = PDigit ->
  digits_loop 16 acc p s =
  Some (fold_left (fun n c => n * 16 + match digit_val c with Some d => d | None => 0 end)%N s acc).
Proof.
  induction s as [|c s IH]; intros acc p H Hp.
  - destruct Hp as [Hp| ->]; [congruence|reflexivity].
  - inversion H; subst. destruct H2 as (d & Hd & Hl). cbn [digits_loop fold_left].
    rewrite (digit_val_us c d Hd), Hd. apply N.ltb_lt in Hl. rewrite Hl. apply IH; auto.
Qed.
Lemma hex_sign c : hex_digit c -> is_sign c = false.
Proof. intros H. apply hex_iff in H. revert H. ascii_enum c. Qed.
Lemma dec_sign c : is_digit c = true -> is_sign c = false.
Proof. ascii_enum c. Qed.
Lemma hex_space c : hex_digit c -> is_space c = false.
Proof. intros H. apply hex_iff in H. revert H. ascii_enum c. Qed.
Lemma hex_not_x c : hex_digit c -> Ascii.eqb c "x" || Ascii.eqb c "X" = false.
Proof. intros H. apply hex_iff in H. revert H. ascii_enum c. Qed.
Lemma sign_split_sgn (dig : ascii -> Prop) s : (forall c, dig c -> is_sign c = false) -> Forall dig s -> sign_split s = (false, s).
Proof.
  intros Hs H. destruct s as [|c s]; auto. inversion H; subst. apply Hs in H2. unfold is_sign in H2.
  apply orb_false_iff in H2 as [E1 E2]. cbn [sign_split]. now rewrite E1, E2.
Qed.
Lemma Forall_nospace (dig : ascii -> Prop) s : (forall c, dig c -> is_space c = false) -> Forall dig s -> no_space s.
Proof. intros Hs H. eapply Forall_impl; [|exact H]. auto. Qed.
Lemma int16_hex a z : hex_num a z -> py_int16 a = Some z.
Proof.
  assert (K : forall s, s <> [] -> Forall hex_digit s ->
    parse_digits 16 (match s with
            | c0 :: c1 :: r => if Ascii.eqb c0 "0" && (Ascii.eqb c1 "x" || Ascii.eqb c1 "X") then strip_us r else s
            | _ => s
            end) = Some (hex_val s)).
  { intros s Hn Hf. replace (match s with _ :: _ :: _ => _ | _ => s end) with s.
    - unfold parse_digits, hex_val. apply digits_loop16; auto.
    - destruct s as [|c0 [|c1 r]]; auto. inversion Hf; subst. inversion H2; subst.
      rewrite (hex_not_x c1) by auto. now rewrite andb_false_r. }
  unfold py_int16. intros H. destruct H as [s Hn Hf|s Hn Hf|s Hn Hf].
  - rewrite strip_no_space by now apply (Forall_nospace _ _ hex_space).
    rewrite (sign_split_sgn _ _ hex_sign Hf). now rewrite K.
  - rewrite strip_no_space by (constructor; [reflexivity|now apply (Forall_nospace _ _ hex_space)]).
    cbn [sign_split]. change (Ascii.eqb "+" "-") with false. change (Ascii.eqb "+" "+") with true. cbv iota. now rewrite K.
  - rewrite strip_no_space by (constructor; [reflexivity|now apply (Forall_nospace _ _ hex_space)]).
    cbn [sign_split]. change (Ascii.eqb "-" "-") with true. cbv iota. now rewrite K.
Qed.
Lemma int10_dec a z : dec_num a z -> py_int10 a = Some z.
Proof.
  unfold py_int10. intros H. destruct H as [s Hn Hf|s Hn Hf|s Hn Hf].
  - rewrite strip_no_space by now apply (Forall_nospace _ _ digit_no_space).
    rewrite (sign_split_sgn _ _ dec_sign Hf). now rewrite parse_digits_dec by (split; auto).
  - rewrite strip_no_space by (constructor; [reflexivity|now apply (Forall_nospace _ _ digit_no_space)]).
    cbn [sign_split]. change (Ascii.eqb "+" "-") with false. change (Ascii.eqb "+" "+") with true. cbv iota.
    now rewrite parse_digits_dec by (split; auto).
  - rewrite strip_no_space by (constructor; [reflexivity|now apply (Forall_nospace _ _ digit_no_space)]).
    cbn [sign_split]. change (Ascii.eqb "-" "-") with true. cbv iota. now rewrite parse_digits_dec by (split; auto).
Qed.
Lemma is_hex_sign c : is_hex c = true -> is_sign c = false.
Proof. ascii_enum c. Qed.

Ltac lit_go l rest :=
  match goal with |- mt (RSeq (RLit ?l') ?r2) ?s ?k = _ =>
    change (mt (RSeq (RLit l') r2) s k) with (mt (RLit l') s (fun s' => mt r2 s' k));
    rewrite (lit_step l s rest) by reflexivity end.
Ltac hex_go a b H :=
  match goal with |- mt (RSeq (re_hex ?n) ?r2) ?s ?k = _ =>
    change (mt (RSeq (re_hex n) r2) s k) with (mt (re_num is_hex n) s (fun s' => mt r2 s' k));
    apply (num_step is_hex n s a b _ _ is_hex_sign); [reflexivity|exact (num_signed _ _ _ _ _ hex_iff H)|reflexivity|] end.
Lemma enter_hit prev pre call rest nr args : EnterCall call nr args ->
  exists s' a0 a1 a2 a3 a4 a5 ds z0 z1 z2 z3 z4 z5,
   mt pat_enter (St prev (call ++ rest) []) (fun s' => Some (mk_res pre (call ++ rest) s')) = Some (mk_res pre (call ++ rest) s') /\
   s_caps s' = [(7, a5); (6, a4); (5, a3); (4, a2); (3, a1); (2, a0); (1, ds)] /\
   nr = Z.of_N (dec_val ds) /\ args = [z0; z1; z2; z3; z4; z5] /\ digits ds /\
   hex_num a0 z0 /\ hex_num a1 z1 /\ hex_num a2 z2 /\ hex_num a3 z3 /\ hex_num a4 z4 /\ hex_num a5 z5.
Proof.
  intros [ds a0 a1 a2 a3 a4 a5 z0 z1 z2 z3 z4 z5 Hd H0 H1 H2 H3 H4 H5].
  eexists. exists a0, a1, a2, a3, a4, a5, ds, z0, z1, z2, z3, z4, z5. split; [|repeat split; auto; try apply Hd].
  - rewrite <- !app_assoc. set (final := fun s' => _). unfold pat_enter. cbn [RSeqs].
    set (r6 := $")" ++ rest). set (r5 := $", " ++ a5 ++ r6). set (r4 := $", " ++ a4 ++ r5). set (r3 := $", " ++ a3 ++ r4).
    set (r2 := $", " ++ a2 ++ r3). set (r1 := $", " ++ a1 ++ r2). set (r0 := $" (" ++ a0 ++ r1).
    match goal with |- mt _ (St prev ?t []) _ = _ => change t with ($"NR " ++ ds ++ r0) end.
    lit_go $"NR " (ds ++ r0).
    match goal with |- mt (RSeq (RGrp 1 ?r1) ?r2) ?s ?k = _ => set (s1 := s);
      change (mt (RSeq (RGrp 1 r1) r2) s1 k) with (mt r1 s1 (fun s' => mt r2 (cap_add 1 s1 s') k)) end.
    apply (plus_max is_digit s1 ds r0); [reflexivity|apply Hd|apply Hd|reflexivity|].
    rewrite cap_add_adv by reflexivity.
    lit_go $" (" (a0 ++ r1). hex_go a0 r1 H0.
    lit_go $", " (a1 ++ r2). hex_go a1 r2 H1.
    lit_go $", " (a2 ++ r3). hex_go a2 r3 H2.
    lit_go $", " (a3 ++ r4). hex_go a3 r4 H3.
    lit_go $", " (a4 ++ r5). hex_go a4 r5 H4.
    lit_go $", " (a5 ++ r6). hex_go a5 r6 H5.
    match goal with |- mt _ ?s _ = _ => set (s7 := s) end.
    rewrite (lit_step $")" s7 rest) by reflexivity. unfold final. reflexivity.
  - reflexivity.
Qed.
Ltac minv H s1 H1 := apply mat_seq_inv in H as (s1 & H1 & H).
Ltac hinv H a E := let Hs := fresh "Hs" in let z := fresh "z" in let Hz := fresh "Hz" in
  apply (mat_num_inv is_hex) in H as (a & E & Hs); destruct (signed_num _ _ hex_val _ hex_iff Hs) as [z Hz].
Lemma enter_inv prev b s' : mat pat_enter (St prev b []) s' -> exists call rest nr args, b = call ++ rest /\ EnterCall call nr args.
Proof.
  intros H. unfold pat_enter in H. cbn [RSeqs] in H.
  minv H s1 Li1. minv H s2 Gr1. minv H s3 Li2. minv H s4 Gr2. minv H s5 Li3. minv H s6 Gr3. minv H s7 Li4. minv H s8 Gr4.
  minv H s9 Li5. minv H s10 Gr5. minv H s11 Li6. minv H s12 Gr6. minv H s13 Li7. minv H s14 Gr7.
  apply mat_lit in Li1 as [Li1 _]. apply mat_lit in Li2 as [Li2 _]. apply mat_lit in Li3 as [Li3 _]. apply mat_lit in Li4 as [Li4 _].
  apply mat_lit in Li5 as [Li5 _]. apply mat_lit in Li6 as [Li6 _]. apply mat_lit in Li7 as [Li7 _]. apply mat_lit in H as [H _].
  apply mat_grp_inv in Gr1 as (s2' & Gr1 & ->). apply mat_plus_cls in Gr1 as (ds & D & Dn & Df & _). cbn [cap_add s_rest] in *.
  hinv Gr2 a0 E0. hinv Gr3 a1 E1. hinv Gr4 a2 E2. hinv Gr5 a3 E3. hinv Gr6 a4 E4. hinv Gr7 a5 E5.
  do 4 eexists. split; [|apply (EC ds a0 a1 a2 a3 a4 a5); [now split|eassumption..]].
  cbn [s_rest] in Li1. rewrite Li1, D, Li2, E0, Li3, E1, Li4, E2, Li5, E3, Li6, E4, Li7, E5, H. rewrite <- !app_assoc. reflexivity.
Qed.

Lemma exit_hit prev pre call rest zn zr : ExitCall call rest zn zr ->
  exists s' n r,
   mt pat_exit (St prev (call ++ rest) []) (fun s' => Some (mk_res pre (call ++ rest) s')) = Some (mk_res pre (call ++ rest) s') /\
   s_caps s' = [(2, r); (1, n)] /\ dec_num n zn /\ dec_num r zr.
Proof.
  intros [n r zn' zr' rest' Hn Hr Hc].
  eexists. exists n, r. split; [|repeat split; auto].
  - rewrite <- !app_assoc. set (final := fun s' => _). unfold pat_exit. cbn [RSeqs].
    set (r1 := $" = " ++ r ++ rest').
    match goal with |- mt _ (St prev ?t []) _ = _ => change t with ($"NR " ++ n ++ r1) end.
    lit_go $"NR " (n ++ r1).
    match goal with |- mt (RSeq (re_int 1) ?r2) ?s ?k = _ => set (s1 := s);
      change (mt (RSeq (re_int 1) r2) s1 k) with (mt (re_num is_digit 1) s1 (fun s' => mt r2 s' k)) end.
    apply (num_step is_digit 1 s1 n r1 _ _ dec_sign);
      [reflexivity|exact (num_signed _ _ _ _ _ (fun c => iff_refl _) Hn)|reflexivity|].
    lit_go $" = " (r ++ rest').
    match goal with |- mt (re_int 2) ?s ?k = _ => set (s2 := s); change (mt (re_int 2) s2 k) with (mt (re_num is_digit 2) s2 k) end.
    apply (num_step is_digit 2 s2 r rest' _ _ dec_sign);
      [reflexivity|exact (num_signed _ _ _ _ _ (fun c => iff_refl _) Hr)|exact Hc|].
    unfold final. reflexivity.
  - reflexivity.
Qed.
Lemma longest (p : ascii -> bool) (b : str) : exists u v, b = u ++ v /\ Forall (fun c => p c = true) u /\
  match v with [] => True | c :: _ => p c = false end.
Proof.
  exists (take_while p b), (drop_while p b). split; [now rewrite take_drop_while|]. split; [apply take_while_Forall|].
  destruct (drop_while p b) eqn:E; auto. now apply drop_while_hd in E.
Qed.
Lemma exit_inv prev b s' : mat pat_exit (St prev b []) s' -> exists call rest zn zr, b = call ++ rest /\ ExitCall call rest zn zr.
Proof.
  intros H. unfold pat_exit in H. cbn [RSeqs] in H. minv H s1 Li1. minv H s2 Gr1. minv H s3 Li2.
  apply mat_lit in Li1 as [Li1 _]. apply mat_lit in Li2 as [Li2 _].
  apply (mat_num_inv is_digit) in Gr1 as (n & E1 & S1). apply (mat_num_inv is_digit) in H as (r & E2 & S2).
  destruct (signed_num _ _ dec_val _ (fun c => iff_refl _) S1) as [zn Hn].
  destruct (longest is_digit (s_rest s')) as (u & v & Eu & Fu & Fv).
  assert (S2' : signed is_digit (r ++ u)).
  { destruct S2 as (sg & ds & -> & Hs & Hd & Hf). exists sg, (ds ++ u). rewrite <- app_assoc. split; auto. split; auto.
    split; [destruct ds; [congruence|discriminate]|]. apply Forall_app; auto. }
  destruct (signed_num _ _ dec_val _ (fun c => iff_refl _) S2') as [zr Hr].
  exists ($"NR " ++ n ++ $" = " ++ (r ++ u)), v, zn, zr. split; [|now constructor].
  cbn [s_rest] in Li1. rewrite Li1, E1, Li2, E2, Eu. rewrite <- !app_assoc. reflexivity.
Qed.
Section search_first.
  Context {A : Type} (r : re) (P : str -> str -> A -> Prop) (Q : st -> A -> Prop).
  Hypothesis hit : forall prev pre call rest x, P call rest x -> exists s',
    mt r (St prev (call ++ rest) []) (fun s' => Some (mk_res pre (call ++ rest) s')) = Some (mk_res pre (call ++ rest) s') /\ Q s' x.
  Hypothesis inv : forall prev b s', mat r (St prev b []) s' -> exists call rest x, b = call ++ rest /\ P call rest x.
  Lemma search_first s x : FirstAt P s x -> exists pre b s', re_search r s = Some (mk_res pre b s') /\ Q s' x.
  Proof.
    intros (pre & call & post & -> & HP & Hf). unfold re_search.
    destruct (hit (last_or None pre) pre call post x HP) as (s' & Hm & HQ).
    rewrite search_skip.
    - cbn [app]. exists pre, (call ++ post), s'. split; auto. now apply search_hit.
    - intros a1 a2 -> Hn s1 Hm1. apply inv in Hm1 as (c' & r' & y & E & HP'). apply Hn.
      apply (Hf a1 c' r' a2 y); auto. now rewrite <- app_assoc, E.
  Qed.
  Lemma search_never s : (forall a b c x, s = a ++ b ++ c -> ~ P b c x) -> re_search r s = None.
  Proof.
    intros H. apply search_none. intros a b -> s' Hm. apply inv in Hm as (c & d & x & -> & HP). eapply H; eauto.
  Qed.
  Lemma search_some s m : re_search r s = Some m -> exists x, FirstAt P s x.
  Proof.
    intros H. apply search_inv in H as (a & b & s' & -> & Hm & _ & Hno). apply inv in Hm as (c & d & x & -> & HP).
    exists x, a, c, d. split; auto. split; auto. intros a' b' c' d' y E HP' ->. destruct d' as [|z d']; auto. exfalso.
    assert (E' : (z :: d') ++ c ++ d = b' ++ c').
    { rewrite <- !app_assoc in E. now apply app_inv_head in E. }
    destruct (hit (last_or None a') [] b' c' y HP') as (s1 & Hm1 & _). rewrite <- E' in Hm1.
    apply mt_sound in Hm1 as (s2 & Hm2 & _). eapply Hno; [reflexivity|discriminate|exact Hm2].
  Qed.
End search_first.

Definition enter_Q (s' : st) (x : Z * list Z) : Prop :=
  exists m, m_caps m = s_caps s' /\ (do nr <- group_int py_int10 1 m ;; do args <- mapM (fun n => group_int py_int16 n m) [2; 3; 4; 5; 6; 7] ;; Ok (nr, args)) = Ok x.
Lemma group_caps n m m' : m_caps m = m_caps m' -> group n m = group n m'.
Proof. unfold group. now intros ->. Qed.
Lemma group_int_caps conv n m m' : m_caps m = m_caps m' -> group_int conv n m = group_int conv n m'.
Proof. intros H. unfold group_int. now rewrite (group_caps n m m' H). Qed.
Lemma enter_hitQ prev pre call rest x : EnterAt call rest x -> exists s',
    mt pat_enter (St prev (call ++ rest) []) (fun s' => Some (mk_res pre (call ++ rest) s')) = Some (mk_res pre (call ++ rest) s') /\ enter_Q s' x.
Proof.
  unfold EnterAt. destruct x as [nr args]. cbn [fst snd]. intros H.
  apply (enter_hit prev pre call rest) in H as (s' & a0 & a1 & a2 & a3 & a4 & a5 & ds & z0 & z1 & z2 & z3 & z4 & z5 & Hm & Hc & -> & -> & Hd & H0 & H1 & H2 & H3 & H4 & H5).
  exists s'. split; auto. exists (mk_res [] [] s'). split; [reflexivity|].
  cbn [mapM]. unfold group_int, group. cbn [m_caps mk_res]. rewrite Hc. cbn [dget Nat.eqb].
  rewrite (py_int10_digits ds Hd), (int16_hex a0 z0), (int16_hex a1 z1), (int16_hex a2 z2), (int16_hex a3 z3), (int16_hex a4 z4), (int16_hex a5 z5) by auto.
  reflexivity.
Qed.
Lemma enter_invQ prev b s' : mat pat_enter (St prev b []) s' -> exists call rest x, b = call ++ rest /\ EnterAt call rest x.
Proof. intros H. apply enter_inv in H as (c & r & nr & args & E & H). exists c, r, (nr, args). auto. Qed.
Lemma enter_first s nr args : FirstAt EnterAt s (nr, args) -> enter_explode s = Ok (enter_fields nr args).
Proof.
  intros H. apply (search_first pat_enter EnterAt enter_Q enter_hitQ enter_invQ) in H as (pre & b & s' & E & m & Hm & HQ).
  unfold enter_explode. rewrite E.
  assert (C : m_caps (mk_res pre b s') = m_caps m) by now rewrite Hm.
  rewrite (group_int_caps _ 1 _ _ C).
  replace (mapM (fun n => group_int py_int16 n (mk_res pre b s')) [2; 3; 4; 5; 6; 7]) with (mapM (fun n => group_int py_int16 n m) [2; 3; 4; 5; 6; 7]).
  2:{ cbn [mapM]. now rewrite !(group_int_caps _ _ _ _ C). }
  destruct (group_int py_int10 1 m) as [z|]; [|discriminate]. cbn [bind] in *.
  destruct (mapM _ _) as [l|]; [|discriminate]. cbn [bind] in *. now injection HQ as -> ->.
Qed.
Lemma enter_never s : (forall a b c nr args, s = a ++ b ++ c -> ~ EnterCall b nr args) -> enter_explode s = Err EValue.
Proof.
  intros H. unfold enter_explode. rewrite (search_never pat_enter EnterAt enter_invQ); auto.
  intros a b c [nr args] E HP. eapply H; eauto.
Qed.
Lemma enter_some s : (exists nr args, FirstAt EnterAt s (nr, args)) \/ (forall a b c nr args, s = a ++ b ++ c -> ~ EnterCall b nr args).
Proof.
  destruct (re_search pat_enter s) as [m|] eqn:E.
  - left. apply (search_some pat_enter EnterAt enter_Q enter_hitQ enter_invQ) in E as ([nr args] & H). eauto.
  - right. intros a b c nr args -> H.
    destruct (enter_hitQ (last_or None a) [] b c (nr, args) H) as (s' & Hm & _).
    apply mt_sound in Hm as (s1 & Hm & _). eapply search_from_None in E; [|reflexivity]. apply (E _ Hm).
Qed.

Definition exit_Q (s' : st) (x : Z * Z) : Prop :=
  exists m, m_caps m = s_caps s' /\ (do nr <- group_int py_int10 1 m ;; do r <- group_int py_int10 2 m ;; Ok (nr, r)) = Ok x.
Lemma exit_hitQ prev pre call rest x : ExitAt call rest x -> exists s',
    mt pat_exit (St prev (call ++ rest) []) (fun s' => Some (mk_res pre (call ++ rest) s')) = Some (mk_res pre (call ++ rest) s') /\ exit_Q s' x.
Proof.
  unfold ExitAt. destruct x as [zn zr]. cbn [fst snd]. intros H.
  apply (exit_hit prev pre call rest) in H as (s' & n & r & Hm & Hc & Hn & Hr).
  exists s'. split; auto. exists (mk_res [] [] s'). split; [reflexivity|].
  unfold group_int, group. cbn [m_caps mk_res]. rewrite Hc. cbn [dget Nat.eqb].
  rewrite (int10_dec n zn), (int10_dec r zr) by auto. reflexivity.
Qed.
Lemma exit_invQ prev b s' : mat pat_exit (St prev b []) s' -> exists call rest x, b = call ++ rest /\ ExitAt call rest x.
Proof. intros H. apply exit_inv in H as (c & r & zn & zr & E & H). exists c, r, (zn, zr). auto. Qed.
Lemma exit_first s zn zr : FirstAt ExitAt s (zn, zr) -> exit_explode s = Ok ($"nr=" ++ str_of_Z zn ++ $" ret=" ++ str_of_Z zr).
Proof.
  intros H. apply (search_first pat_exit ExitAt exit_Q exit_hitQ exit_invQ) in H as (pre & b & s' & E & m & Hm & HQ).
  unfold exit_explode. rewrite E.
  assert (C : m_caps (mk_res pre b s') = m_caps m) by now rewrite Hm.
  rewrite !(group_int_caps _ _ _ _ C).
  destruct (group_int py_int10 1 m) as [z|]; [|discriminate]. cbn [bind] in *.
  destruct (group_int py_int10 2 m) as [l|]; [|discriminate]. cbn [bind] in *. now injection HQ as -> ->.
Qed.
Lemma exit_never s : (forall a b c zn zr, s = a ++ b ++ c -> ~ ExitCall b c zn zr) -> exit_explode s = Err EValue.
Proof.
  intros H. unfold exit_explode. rewrite (search_never pat_exit ExitAt exit_invQ); auto.
  intros a b c [zn zr] E HP. eapply H; eauto.
Qed.
Lemma exit_some s : (exists zn zr, FirstAt ExitAt s (zn, zr)) \/ (forall a b c zn zr, s = a ++ b ++ c -> ~ ExitCall b c zn zr).
Proof.
  destruct (re_search pat_exit s) as [m|] eqn:E.
  - left. apply (search_some pat_exit ExitAt exit_Q exit_hitQ exit_invQ) in E as ([zn zr] & H). eauto.
  - right. intros a b c zn zr -> H.
    destruct (exit_hitQ (last_or None a) [] b c (zn, zr) H) as (s' & Hm & _).
    apply mt_sound in Hm as (s1 & Hm & _). eapply search_from_None in E; [|reflexivity]. apply (E _ Hm).
Qed.

(** the decoded fields *)
Lemma enter_fields_dict nr z0 z1 z2 z3 z4 z5 :
  generate_data_dict (enter_fields nr [z0; z1; z2; z3; z4; z5]) =
  Ok [($"nr", CInt nr); ($"arg0", CInt z0); ($"arg1", CInt z1); ($"arg2", CInt z2); ($"arg3", CInt z3); ($"arg4", CInt z4); ($"arg5", CInt z5)].
Proof.
  set (gs := [Grp $"nr" (str_of_Z nr) []; Grp $"arg0" (str_of_Z z0) []; Grp $"arg1" (str_of_Z z1) []; Grp $"arg2" (str_of_Z z2) [];
              Grp $"arg3" (str_of_Z z3) []; Grp $"arg4" (str_of_Z z4) []; Grp $"arg5" (str_of_Z z5) []]).
  rewrite (gdd_roundtrip _ gs).
  - unfold gs. cbn [map]. now rewrite !int_cell by discriminate.
  - unfold enter_fields. cbn [combine List.length seq map fst snd].
    replace (flat_map g_words gs) with (map (fun g => g_key g ++ "="%char :: g_val g) gs) by reflexivity.
    apply Words_iff. apply (split_ws_join (map (fun g => g_key g ++ "="%char :: g_val g) gs)).
    unfold gs. cbn [map g_key g_val]. repeat apply Forall_cons; try apply Forall_nil;
      (split; [discriminate|]; apply Forall_app; split; [repeat constructor|constructor; [reflexivity|apply str_of_Z_word]]).
  - unfold gs. repeat apply Forall_cons; try apply Forall_nil; (split; [cbn; intuition discriminate|constructor]).
  - cbn. repeat constructor; cbn; intuition discriminate.
  - repeat constructor; discriminate.
Qed.
Lemma exit_fields_dict zn zr : generate_data_dict ($"nr=" ++ str_of_Z zn ++ $" ret=" ++ str_of_Z zr) = Ok [($"nr", CInt zn); ($"ret", CInt zr)].
Proof.
  set (gs := [Grp $"nr" (str_of_Z zn) []; Grp $"ret" (str_of_Z zr) []]).
  rewrite (gdd_roundtrip _ gs).
  - unfold gs. cbn [map]. now rewrite !int_cell by discriminate.
  - replace ($"nr=" ++ str_of_Z zn ++ $" ret=" ++ str_of_Z zr) with (($"nr" ++ $"=" ++ str_of_Z zn) ++ " "%char :: ($"ret" ++ $"=" ++ str_of_Z zr)).
    2:{ rewrite <- !app_assoc. reflexivity. }
    change (flat_map g_words gs) with (g_words (Grp $"nr" (str_of_Z zn) []) ++ g_words (Grp $"ret" (str_of_Z zr) [])).
    apply Words_blank; apply int_words; key_ok.
  - unfold gs. repeat apply Forall_cons; try apply Forall_nil; (split; [cbn; intuition discriminate|constructor]).
  - cbn. repeat constructor; cbn; intuition discriminate.
  - repeat constructor; discriminate.
Qed.

(** ** Frames without arrays *)
Lemma no_brace_search s : ~ In "{"%char s -> re_search pat_array s = None.
Proof.
  intros H. apply search_none. intros a b -> s' Hm. apply H. unfold pat_array in Hm. cbn [RSeqs] in Hm.
  minv Hm s1 G1. minv Hm s2 L1. apply mat_grp_inv in G1 as (s1' & Gr1 & ->). apply mat_plus_cls in Gr1 as (u & E & _).
  apply mat_lit in L1 as [L1 _]. cbn [cap_add s_rest] in *. rewrite E, L1. apply in_or_app. right. apply in_or_app. right.
  cbn. auto.
Qed.
Lemma no_brace_lengths lines : Forall (fun l => ~ In "{"%char l) lines -> trace_array_lengths [] lines = [].
Proof.
  destruct lines as [|l lines]; intros H; [reflexivity|]. inversion H; subst. cbn [trace_array_lengths scan_line].
  now rewrite no_brace_search.
Qed.
Lemma frame_plain fuel gdd evs ds : Forall (fun e => ~ In "{"%char (ev_data e)) evs ->
  Forall2 (fun e d => gdd (ev_data e) = Ok d /\ NoDup (map fst d)) evs ds ->
  exists fr, create_dataframe fuel gdd evs = Ok fr /\
    Forall2 (fun ed r => fst r = ev_time (fst ed) /\
      forall k, dlookup k (snd r) = match dlookup k (snd ed) with Some c => Some c | None => meta_cell (fst ed) k end)
      (combine evs ds) fr.
Proof.
  intros Hb H. unfold create_dataframe, explode_all. rewrite no_brace_lengths by (apply Forall_map; exact Hb).
  cbn [bind]. clear Hb. induction H as [|e d evs ds [He Hn] H IH]; cbn [mapM combine].
  - exists []. split; constructor.
  - destruct IH as (fr & E & F). assert (Er : exists r, row_dict gdd e = Ok r) by (unfold row_dict; rewrite He; eexists; reflexivity).
    destruct Er as [r Er]. rewrite Er. cbn [bind]. rewrite E. cbn [bind]. eexists. split; [reflexivity|].
    constructor; [|exact F]. cbn [fst snd]. split; auto. exact (row_dict_lookup gdd e d r Hn He Er).
Qed.
Lemma combine_map_l {A B C} (f : A -> B) (l : list A) (m : list C) :
  combine (map f l) m = map (fun x => (f (fst x), snd x)) (combine l m).
Proof. revert m. induction l as [|a l IH]; intros [|c m]; cbn; auto. now rewrite IH. Qed.
Lemma Forall2_map_l {A B C} (P : B -> C -> Prop) (f : A -> B) l m : Forall2 P (map f l) m <-> Forall2 (fun a c => P (f a) c) l m.
Proof.
  split.
  - revert m. induction l as [|a l IH]; intros m H; inversion H; subst; constructor; auto.
  - induction 1; constructor; auto.
Qed.

Lemma str_of_Z_brace z : ~ In "{"%char (str_of_Z z).
Proof.
  unfold str_of_Z. assert (H : forall n, ~ In "{"%char (str_of_N n)).
  { intros n Hi. pose proof (str_of_N_digits n) as F. rewrite Forall_forall in F. apply F in Hi. discriminate. }
  destruct z; try apply H. intros [E|Hi]; [discriminate|now apply H in Hi].
Qed.
(** Rows of a class that rewrites its payloads first. *)
Lemma exploded_rows (explode : str -> res str) fuel evs (xs : list (str * dict)) :
  Forall2 (fun e x => explode (ev_data e) = Ok (fst x) /\ ~ In "{"%char (fst x) /\ generate_data_dict (fst x) = Ok (snd x)) evs xs ->
  exists fr, exploded_dataframe explode fuel evs = Ok fr /\
    Forall2 (fun ed r => fst r = ev_time (fst ed) /\
      forall k, dlookup k (snd r) = match dlookup k (snd (snd ed)) with Some c => Some c | None => meta_cell (fst ed) k end)
      (combine evs xs) fr.
Proof.
  intros H. unfold exploded_dataframe.
  assert (E : mapM (fun e => do d <- explode (ev_data e);; Ok (with_data e d)) evs =
              Ok (map (fun ex => with_data (fst ex) (fst (snd ex))) (combine evs xs))).
  { clear fuel. induction H as [|e x evs xs (H1 & H2 & H3) H IH]; [reflexivity|]. cbn [mapM combine map fst snd].
    rewrite H1. cbn [bind]. rewrite IH. reflexivity. }
  rewrite E. cbn [bind]. clear E.
  destruct (frame_plain fuel generate_data_dict (map (fun ex => with_data (fst ex) (fst (snd ex))) (combine evs xs)) (map snd xs)) as (fr & E & F).
  - apply Forall_map. induction H as [|e x evs xs (H1 & H2 & H3) H IH]; constructor; auto.
  - apply Forall2_map_l. induction H as [|e x evs xs (H1 & H2 & H3) H IH]; constructor; auto. cbn [fst snd with_data ev_data].
    split; auto. now apply gdd_NoDup in H3.
  - exists fr. split; auto. clear E. revert fr F. induction H as [|e x evs xs (H1 & H2 & H3) H IH]; intros fr F; cbn [combine map] in *.
    + inversion F; constructor.
    + inversion F; subst. constructor; auto.
Qed.
Lemma join_brace sep ws : ~ In "{"%char sep -> Forall (fun w => ~ In "{"%char w) ws -> ~ In "{"%char (join sep ws).
Proof.
  intros Hs H. induction H as [|w ws Hw H IH]; [intros []|]. destruct ws as [|w2 ws]; [exact Hw|].
  cbn [join] in *. rewrite !in_app_iff. tauto.
Qed.
Lemma enter_fields_brace nr args : List.length args = 6 -> ~ In "{"%char (enter_fields nr args).
Proof.
  intros L. unfold enter_fields. do 6 (destruct args as [|? args]; [discriminate|]). destruct args; [|discriminate].
  cbn [List.length seq combine map fst snd]. apply join_brace; [cbn; intuition discriminate|].
  repeat apply Forall_cons; try apply Forall_nil; rewrite !in_app_iff; pose proof str_of_Z_brace as Z; 
   (intros Hi; repeat destruct Hi as [Hi|Hi]; try discriminate; try contradiction; try (eapply Z; exact Hi)).
Qed.
Lemma enter_rows fuel evs (cs : list (Z * list Z)) :
  Forall2 (fun e x => FirstAt EnterAt (ev_data e) x) evs cs ->
  exists fr, exploded_dataframe enter_explode fuel evs = Ok fr /\
   Forall2 (fun ex r => fst r = ev_time (fst ex) /\
     (forall k, dlookup k (snd r) =
       match dlookup k (($"nr", CInt (fst (snd ex))) :: map (fun ia => ($"arg" ++ str_of_nat (fst ia), CInt (snd ia))) (combine (seq 0 6) (snd (snd ex)))) with
       | Some c => Some c | None => meta_cell (fst ex) k end)) (combine evs cs) fr.
Proof.
  intros H.
  destruct (exploded_rows enter_explode fuel evs (map (fun x => (enter_fields (fst x) (snd x), ($"nr", CInt (fst x)) :: map (fun ia => ($"arg" ++ str_of_nat (fst ia), CInt (snd ia))) (combine (seq 0 6) (snd x)))) cs)) as (fr & E & F).
  - induction H as [|e [nr args] evs cs H1 H IH]; constructor; auto. cbn [fst snd].
    assert (L : exists z0 z1 z2 z3 z4 z5, args = [z0; z1; z2; z3; z4; z5]).
    { destruct H1 as (pre & call & post & _ & HE & _). unfold EnterAt in HE. cbn [fst snd] in HE. inversion HE; subst. eauto 10. }
    split; [now apply enter_first|]. destruct L as (z0 & z1 & z2 & z3 & z4 & z5 & ->). split; [now apply enter_fields_brace|].
    rewrite enter_fields_dict. reflexivity.
  - exists fr. split; auto. clear E. revert fr F. induction H as [|e [nr args] evs cs H1 H IH]; intros fr F; cbn [combine map] in *.
    + inversion F; constructor.
    + inversion F; subst. constructor; auto.
Qed.
Lemma exit_rows fuel evs (cs : list (Z * Z)) :
  Forall2 (fun e x => FirstAt ExitAt (ev_data e) x) evs cs ->
  exists fr, exploded_dataframe exit_explode fuel evs = Ok fr /\
   Forall2 (fun ex r => fst r = ev_time (fst ex) /\
     (forall k, dlookup k (snd r) =
       match dlookup k [($"nr", CInt (fst (snd ex))); ($"ret", CInt (snd (snd ex)))] with
       | Some c => Some c | None => meta_cell (fst ex) k end)) (combine evs cs) fr.
Proof.
  intros H.
  destruct (exploded_rows exit_explode fuel evs (map (fun x => ($"nr=" ++ str_of_Z (fst x) ++ $" ret=" ++ str_of_Z (snd x), [($"nr", CInt (fst x)); ($"ret", CInt (snd x))])) cs)) as (fr & E & F).
  - induction H as [|e [zn zr] evs cs H1 H IH]; constructor; auto. cbn [fst snd].
    split; [now apply exit_first|]. split; [|apply exit_fields_dict]. rewrite !in_app_iff. pose proof str_of_Z_brace as Z.
    (intros Hi; repeat destruct Hi as [Hi|Hi]; try discriminate; try contradiction; try (eapply Z; exact Hi)).
  - exists fr. split; auto. clear E. revert fr F. induction H as [|e x evs cs H1 H IH]; intros fr F; cbn [combine map] in *.
    + inversion F; constructor.
    + inversion F; subst. constructor; auto.
Qed.
Lemma explode_error (explode : str -> res str) fuel evs e : In e evs -> explode (ev_data e) = Err EValue ->
  (forall d x, explode d = Err x -> x = EValue) ->
  exploded_dataframe explode fuel evs = Err EValue.
Proof.
  intros Hi He Hv. unfold exploded_dataframe.
  assert (E : mapM (fun e => do d <- explode (ev_data e);; Ok (with_data e d)) evs = Err EValue).
  { induction evs as [|a evs IH]; [destruct Hi|]. cbn [mapM]. destruct (explode (ev_data a)) as [d|x] eqn:Ea.
    - cbn [bind]. destruct Hi as [->|Hi]; [congruence|]. now rewrite IH.
    - cbn [bind]. f_equal. eauto. }
  now rewrite E.
Qed.

(** printed numbers *)
Lemma fmt16_hex n : hex_num (fmt_base 16 n) (Z.of_N n).
Proof.
  assert (F : Forall hex_digit (fmt_base 16 n)).
  { unfold fmt_base. apply fmt_fuel_Forall; [lia|]. intros d Hd. exists d. split; auto. apply digit_char_val. lia. }
  assert (V : hex_val (fmt_base 16 n) = n).
  { pose proof (parse_fmt 16 n ltac:(lia) ltac:(lia)) as Hp. unfold parse_digits in Hp.
    rewrite (digits_loop16 (fmt_base 16 n)) in Hp; auto; [now injection Hp|]. left. apply fmt_base_nonnil. }
  rewrite <- V at 2. apply Sg_none; auto. apply fmt_base_nonnil.
Qed.
Lemma dec_N n : digits (str_of_N n) /\ dec_val (str_of_N n) = n.
Proof.
  assert (D : digits (str_of_N n)) by (split; [apply str_of_N_nonnil|apply str_of_N_digits]). split; auto.
  pose proof (str_of_N_parse n) as H. rewrite parse_digits_dec in H by auto. now injection H.
Qed.
Lemma dec_Z z : dec_num (str_of_Z z) z.
Proof.
  unfold str_of_Z. destruct z as [|p|p].
  - apply (Sg_none _ dec_val $"0"); [discriminate|repeat constructor].
  - change (Z.to_N (Zpos p)) with (Npos p). destruct (dec_N (Npos p)) as [[D1 D2] E].
    change (Zpos p) with (Z.of_N (Npos p)). rewrite <- E at 2. now apply Sg_none.
  - destruct (dec_N (Npos p)) as [[D1 D2] E]. change (Zneg p) with (- Z.of_N (Npos p))%Z. rewrite <- E at 2. now apply Sg_minus.
Qed.
Lemma FirstAt_head {A} (P : str -> str -> A -> Prop) call post x : P call post x -> FirstAt P (call ++ post) x.
Proof.
  intros H. exists [], call, post. split; [reflexivity|]. split; auto. intros a b c d y _ _ E. destruct a; destruct d; auto; discriminate.
Qed.
Lemma enter_printed n a0 a1 a2 a3 a4 a5 post :
  FirstAt EnterAt ($"NR " ++ str_of_N n ++ $" (" ++ fmt_base 16 a0 ++ $", " ++ fmt_base 16 a1 ++ $", " ++ fmt_base 16 a2 ++
     $", " ++ fmt_base 16 a3 ++ $", " ++ fmt_base 16 a4 ++ $", " ++ fmt_base 16 a5 ++ $")" ++ post)
   (Z.of_N n, map Z.of_N [a0; a1; a2; a3; a4; a5]).
Proof.
  destruct (dec_N n) as [D E].
  match goal with |- FirstAt _ ?t _ => replace t with (($"NR " ++ str_of_N n ++ $" (" ++ fmt_base 16 a0 ++ $", " ++ fmt_base 16 a1 ++ $", " ++ fmt_base 16 a2 ++
     $", " ++ fmt_base 16 a3 ++ $", " ++ fmt_base 16 a4 ++ $", " ++ fmt_base 16 a5 ++ $")") ++ post) by (rewrite <- !app_assoc; reflexivity) end.
  apply FirstAt_head. unfold EnterAt. cbn [fst snd map]. rewrite <- E at 2. constructor; auto; apply fmt16_hex.
Qed.
Lemma exit_printed zn zr post : match post with [] => True | c :: _ => is_digit c = false end ->
  FirstAt ExitAt ($"NR " ++ str_of_Z zn ++ $" = " ++ str_of_Z zr ++ post) (zn, zr).
Proof.
  intros Hp. replace ($"NR " ++ str_of_Z zn ++ $" = " ++ str_of_Z zr ++ post) with (($"NR " ++ str_of_Z zn ++ $" = " ++ str_of_Z zr) ++ post) by (rewrite <- !app_assoc; reflexivity).
  apply FirstAt_head. unfold ExitAt. cbn [fst snd]. constructor; auto; apply dec_Z.
Qed.
Lemma enter_ok_iff s t : enter_explode s = Ok t <-> exists nr args, FirstAt EnterAt s (nr, args) /\ t = enter_fields nr args.
Proof.
  split.
  - intros H. destruct (enter_some s) as [(nr & args & F)|N].
    + exists nr, args. split; auto. apply enter_first in F. congruence.
    + apply enter_never in N. congruence.
  - intros (nr & args & F & ->). now apply enter_first.
Qed.
Lemma enter_err_iff s : enter_explode s = Err EValue <-> forall a b c nr args, s = a ++ b ++ c -> ~ EnterCall b nr args.
Proof.
  split; [|apply enter_never]. intros H. destruct (enter_some s) as [(nr & args & F)|N]; auto. apply enter_first in F. congruence.
Qed.
Lemma enter_errs d x : enter_explode d = Err x -> x = EValue.
Proof.
  destruct (enter_some d) as [(nr & args & F)|N].
  - apply enter_first in F. congruence.
  - apply enter_never in N. congruence.
Qed.
Lemma exit_ok_iff s t : exit_explode s = Ok t <-> exists zn zr, FirstAt ExitAt s (zn, zr) /\ t = $"nr=" ++ str_of_Z zn ++ $" ret=" ++ str_of_Z zr.
Proof.
  split.
  - intros H. destruct (exit_some s) as [(nr & args & F)|N].
    + exists nr, args. split; auto. apply exit_first in F. congruence.
    + apply exit_never in N. congruence.
  - intros (nr & args & F & ->). now apply exit_first.
Qed.
Lemma exit_errs d x : exit_explode d = Err x -> x = EValue.
Proof.
  destruct (exit_some d) as [(nr & args & F)|N].
  - apply exit_first in F. congruence.
  - apply exit_never in N. congruence.
Qed.
Lemma no_call_value fuel evs e : In e evs ->
  ((forall a b c nr args, ev_data e = a ++ b ++ c -> ~ EnterCall b nr args) -> exploded_dataframe enter_explode fuel evs = Err EValue) /\
  ((forall a b c zn zr, ev_data e = a ++ b ++ c -> ~ ExitCall b c zn zr) -> exploded_dataframe exit_explode fuel evs = Err EValue).
Proof.
  intros Hi. split; intros H.
  - eapply explode_error; eauto; [now apply enter_never|apply enter_errs].
  - eapply explode_error; eauto; [now apply exit_never|apply exit_errs].
Qed.
