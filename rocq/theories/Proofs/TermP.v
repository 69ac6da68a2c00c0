(** Termination and non-termination of array explosion (base.py:73-98). *)
From Coq Require Import List Ascii String ZArith NArith Bool Lia.
From Verif Require Import Lib.PyStr Lib.PyStrFacts Lib.Regex Lib.RegexFacts Lib.SearchFacts Lib.F64
  Model.Base Spec.Arrays Proofs.ArraysP Proofs.ScanP.
Import ListNotations.

(** In a blank-separated token that has a ["="], no ["{"] precedes the first ["="]. *)
Definition tok_ok (t : str) : Prop :=
  forall p q, t = p ++ "="%char :: q -> ~ In "="%char p -> ~ In "{"%char p.
Definition braces (s : str) : nat := count_occ ascii_dec s "{"%char.

Lemma braces_app a b : braces (a ++ b) = braces a + braces b.
Proof. apply count_occ_app. Qed.
Lemma braces_none s : ~ In "{"%char s -> braces s = 0.
Proof. apply count_occ_not_In. Qed.

Lemma tok_ok_col x z : ~ In "="%char x -> ~ In "{"%char x -> tok_ok (x ++ "="%char :: z).
Proof. intros H1 H2 p q E Hp. apply first_occ in E as [<- _]; auto. Qed.

Lemma split_ch_mid sep a s : split_ch sep (a ++ sep :: s) = split_ch sep a ++ split_ch sep s.
Proof.
  induction a as [|c a IH].
  - cbn [app split_ch]. rewrite Ascii.eqb_refl. reflexivity.
  - cbn [app split_ch]. destruct (Ascii.eqb c sep); [now rewrite IH|].
    rewrite IH. assert (H := split_ch_nonnil sep a). destruct (split_ch sep a); [congruence|reflexivity].
Qed.
Lemma split_ch_mid' sep a s : split_ch sep ((a ++ [sep]) ++ s) = split_ch sep a ++ split_ch sep s.
Proof. rewrite <- app_assoc. apply split_ch_mid. Qed.
Lemma split_ch_cat sep x y : exists i l h t,
  split_ch sep x = i ++ [l] /\ split_ch sep y = h :: t /\ split_ch sep (x ++ y) = i ++ (l ++ h) :: t.
Proof.
  assert (Hy := split_ch_nonnil sep y). destruct (split_ch sep y) as [|h t] eqn:Ey; [congruence|].
  induction x as [|c x (i & l & h' & t' & E1 & E2 & E3)].
  - exists [], [], h, t. auto.
  - injection E2 as <- <-. cbn [app split_ch]. destruct (Ascii.eqb c sep) eqn:Ec.
    + exists ([] :: i), l, h, t. rewrite E1, E3. auto.
    + rewrite E1, E3. destruct i as [|i0 i].
      * exists [], (c :: l), h, t. auto.
      * exists ((c :: i0) :: i), l, h, t. auto.
Qed.
Lemma braces_join l : braces (join $" " l) = list_sum (map braces l).
Proof.
  induction l as [|v l IH]; auto. destruct l as [|w l].
  - cbn [join map]. unfold list_sum. cbn [fold_right]. lia.
  - change (join $" " (v :: w :: l)) with (v ++ $" " ++ join $" " (w :: l)).
    rewrite !braces_app, IH. reflexivity.
Qed.
Lemma braces_digits k : braces (str_of_nat k) = 0.
Proof.
  apply braces_none. intros H. unfold str_of_nat in H. assert (F := str_of_N_digits (N.of_nat k)).
  rewrite Forall_forall in F. apply F in H. discriminate.
Qed.
Lemma braces_cols col vals n : ~ In "{"%char col ->
  list_sum (map braces (cols col vals n)) = list_sum (map braces vals).
Proof.
  intros H. rewrite <- items_cols, map_app, list_sum_app.
  assert (P : list_sum (map braces (explode_pads col (List.length vals) n)) = 0).
  { unfold explode_pads. generalize (List.length vals) as a, (n - List.length vals) as m.
    intros a m. revert a. induction m as [|m IH]; intros a; auto.
    cbn [seq map list_sum fold_right]. unfold list_sum in IH. rewrite IH.
    rewrite !braces_app, braces_digits, (braces_none col) by auto. reflexivity. }
  rewrite P. unfold explode_items. clear P.
  assert (G : forall a, list_sum (map braces (map (fun iv : nat * str => col ++ str_of_nat (fst iv) ++ $"=" ++ snd iv)
     (combine (seq a (List.length vals)) vals))) = list_sum (map braces vals)).
  { induction vals as [|v vals IH]; intros a; auto. cbn [List.length seq combine map fst snd].
    unfold list_sum in *. cbn [fold_right]. rewrite IH, !braces_app, braces_digits, (braces_none col) by auto.
    reflexivity. }
  rewrite G. lia.
Qed.

Lemma plus_to_star p s s' : mat (RPlus (RCls p)) s s' -> mat (RStar (RCls p)) s s'.
Proof.
  intros H. apply mat_seq_inv in H as (s1 & H1 & H2). eapply mat_star1; eauto.
  inversion H1; subst. cbn. lia.
Qed.

(** What a match of the first pattern looks like. *)
Lemma explode_match_shape s m : re_search pat_explode s = Some m -> exists u v,
  s = m_pre m ++ m_all m ++ m_post m /\ m_all m = u ++ $"={" ++ v ++ $"}" /\
  u <> [] /\ ~ In " "%char u /\ ~ In "}"%char v /\ bl_end (m_pre m).
Proof.
  intros H. unfold re_search in H. apply search_inv in H as (a & b & s' & -> & Hm & -> & Hn).
  cbn [app] in *. assert (Hm0 := Hm).
  unfold pat_explode in Hm. cbn [RSeqs] in Hm.
  apply mat_seq_inv in Hm as (s1 & Hp & Hm). assert (Hp0 := Hp).
  apply mat_plus_cls in Hp as (u & Eu & Hun & Hus & _).
  assert (Hm1 := Hm).
  apply mat_seq_inv in Hm as (s2 & Hl & Hm). apply mat_lit in Hl as (El & _).
  apply mat_seq_inv in Hm as (s3 & Hq & Hm). apply mat_plus_cls in Hq as (v & Ev & Hvn & Hvs & _).
  apply mat_lit in Hm as (Er & _). cbn [s_rest] in Eu.
  assert (E : b = (u ++ $"={" ++ v ++ $"}") ++ s_rest s').
  { rewrite Eu, El, Ev, Er, <- !app_assoc. reflexivity. }
  exists u, v. rewrite (mk_res_split _ _ _ _ E). cbn [m_pre m_all m_post].
  apply Forall_not_ch in Hus, Hvs. repeat split; auto.
  - now rewrite E.
  - destruct a as [|a0 a1] eqn:Ea; [now left|]. right.
    destruct (@exists_last _ a) as (a2 & c & Ec); [rewrite Ea; discriminate|].
    rewrite <- Ea in *. destruct (ascii_dec c " ") as [->|Hc]; [eauto|].
    exfalso. apply (Hn a2 [c] Ec ltac:(discriminate) s').
    apply (mat_seq _ _ _ s1); auto. cbn [app].
    apply (mat_seq _ _ _ (St (Some c) b [])).
    + constructor. now apply not_ch_true.
    + rewrite Ec, last_or_snoc in Hp0. now apply plus_to_star.
Qed.

Lemma step_decreases lens s s' : Forall tok_ok (split_ch " " s) -> explode_step lens s = Ok (Some s') ->
  Forall tok_ok (split_ch " " s') /\ braces s' < braces s.
Proof.
  intros Hok H. unfold explode_step in H.
  destruct (re_search pat_explode s) as [m|] eqn:Em; [|discriminate].
  apply explode_match_shape in Em as (u & v & Es & ET & Hu & Hus & Hv & Hbl).
  set (A := m_pre m) in *. set (T := m_all m) in *. set (B := m_post m) in *.
  destruct (re_match pat_basename T) as [mb|] eqn:Eb; [|discriminate].
  destruct (group 1 mb) as [col|] eqn:Gb; [|discriminate].
  destruct (re_search pat_vals T) as [mv|] eqn:Ev; [|discriminate].
  destruct (group 1 mv) as [vals|] eqn:Gv; [|discriminate].
  destruct (lens col) as [len|]; [|discriminate]. injection H as <-.
  (* column name *)
  assert (Ec : exists z, T = col ++ "="%char :: z /\ ~ In "="%char col).
  { unfold re_match in Eb. apply mt_sound in Eb as (sb & Hb & Eb). injection Eb as <-.
    unfold pat_basename in Hb. cbn [RSeqs] in Hb. apply mat_seq_inv in Hb as (s1 & Hg & Hl).
    apply mat_grp_inv in Hg as (s2 & Hp & ->). apply mat_plus_cls in Hp as (w & Ew & _ & Hws & _ & Hwc).
    apply mat_lit in Hl as (El & _ & Elc). cbn [s_rest s_caps cap_add] in *.
    unfold group in Gb. cbn [mk_res m_caps] in Gb. rewrite Elc in Gb. cbn [dget Nat.eqb] in Gb.
    injection Gb as <-. exists (s_rest sb). rewrite Ew, app_length.
    replace (List.length w + List.length (s_rest s2) - List.length (s_rest s2)) with (List.length w) by lia.
    rewrite firstn_app, firstn_all, Nat.sub_diag, firstn_O, app_nil_r.
    apply Forall_not_ch in Hws. split; auto. now rewrite El. }
  destruct Ec as (z & Ec & Hceq).
  (* it is a prefix of [u] *)
  assert (Hcsp : ~ In " "%char col).
  { rewrite ET in Ec. destruct (in_dec ascii_dec "="%char u) as [Hi|Hi].
    - apply in_split in Hi as (u1 & u2 & ->).
      assert (E' : col ++ "="%char :: z = u1 ++ "="%char :: (u2 ++ $"={" ++ v ++ $"}")).
      { rewrite <- Ec. rewrite <- app_assoc. reflexivity. }
      apply split_at in E' as (w & -> & _); auto. intros Hi. apply Hus.
      apply in_or_app. left. apply in_or_app. now left.
    - change (u ++ $"={" ++ v ++ $"}") with (u ++ "="%char :: ($"{" ++ v ++ $"}")) in Ec.
      apply first_occ in Ec as [<- _]; auto. }
  assert (Hcbr : ~ In "{"%char col).
  { destruct (split_ch_cat " " (col ++ ["="%char]) (z ++ B)) as (i & l & h & t & E1 & E2 & E3).
    rewrite split_ch_nosep in E1.
    2:{ intros Hi. apply in_app_or in Hi as [Hi|[Hi|[]]]; [auto|discriminate]. }
    destruct i as [|? [|]]; try discriminate. injection E1 as <-. cbn [app] in E3.
    assert (Hin : In ((col ++ ["="%char]) ++ h) (split_ch " " s)).
    { assert (ES : s = A ++ (col ++ ["="%char]) ++ z ++ B) by (rewrite Es, Ec, <- !app_assoc; reflexivity).
      rewrite ES. destruct Hbl as [->|(A' & ->)].
      - cbn [app]. rewrite E3. now left.
      - rewrite split_ch_mid'. apply in_or_app. right.
        rewrite E3. now left. }
    rewrite Forall_forall in Hok. apply Hok in Hin. rewrite <- app_assoc in Hin.
    exact (Hin col h eq_refl Hceq). }
  (* values *)
  assert (Evs : exists x y, T = x ++ "{"%char :: vals ++ y).
  { unfold re_search in Ev. apply search_inv in Ev as (a & b & sv & ETv & Hmv & -> & _).
    unfold pat_vals in Hmv. cbn [RSeqs] in Hmv.
    apply mat_seq_inv in Hmv as (s1 & Hl & Hmv). apply mat_lit in Hl as (El & _ & Elc).
    apply mat_seq_inv in Hmv as (s2 & Hg & Hl).
    apply mat_grp_inv in Hg as (s3 & Hp & ->). apply mat_plus_cls in Hp as (w & Ew & _ & _ & _ & Hwc).
    apply mat_lit in Hl as (Er & _ & Erc). cbn [s_rest s_caps cap_add] in *.
    unfold group in Gv. cbn [mk_res m_caps] in Gv. rewrite Erc in Gv. cbn [dget Nat.eqb] in Gv.
    injection Gv as <-. exists a, (s_rest s3). rewrite Ew, app_length.
    replace (List.length w + List.length (s_rest s3) - List.length (s_rest s3)) with (List.length w) by lia.
    rewrite firstn_app, firstn_all, Nat.sub_diag, firstn_O, app_nil_r.
    rewrite ETv, El, Ew. reflexivity. }
  destruct Evs as (x & y & Evs).
  rewrite exploded_join by apply split_ch_nonnil.
  assert (Hcols : Forall (fun w => ~ In " "%char w /\ forall h, tok_ok (w ++ h)) (cols col (split_ch " " vals) len)).
  { unfold cols. apply Forall_forall. intros w Hw. apply in_map_iff in Hw as (i & <- & Hi).
    assert (D : forall c, In c (str_of_nat i) -> is_digit c = true).
    { intros c Hc. unfold str_of_nat in Hc. assert (F := str_of_N_digits (N.of_nat i)).
      rewrite Forall_forall in F. auto. }
    split.
    - intros Hx. apply in_app_or in Hx as [Hx|Hx]; auto.
      apply in_app_or in Hx as [Hx|Hx]; [apply D in Hx; discriminate|].
      apply in_app_or in Hx as [[Hx|[]]|Hx]; [discriminate|].
      destruct (Nat.lt_ge_cases i (List.length (split_ch " " vals))) as [L|L].
      + assert (Hn : In (nth i (split_ch " " vals) $"0") (split_ch " " vals)) by now apply nth_In.
        assert (F := split_ch_pieces " " vals). rewrite Forall_forall in F. apply F in Hn. auto.
      + rewrite nth_overflow in Hx by auto. destruct Hx as [Hx|[]]; discriminate.
    - intros h.
      replace ((col ++ str_of_nat i ++ $"=" ++ nth i (split_ch " " vals) $"0") ++ h)
        with ((col ++ str_of_nat i) ++ "="%char :: nth i (split_ch " " vals) $"0" ++ h)
        by (rewrite <- !app_assoc; reflexivity).
      apply tok_ok_col; intros Hx; apply in_app_or in Hx as [Hx|Hx]; auto; apply D in Hx; discriminate. }
  split.
  - (* tokens *)
    assert (HB : Forall tok_ok (tl (split_ch " " B))).
    { destruct (split_ch_cat " " (A ++ T) B) as (i & l & h & t & E1 & E2 & E3).
      rewrite <- app_assoc, <- Es in E3. rewrite E2. cbn [tl]. rewrite E3 in Hok.
      apply Forall_app in Hok as [_ Hok]. now inversion Hok. }
    assert (HJ : Forall tok_ok (split_ch " " (join $" " (cols col (split_ch " " vals) len) ++ B))).
    { destruct (split_ch_cat " " (join $" " (cols col (split_ch " " vals) len)) B) as (i & l & h & t & E1 & E2 & E3).
      change ($" ") with [" "%char] in E1 at 1. rewrite split_ch_join in E1.
      2:{ apply cols_nonnil, split_ch_nonnil. }
      2:{ eapply Forall_impl; [|exact Hcols]. cbv beta. tauto. }
      rewrite E1 in Hcols. apply Forall_app in Hcols as [Hi Hl]. inversion Hl; subst.
      rewrite E3. apply Forall_app. split.
      - eapply Forall_impl; [|exact Hi]. intros w [_ Hw]. specialize (Hw []). now rewrite app_nil_r in Hw.
      - constructor; [|now rewrite E2 in HB]. match goal with H : _ /\ _ |- _ => apply H end. }
    destruct Hbl as [->|(A' & EA)]; [exact HJ|]. rewrite EA in *.
    rewrite split_ch_mid'. apply Forall_app. split; auto.
    rewrite Es, split_ch_mid' in Hok.
    now apply Forall_app in Hok as [Hok _].
  - rewrite Es, !braces_app, braces_join, braces_cols by auto.
    rewrite <- braces_join. change ($" ") with [" "%char]. rewrite join_split_ch, Evs.
    rewrite braces_app. change ("{"%char :: vals ++ y) with ($"{" ++ vals ++ y).
    rewrite !braces_app. change (braces $"{") with 1. lia.
Qed.

Lemma explode_terminates lens : forall fuel s, Forall tok_ok (split_ch " " s) -> braces s < fuel ->
  explode_array fuel lens s <> Err EFuel.
Proof.
  induction fuel as [|fuel IH]; intros s Hok Hf; [lia|]. cbn [explode_array].
  destruct (explode_step lens s) as [[s'|]|e] eqn:E; try discriminate.
  - apply step_decreases in E as [Hok' Hlt]; auto. apply IH; auto. lia.
  - intros H. injection H as ->. unfold explode_step in E.
    destruct (re_search pat_explode s); [|discriminate].
    destruct (re_match pat_basename _); [|discriminate].
    destruct (group 1 _); [|discriminate]. destruct (re_search pat_vals _); [|discriminate].
    destruct (group 1 _); [|discriminate]. destruct (lens _); discriminate.
Qed.
(** the result does not depend on the budget *)
Lemma explode_fuel_mono lens : forall f1 f2 s, f1 <= f2 -> explode_array f1 lens s <> Err EFuel ->
  explode_array f2 lens s = explode_array f1 lens s.
Proof.
  induction f1 as [|f1 IH]; intros f2 s Hle H; [cbn in H; congruence|].
  destruct f2 as [|f2]; [lia|]. cbn [explode_array] in *.
  destruct (explode_step lens s) as [[s'|]|e]; auto. apply IH; auto. lia.
Qed.

(** *** Divergence *)
Definition zeros n := repeat "0"%char n.
Definition loop_str (A : str) (n : nat) (X Y : str) : str :=
  A ++ ($"}{" ++ zeros n ++ $"=" ++ X) ++ $"={" ++ $"1 " ++ $"}" ++ Y.

Lemma zeros_In c n : In c (zeros n) -> c = "0"%char.
Proof. apply repeat_spec. Qed.

Lemma loop_step lens A n X Y : (forall c, exists k, lens c = Some k /\ k <= 2) ->
  ~ In "{"%char A -> bl_end A -> (forall c, In c X -> c = "0"%char \/ c = "="%char) ->
  explode_step lens (loop_str A n X Y) =
  Ok (Some (loop_str A (S n) (zeros n ++ $"=" ++ X) ($"{" ++ zeros n ++ $"1=" ++ Y))).
Proof.
  intros HL HA HAb HX. unfold explode_step, loop_str at 1.
  rewrite explode_search; auto; try discriminate.
  2:{ intros H. apply in_app_or in H as [H|H]; [destruct H as [H|[H|[]]]; discriminate|].
      apply in_app_or in H as [H|H]; [apply zeros_In in H; discriminate|].
      apply in_app_or in H as [[H|[]]|H]; [discriminate|]. apply HX in H as [H|H]; discriminate. }
  2:{ intros [H|[H|[]]]; discriminate. }
  2:{ intros [H|[H|[]]]; discriminate. }
  2:{ right. right. now left. }
  cbn [m_all m_pre m_post].
  destruct (basename_match ($"}{" ++ zeros n) (X ++ $"={" ++ $"1 " ++ $"}")) as (mb & Eb & Gb).
  { discriminate. }
  { intros H. apply in_app_or in H as [H|H]; [destruct H as [H|[H|[]]]; discriminate|].
    apply zeros_In in H. discriminate. }
  assert (E1 : ($"}{" ++ zeros n) ++ "="%char :: X ++ $"={" ++ $"1 " ++ $"}"
             = ($"}{" ++ zeros n ++ $"=" ++ X) ++ $"={" ++ $"1 " ++ $"}").
  { rewrite <- !app_assoc. reflexivity. }
  rewrite E1 in Eb. rewrite Eb, Gb.
  destruct (vals_search $"}" (zeros n ++ $"=" ++ X ++ $"={" ++ $"1 ")) as (mv & Ev & Gv).
  { intros [H|[]]; discriminate. }
  { destruct n; discriminate. }
  { intros H. apply in_app_or in H as [H|H]; [apply zeros_In in H; discriminate|].
    apply in_app_or in H as [[H|[]]|H]; [discriminate|].
    apply in_app_or in H as [H|H]; [apply HX in H as [H|H]; discriminate|].
    apply in_app_or in H as [H|H].
    - destruct H as [H|[H|[]]]; discriminate.
    - destruct H as [H|[H|[]]]; discriminate. }
  assert (E2 : $"}" ++ "{"%char :: (zeros n ++ $"=" ++ X ++ $"={" ++ $"1 ") ++ $"}"
             = ($"}{" ++ zeros n ++ $"=" ++ X) ++ $"={" ++ $"1 " ++ $"}").
  { rewrite <- !app_assoc. reflexivity. }
  rewrite E2 in Ev. rewrite Ev, Gv.
  destruct (HL ($"}{" ++ zeros n)) as (k & -> & Hk).
  assert (E3 : split_ch " " (zeros n ++ $"=" ++ X ++ $"={" ++ $"1 ")
             = [zeros n ++ $"=" ++ X ++ $"={1"; []]).
  { replace (zeros n ++ $"=" ++ X ++ $"={" ++ $"1 ")
      with ((zeros n ++ $"=" ++ X ++ $"={1") ++ " "%char :: []) by (rewrite <- !app_assoc; reflexivity).
    rewrite split_ch_app; [reflexivity|].
    intros H. apply in_app_or in H as [H|H]; [apply zeros_In in H; discriminate|].
    apply in_app_or in H as [[H|[]]|H]; [discriminate|].
    apply in_app_or in H as [H|H]; [apply HX in H as [H|H]; discriminate|].
    destruct H as [H|[H|[H|[]]]]; discriminate. }
  rewrite E3, exploded_join by discriminate.
  unfold cols. cbn [List.length]. replace (Nat.max 2 k) with 2 by lia.
  cbn [seq map nth join]. change (str_of_nat 0) with $"0". change (str_of_nat 1) with $"1".
  unfold loop_str. do 2 f_equal.
  assert (Z : zeros (S n) = zeros n ++ $"0") by (unfold zeros; cbn [repeat]; apply repeat_cons).
  rewrite Z, <- !app_assoc. reflexivity.
Qed.
Lemma loop_diverges lens A : (forall c, exists k, lens c = Some k /\ k <= 2) ->
  ~ In "{"%char A -> bl_end A -> forall fuel n X Y,
  (forall c, In c X -> c = "0"%char \/ c = "="%char) ->
  explode_array fuel lens (loop_str A n X Y) = Err EFuel.
Proof.
  intros HL HA HAb. induction fuel as [|fuel IH]; intros n X Y HX; auto.
  cbn [explode_array]. rewrite loop_step by auto. apply IH.
  intros c Hc. apply in_app_or in Hc as [Hc|Hc]; [apply zeros_In in Hc; auto|].
  apply in_app_or in Hc as [[Hc|[]]|Hc]; auto.
Qed.

Definition bad_payload : str := $"a={1} }{={1 2}".
Lemma bad_lengths : trace_array_lengths [] [bad_payload] = [($"a", 1)].
Proof. vm_compute. reflexivity. Qed.
Lemma bad_diverges fuel :
  explode_array fuel (default_len [($"a", 1)]) bad_payload = Err EFuel.
Proof.
  assert (HL : forall c, exists k, default_len [($"a", 1)] c = Some k /\ k <= 2).
  { intros c. unfold default_len. cbn [dget]. destruct (eqs c $"a"); eexists; split; eauto. }
  do 2 (destruct fuel as [|fuel]; [reflexivity|]).
  cbn [explode_array].
  replace (explode_step (default_len [($"a", 1)]) bad_payload) with
    (Ok (Some $"a0=1 }{={1 2}")) by (vm_compute; reflexivity).
  replace (explode_step (default_len [($"a", 1)]) $"a0=1 }{={1 2}") with
    (Ok (Some (loop_str $"a0=1 " 1 [] $"{1=2"))) by (vm_compute; reflexivity).
  apply loop_diverges; auto.
  - intros [H|[H|[H|[H|[H|[]]]]]]; discriminate.
  - right. exists $"a0=1". reflexivity.
  - intros c [].
Qed.

Lemma explode_diverges : exists s,
  trace_array_lengths [] [s] = [($"a", 1%nat)] /\
  forall fuel, explode_array fuel (default_len (trace_array_lengths [] [s])) s = Err EFuel.
Proof. exists bad_payload. split; [exact bad_lengths|]. intros fuel. rewrite bad_lengths. apply bad_diverges. Qed.
Lemma frame_diverges : exists e, forall fuel,
  create_dataframe fuel generate_data_dict [e] = Err EFuel.
Proof.
  exists (Ev fzero $"c" 1 0 0 bad_payload). intros fuel. unfold create_dataframe, explode_all.
  cbn [map ev_data]. rewrite bad_lengths. cbn [mapM ev_data]. rewrite bad_diverges. reflexivity.
Qed.

Definition tok_okb (t : str) : bool :=
  match split_once "=" t with Some (p, _) => negb (has_char "{" p) | None => true end.
Lemma tok_okb_ok t : tok_okb t = true -> tok_ok t.
Proof.
  unfold tok_okb, tok_ok. intros H p q E Hp.
  rewrite (proj2 (split_once_Some "=" t p q)) in H by auto.
  intros Hi. apply has_char_In in Hi. rewrite Hi in H. discriminate.
Qed.
Lemma tok_okb_all l : forallb tok_okb l = true -> Forall tok_ok l.
Proof. intros H. apply Forall_forall. intros t Ht. apply tok_okb_ok. rewrite forallb_forall in H. auto. Qed.
