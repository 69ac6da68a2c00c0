(** Proofs about array explosion. *)
From Coq Require Import List Ascii String ZArith NArith Bool Lia.
From Verif Require Import Lib.PyStr Lib.PyStrFacts Lib.Regex Lib.RegexFacts Lib.SearchFacts Lib.F64
  Model.Base Spec.Arrays.
Import ListNotations.

Lemma not_ch_true d c : not_ch d c = true <-> c <> d.
Proof.
  unfold not_ch. rewrite negb_true_iff. split.
  - intros H E. subst. now rewrite Ascii.eqb_refl in H.
  - intros H. apply Ascii.eqb_neq. auto.
Qed.
Lemma Forall_not_ch d s : Forall (fun c => not_ch d c = true) s <-> ~ In d s.
Proof.
  rewrite Forall_forall. split.
  - intros H Hi. apply H in Hi. now apply not_ch_true in Hi.
  - intros H c Hc. apply not_ch_true. intros ->. auto.
Qed.

Lemma not_nl_true c : not_nl c = true <-> c <> nl.
Proof.
  split.
  - intros H ->. discriminate.
  - intros H. destruct (not_nl c) eqn:E; auto. exfalso. apply H. revert E. clear. ascii_enum c.
Qed.
Lemma split_at {A} (x y p q : list A) c : x ++ y = p ++ c :: q -> ~ In c x ->
  exists w, p = x ++ w /\ y = w ++ c :: q.
Proof.
  revert p. induction x as [|a x IH]; intros p E Hn.
  - exists p. auto.
  - destruct p as [|b p].
    + injection E as -> _. exfalso. apply Hn. now left.
    + injection E as <- E. destruct (IH p E) as (w & -> & ->); [intros H; apply Hn; now right|].
      exists w. auto.
Qed.
Lemma first_occ {A} (p q p' q' : list A) c : p ++ c :: q = p' ++ c :: q' -> ~ In c p -> ~ In c p' ->
  p = p' /\ q = q'.
Proof.
  intros E Hp Hp'. destruct (split_at p (c :: q) p' q' c E Hp) as (w & -> & E').
  destruct w as [|d w].
  - rewrite app_nil_r in *. injection E' as ->. auto.
  - injection E' as <- _. exfalso. apply Hp'. apply in_or_app. right. now left.
Qed.

(** blank-delimited positions *)
Definition bl_end (a : str) : Prop := a = [] \/ exists a', a = a' ++ [" "%char].
Definition bl_start (b : str) : Prop := b = [] \/ exists b', b = " "%char :: b'.

Lemma lit_None {A} l s (k : st -> option A) :
  (forall v, s_rest s <> l ++ v) -> mt (RLit l) s k = None.
Proof.
  intros H. apply mt_None. intros s' Hm. apply mat_lit in Hm as (E & _). now apply H in E.
Qed.

Section ArrayToken.
  Variables (n J b : str).
  Hypothesis n_ne : n <> [].
  Hypothesis n_sp : ~ In " "%char n.
  Hypothesis J_ne : J <> [].
  Hypothesis J_ob : ~ In "{"%char J.
  Hypothesis J_cb : ~ In "}"%char J.
  Hypothesis b_bl : bl_start b \/ In " "%char J.

  Lemma explode_mt {A} pv (k : st -> option A) x :
    k (St (Some "}"%char) b []) = Some x ->
    mt pat_explode (St pv (n ++ $"={" ++ J ++ $"}" ++ b) []) k = Some x.
  Proof.
    intros Hk. unfold pat_explode. cbn [RSeqs mt].
    set (s0 := St pv (n ++ $"={" ++ J ++ $"}" ++ b) []).
    assert (En : exists c a, n = c :: a) by (destruct n; [congruence|eauto]).
    destruct En as (c & a & En).
    eapply (plus_back (not_ch " ") s0 c a ($"={" ++ J ++ $"}" ++ b)).
    - cbn. rewrite En. reflexivity.
    - apply not_ch_true. intros ->. apply n_sp. rewrite En. now left.
    - apply Forall_not_ch. intros H. apply n_sp. rewrite En. now right.
    - rewrite <- En. rewrite (lit_step $"={" _ (J ++ $"}" ++ b)) by reflexivity.
      eapply (plus_max (not_ch "}") _ J ($"}" ++ b));
        [reflexivity|auto|now apply Forall_not_ch|reflexivity|].
      rewrite (lit_step $"}" _ b) by reflexivity.
        rewrite !adv_adv. unfold adv. cbn [s_caps s_prev s0].
        rewrite !app_assoc. change ($"}") with ["}"%char]. rewrite last_or_snoc. exact Hk.
    - intros u v E Hu Hs. apply lit_None. cbn [adv s_rest]. intros v' ->.
      apply Forall_not_ch in Hs.
      change ($"={") with ["="%char; "{"%char] in E.
      destruct u as [|u0 u]; [congruence|]. injection E as <- E.
      destruct u as [|u1 u]; [discriminate|]. injection E as <- E.
      assert (E' : (J ++ $"}") ++ b = (u ++ ["="%char]) ++ "{"%char :: v').
      { rewrite <- !app_assoc. exact E. }
      apply split_at in E' as (w & Ew & Eb).
      2:{ intros H. apply in_app_or in H as [H|H]; auto. destruct H as [H|[]]; discriminate. }
      destruct b_bl as [[->|(b' & ->)]|Hsp].
      + destruct w; discriminate.
      + destruct w as [|w0 w]; [discriminate|]. injection Eb as <- Eb.
        assert (Hi : In " "%char (u ++ ["="%char])) by (rewrite Ew; apply in_or_app; right; now left).
        apply in_app_or in Hi as [Hi|[Hi|[]]]; [|discriminate].
        apply Hs. right. right. exact Hi.
      + assert (Hi : In " "%char (u ++ ["="%char])).
        { rewrite Ew. apply in_or_app. left. apply in_or_app. now left. }
        apply in_app_or in Hi as [Hi|[Hi|[]]]; [|discriminate].
        apply Hs. right. right. exact Hi.
  Qed.

  Lemma explode_search a : ~ In "{"%char a -> bl_end a ->
    re_search pat_explode (a ++ n ++ $"={" ++ J ++ $"}" ++ b) =
    Some (MRes a (n ++ $"={" ++ J ++ $"}") b []).
  Proof.
    intros Ha Hb. unfold re_search. rewrite search_skip.
    - cbn [app]. set (s' := St (Some "}"%char) b []).
      rewrite (search_hit _ _ _ _ s').
      + rewrite (mk_res_split _ _ (n ++ $"={" ++ J ++ $"}")); auto. unfold s'. cbn [s_rest].
        rewrite <- !app_assoc. reflexivity.
      + unfold s'. eapply explode_mt. reflexivity.
    - intros a1 a2 -> Hne s' Hm. unfold pat_explode in Hm. cbn [RSeqs] in Hm.
      apply mat_seq_inv in Hm as (s2 & Hp & Hm). apply mat_plus_cls in Hp as (u & Eu & Hun & Hus & _).
      apply mat_seq_inv in Hm as (s3 & Hl & Hm). apply mat_lit in Hl as (El & _).
      cbn [s_rest] in Eu. rewrite El in Eu. apply Forall_not_ch in Hus.
      change ($"={") with ["="%char; "{"%char] in Eu.
      assert (E' : a2 ++ n ++ ["="%char; "{"%char] ++ J ++ $"}" ++ b = (u ++ ["="%char]) ++ "{"%char :: s_rest s3).
      { rewrite Eu. rewrite <- app_assoc. reflexivity. }
      apply split_at in E' as (w & Ew & _).
      2:{ intros H. apply Ha. apply in_or_app. auto. }
      (* a2 is a non-empty suffix of a, so it ends with a blank *)
      destruct Hb as [Hb|(a' & Hb)]; [destruct a1; destruct a2; try discriminate; congruence|].
      destruct (exists_last Hne) as (a3 & c & ->).
      rewrite app_assoc in Hb. apply app_inj_tail in Hb as [_ ->].
      assert (Hi : In " "%char (u ++ ["="%char])).
      { rewrite Ew. apply in_or_app. left. apply in_or_app. right. now left. }
      apply in_app_or in Hi as [Hi|[Hi|[]]]; [auto|discriminate].
  Qed.

End ArrayToken.

Lemma basename_match col z : col <> [] -> ~ In "="%char col -> exists m,
  re_match pat_basename (col ++ "="%char :: z) = Some m /\ group 1 m = Some col.
Proof.
  intros Hne Heq. eexists. split.
  - unfold re_match, pat_basename. cbn [RSeqs mt].
    set (s0 := St None (col ++ "="%char :: z) []).
    eapply (plus_max (not_ch "=") s0 col ("="%char :: z));
      [reflexivity|auto|now apply Forall_not_ch|reflexivity|].
    rewrite cap_add_adv by reflexivity.
    rewrite (lit_step $"=" _ z) by reflexivity. reflexivity.
  - reflexivity.
Qed.

Lemma vals_search x J : ~ In "{"%char x -> J <> [] -> ~ In nl J -> exists m,
  re_search pat_vals (x ++ "{"%char :: J ++ $"}") = Some m /\ group 1 m = Some J.
Proof.
  intros Hx J_ne J_nl. set (r := pat_vals). unfold re_search. rewrite search_skip.
  - cbn [app]. eexists. split.
    + apply search_hit. unfold r, pat_vals. cbn [RSeqs mt].
      rewrite (lit_step $"{" _ (J ++ $"}")) by reflexivity.
      assert (EJ : exists c j, J = c :: j) by (destruct J; [congruence|eauto]).
      destruct EJ as (c & j & EJ).
      eapply (plus_back not_nl _ c j ($"}")).
      * cbn. now rewrite EJ.
      * apply not_nl_true. intros E. apply J_nl. rewrite EJ. now left.
      * apply Forall_forall. intros d Hd. apply not_nl_true.
        intros ->. apply J_nl. rewrite EJ. now right.
      * rewrite <- EJ, cap_add_adv by reflexivity.
        rewrite (lit_step $"}" _ []) by reflexivity. reflexivity.
      * intros u v E Hu _.
        change ($"}") with ["}"%char] in E.
        destruct u as [|u0 [|]]; [congruence| |discriminate]. destruct v; [|discriminate].
        apply lit_None. cbn. discriminate.
    + reflexivity.
  - intros a1 a2 Ea Hne s' Hm. unfold r, pat_vals in Hm. cbn [RSeqs] in Hm.
    apply mat_seq_inv in Hm as (s2 & Hl & Hm). apply mat_lit in Hl as (El & _).
    cbn [s_rest] in El. destruct a2 as [|c a2]; [congruence|]. injection El as -> _.
    apply Hx. rewrite Ea. apply in_or_app. right. now left.
Qed.

Lemma join_In_cons (c : ascii) (sep : str) l : In c (join sep l) -> In c sep \/ exists v, In v l /\ In c v.
Proof.
  induction l as [|v l IH]; [intros []|]. destruct l as [|w l].
  - cbn. eauto.
  - change (join sep (v :: w :: l)) with (v ++ sep ++ join sep (w :: l)).
    intros H. apply in_app_or in H as [H|H]; [right; exists v; cbn; auto|].
    apply in_app_or in H as [H|H]; auto. destruct (IH H) as [H'|(v' & Hv & Hc)]; auto.
    right. exists v'. cbn in *. tauto.
Qed.
Lemma vals_noc c vs : c <> " "%char -> Forall (fun v => ~ In c v) vs -> ~ In c (join $" " vs).
Proof.
  intros Hc H Hi. apply join_In_cons in Hi as [[Hi|[]]|(v & Hv & Hi)]; [congruence|].
  rewrite Forall_forall in H. eapply H; eauto.
Qed.

Lemma removelast_flat sp l : l <> [] ->
  removelast (flat_map (fun it : str => it ++ [sp]) l) = join [sp] l.
Proof.
  induction l as [|v l IH]; [congruence|]. intros _. destruct l as [|w l].
  - cbn. rewrite app_nil_r. apply removelast_last.
  - change (join [sp] (v :: w :: l)) with (v ++ [sp] ++ join [sp] (w :: l)).
    rewrite <- IH by discriminate.
    cbn [flat_map]. rewrite <- app_assoc. rewrite removelast_app.
    2:{ destruct w; discriminate. }
    rewrite (removelast_app [sp]). 2:{ destruct w; discriminate. } reflexivity.
Qed.

Lemma items_cols col vals n :
  explode_items col vals ++ explode_pads col (List.length vals) n = cols col vals n.
Proof.
  unfold cols, explode_items, explode_pads.
  assert (G : forall k, map (fun iv : nat * str => col ++ str_of_nat (fst iv) ++ $"=" ++ snd iv)
      (combine (seq k (List.length vals)) vals)
      = map (fun i => col ++ str_of_nat i ++ $"=" ++ nth (i - k) vals $"0") (seq k (List.length vals))).
  { induction vals as [|v vals IH]; intros k; auto. cbn [List.length seq combine map fst snd].
    f_equal.
    - now rewrite Nat.sub_diag.
    - rewrite IH. apply map_ext_in. intros i Hi. apply in_seq in Hi.
      replace (i - k) with (S (i - S k)) by lia. reflexivity. }
  rewrite G. clear G.
  assert (H : map (fun i => col ++ str_of_nat i ++ $"=0") (seq (List.length vals) (n - List.length vals))
     = map (fun i => col ++ str_of_nat i ++ $"=" ++ nth i vals $"0") (seq (List.length vals) (n - List.length vals))).
  { apply map_ext_in. intros i Hi. apply in_seq in Hi. rewrite nth_overflow by lia. reflexivity. }
  rewrite H. clear H.
  replace (Nat.max (List.length vals) n) with (List.length vals + (n - List.length vals)) by lia.
  rewrite seq_app, map_app. cbn [Nat.add]. f_equal.
  apply map_ext. intros i. now rewrite Nat.sub_0_r.
Qed.
Lemma cols_nonnil col vals n : vals <> [] -> cols col vals n <> [].
Proof.
  unfold cols. destruct vals as [|v vals]; [congruence|]. intros _ E.
  apply (f_equal (@List.length str)) in E. rewrite map_length, seq_length in E. cbn [List.length] in E. lia.
Qed.
Lemma exploded_join col vals n : vals <> [] -> exploded_str col vals n = join $" " (cols col vals n).
Proof.
  intros H. unfold exploded_str. rewrite items_cols. change ($" ") with [" "%char].
  apply removelast_flat. now apply cols_nonnil.
Qed.

(** One step of the loop on [a name={vals} b]. *)
Lemma step_array lens a n vs b len : seg_ok (SArr n vs) -> ~ In "{"%char a -> bl_end a -> bl_start b ->
  lens n = Some len ->
  explode_step lens (a ++ seg_str (SArr n vs) ++ b) = Ok (Some (a ++ join $" " (cols n vs len) ++ b)).
Proof.
  intros (H1 & H2 & H3 & H4 & H5 & H6 & H7) Ha Hba Hb Hl.
  assert (Jo : ~ In "{"%char (join $" " vs)).
  { apply vals_noc; [discriminate|]. eapply Forall_impl; [|exact H7]. cbv beta. tauto. }
  assert (Jc : ~ In "}"%char (join $" " vs)).
  { apply vals_noc; [discriminate|]. eapply Forall_impl; [|exact H7]. cbv beta. tauto. }
  assert (Jn : ~ In nl (join $" " vs)).
  { apply vals_noc; [discriminate|]. eapply Forall_impl; [|exact H7]. cbv beta. tauto. }
  unfold explode_step. cbn [seg_str].
  replace ((n ++ $"={" ++ join $" " vs ++ $"}") ++ b) with (n ++ $"={" ++ join $" " vs ++ $"}" ++ b)
    by (rewrite <- !app_assoc; reflexivity).
  rewrite explode_search; auto. cbn [m_all m_pre m_post].
  destruct (basename_match n ($"{" ++ join $" " vs ++ $"}")) as (mb & Eb & Gb); auto.
  change ("="%char :: $"{" ++ join $" " vs ++ $"}") with ($"={" ++ join $" " vs ++ $"}") in Eb.
  rewrite Eb, Gb. clear Eb Gb.
  destruct (vals_search (n ++ $"=") (join $" " vs)) as (mv & Ev & Gv); auto.
  { intros Hi. apply in_app_or in Hi as [Hi|[Hi|[]]]; [auto|discriminate]. }
  rewrite <- app_assoc in Ev.
  change ($"=" ++ "{"%char :: join $" " vs ++ $"}") with ($"={" ++ join $" " vs ++ $"}") in Ev.
  rewrite Ev, Gv. clear Ev Gv.
  rewrite Hl. change ($" ") with [" "%char] at 1. rewrite split_ch_join; auto.
  - rewrite exploded_join by auto. reflexivity.
  - eapply Forall_impl; [|exact H7]. cbv beta. tauto.
Qed.
Lemma step_none lens s : ~ In "{"%char s -> explode_step lens s = Ok None.
Proof.
  intros H. unfold explode_step, re_search. rewrite search_none; auto.
  intros a b -> s' Hm. unfold pat_explode in Hm. cbn [RSeqs] in Hm.
  apply mat_seq_inv in Hm as (s2 & Hp & Hm). apply mat_plus_cls in Hp as (u & Eu & _).
  apply mat_seq_inv in Hm as (s3 & Hl & Hm). apply mat_lit in Hl as (El & _).
  cbn [s_rest] in Eu. apply H. apply in_or_app. right. rewrite Eu, El.
  apply in_or_app. right. right. now left.
Qed.

Definition is_text (g : seg) := match g with SText _ => true | _ => false end.
Lemma join_app (sep : str) a b : a <> [] -> b <> [] -> join sep (a ++ b) = join sep a ++ sep ++ join sep b.
Proof.
  induction a as [|v a IH]; [congruence|]. intros _ Hb. destruct a as [|w a].
  - cbn [app]. destruct b; [congruence|]. reflexivity.
  - change (join sep ((v :: w :: a) ++ b)) with (v ++ sep ++ join sep ((w :: a) ++ b)).
    rewrite IH by (discriminate || auto).
    change (join sep (v :: w :: a)) with (v ++ sep ++ join sep (w :: a)).
    now rewrite <- !app_assoc.
Qed.

Lemma cols_ok n vs len : seg_ok (SArr n vs) ->
  Forall (fun w => ~ In " "%char w /\ ~ In "{"%char w) (cols n vs len).
Proof.
  intros (H1 & H2 & H3 & H4 & H5 & H6 & H7). unfold cols. apply Forall_forall.
  intros w Hw. apply in_map_iff in Hw as (i & <- & Hi).
  assert (D : forall c, In c (str_of_nat i) -> is_digit c = true).
  { intros c Hc. unfold str_of_nat in Hc. assert (F := str_of_N_digits (N.of_nat i)).
    rewrite Forall_forall in F. auto. }
  assert (V : ~ In " "%char (nth i vs $"0") /\ ~ In "{"%char (nth i vs $"0")).
  { destruct (Nat.lt_ge_cases i (List.length vs)) as [L|L].
    - assert (In (nth i vs $"0") vs) by now apply nth_In. rewrite Forall_forall in H7.
      apply H7 in H. tauto.
    - rewrite nth_overflow by auto. split; intros [E|[]]; discriminate. }
  split; intros Hx; apply in_app_or in Hx as [Hx|Hx]; auto;
    apply in_app_or in Hx as [Hx|Hx];
    try (apply D in Hx; discriminate);
    apply in_app_or in Hx as [Hx|Hx];
    try (destruct Hx as [Hx|[]]; discriminate); tauto.
Qed.

(** Main round trip: every array becomes its columns, text is untouched. *)
Lemma explode_gen lens (L : str -> nat) : (forall n, lens n = Some (L n)) ->
  forall segs done fuel, Forall seg_ok segs ->
  Forall (fun w => ~ In " "%char w /\ ~ In "{"%char w) done ->
  (List.length (filter is_arr segs) < fuel)%nat ->
  explode_array fuel lens (join $" " (done ++ map seg_str segs)) =
  Ok (join $" " (done ++ flat_map (expand L) segs)).
Proof.
  intros HL. induction segs as [|g segs IH]; intros done fuel Hs Hd Hf.
  - cbn [map flat_map]. rewrite !app_nil_r. destruct fuel; [lia|]. cbn [explode_array].
    rewrite step_none; auto. apply vals_noc; [discriminate|]. eapply Forall_impl; [|exact Hd]. cbv beta. tauto.
  - inversion Hs as [|? ? Hg Hs']; subst. destruct g as [w|n vs].
    + specialize (IH (done ++ [w]) fuel). rewrite <- !app_assoc in IH. apply IH; auto.
      apply Forall_app. split; auto.
    + cbn [filter is_arr List.length] in Hf. destruct fuel as [|fuel]; [lia|]. cbn [explode_array].
      assert (E : exists a b, join $" " (done ++ map seg_str (SArr n vs :: segs))
                  = a ++ seg_str (SArr n vs) ++ b /\ ~ In "{"%char a /\ bl_end a /\ bl_start b /\
                  a ++ join $" " (cols n vs (L n)) ++ b
                  = join $" " ((done ++ cols n vs (L n)) ++ map seg_str segs)).
      { exists (match done with [] => [] | _ => join $" " done ++ $" " end).
        exists (match segs with [] => [] | _ => $" " ++ join $" " (map seg_str segs) end).
        assert (Hdn : ~ In "{"%char (join $" " done)).
        { apply vals_noc; [discriminate|]. eapply Forall_impl; [|exact Hd]. cbv beta. tauto. }
        assert (Hc : cols n vs (L n) <> []) by (apply cols_nonnil; apply Hg).
        cbn [map].
        assert (R : forall X : list str, X <> [] -> join $" " (X ++ map seg_str segs)
                    = join $" " X ++ match segs with [] => [] | _ => $" " ++ join $" " (map seg_str segs) end).
        { intros X HX. destruct segs as [|g' segs']; [cbn [map]; now rewrite !app_nil_r|].
          rewrite join_app; auto. discriminate. }
        assert (Q : forall X : list str, X <> [] -> join $" " (done ++ X)
                    = match done with [] => [] | _ => join $" " done ++ $" " end ++ join $" " X).
        { intros X HX. destruct done as [|d done']; [reflexivity|].
          rewrite join_app; [now rewrite <- app_assoc|discriminate|auto]. }
        repeat split.
        - rewrite Q by discriminate. f_equal.
          exact (R [seg_str (SArr n vs)] ltac:(discriminate)).
        - destruct done; [intros []|]. intros Hi. apply in_app_or in Hi as [Hi|[Hi|[]]]; [auto|discriminate].
        - destruct done; [now left|]. right. eexists. reflexivity.
        - destruct segs; [now left|]. right. eexists. reflexivity.
        - rewrite R by (destruct done; auto; discriminate). rewrite Q by auto.
          now rewrite <- app_assoc. }
      destruct E as (a & b & -> & Ha & Hba & Hb & E).
      rewrite (step_array lens a n vs b (L n)); auto. rewrite E. cbn [flat_map expand].
      rewrite app_assoc. apply IH; auto; [|lia].
      apply Forall_app. split; auto. now apply cols_ok.
Qed.
Lemma explode_render lens (L : str -> nat) segs fuel : (forall n, lens n = Some (L n)) ->
  Forall seg_ok segs -> (List.length (filter is_arr segs) < fuel)%nat ->
  explode_array fuel lens (render segs) = Ok (join $" " (flat_map (expand L) segs)).
Proof. intros HL Hs Hf. exact (explode_gen lens L HL segs [] fuel Hs ltac:(constructor) Hf). Qed.
