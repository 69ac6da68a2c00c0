(** File choice and header metadata. *)
From Coq Require Import List Ascii String ZArith NArith Bool Lia.
From Verif Require Import Lib.PyStr Lib.PyStrFacts Lib.Regex Lib.RegexFacts Lib.SearchFacts Model.Line Model.Files
  Spec.Lines Proofs.LineP Spec.Files.
From Verif Require Proofs.LineReadP.
Import ListNotations.
Local Open Scope list_scope.

(** ** splitext *)
Lemma rsplit_Some sep s a b : rsplit sep s = Some (a, b) <-> s = a ++ sep :: b /\ ~ In sep b.
Proof.
  revert a b. induction s as [|c s IH]; intros a b; cbn [rsplit].
  - split; [discriminate|]. intros [H _]. destruct a; discriminate.
  - destruct (rsplit sep s) as [[a' b']|] eqn:E.
    + pose proof (proj1 (IH a' b') eq_refl) as [E1 E2]. split.
      * intros H. injection H as <- <-. subst s. auto.
      * intros [H1 H2]. destruct a as [|x a]; cbn in H1; injection H1 as -> H1.
        -- subst b. rewrite E1 in H2. exfalso. apply H2. apply in_or_app. right. now left.
        -- pose proof (proj2 (IH a b) (conj H1 H2)) as X. injection X as -> ->. reflexivity.
    + destruct (Ascii.eqb_spec c sep) as [->|Hc].
      * split.
        -- intros H. injection H as <- <-. split; auto. intros Hi. apply in_split in Hi as (u & v & Hs).
           assert (X : forall w, exists a b, w ++ sep :: v = a ++ sep :: b /\ ~ In sep b).
           { intros w. clear - w. revert w. assert (Hd : forall v : str, (~ In sep v) \/ exists a b, v = a ++ sep :: b /\ ~ In sep b).
             { clear v. induction v as [|y v IH]; [left; auto|]. destruct IH as [IH|(a & b & -> & Hb)].
               - destruct (ascii_dec y sep) as [->|Hy]; [right; exists [], v; auto|]. left. intros [H|H]; auto.
               - right. exists (y :: a), b. auto. }
             intros w. destruct (Hd v) as [H|(a & b & -> & Hb)]; [exists w, v; auto|]. exists (w ++ sep :: a), b. rewrite <- app_assoc. auto. }
           destruct (X u) as (a & b & H1 & H2). rewrite <- Hs in H1. pose proof (proj2 (IH a b) (conj H1 H2)). congruence.
        -- intros [H1 H2]. destruct a as [|x a]; cbn in H1; [injection H1 as ->; auto|]. injection H1 as -> H1.
           pose proof (proj2 (IH a b) (conj H1 H2)). congruence.
      * split; [discriminate|]. intros [H1 H2]. destruct a as [|x a]; cbn in H1; injection H1 as -> H1; [congruence|].
        pose proof (proj2 (IH a b) (conj H1 H2)). congruence.
Qed.
Lemma rsplit_None sep s : rsplit sep s = None <-> ~ In sep s.
Proof.
  induction s as [|c s IH]; cbn [rsplit]; [split; auto|]. destruct (rsplit sep s) as [[a b]|] eqn:E.
  - apply rsplit_Some in E as [-> H]. split; [discriminate|]. intros Hn. exfalso. apply Hn. right. apply in_or_app. right. now left.
  - destruct (Ascii.eqb_spec c sep) as [->|Hc]; split; try discriminate.
    + intros H. exfalso. apply H. now left.
    + intros _ [H|H]; [auto|]. now apply IH.
    + auto.
Qed.
Lemma split_dir d n : dir_part d -> component n ->
  (match rsplit "/" (d ++ n) with Some (a, b) => (a ++ $"/", b) | None => ([], d ++ n) end) = (d, n).
Proof.
  intros [->|(a & ->)] Hn.
  - cbn [app]. rewrite (proj2 (rsplit_None "/" n)) by exact Hn. reflexivity.
  - rewrite (proj2 (rsplit_Some "/" ((a ++ $"/") ++ n) a n)); [reflexivity|]. split; [now rewrite <- app_assoc|exact Hn].
Qed.
Lemma dots_is l : dots l -> Forall (fun c => is_ch "." c = true) l.
Proof. intros H. eapply Forall_impl; [|exact H]. cbv beta. intros c ->. reflexivity. Qed.
Lemma take_dots l r : dots l -> match r with [] => True | c :: _ => c <> "."%char end ->
  take_while (is_ch ".") (l ++ r) = l /\ drop_while (is_ch ".") (l ++ r) = r.
Proof.
  intros H Hr. induction H as [|c l -> _ IH]; cbn [app take_while drop_while].
  - destruct r as [|c r]; auto. cbn [take_while drop_while]. unfold is_ch. destruct (Ascii.eqb_spec "." c); [congruence|auto].
  - change (is_ch "." ".") with true. destruct IH as [-> ->]. auto.
Qed.
Lemma splitext_stem p root : Stem p root -> splitext_root p = root.
Proof.
  intros [d l c b e Hd Hc Hl Hx [He1 He2]|d l r Hd Hc Hl Hr]; unfold splitext_root.
  - assert (Hcomp : component (l ++ c :: b ++ $"." ++ e)).
    { unfold component in *. change ($".") with ["."%char]. rewrite in_app_iff in *. cbn [In] in *. rewrite !in_app_iff in *. cbn [In]. intros [H|[H|[H|[[H|[]]|H]]]]; try discriminate; tauto. }
    rewrite split_dir by auto. cbv iota. destruct (take_dots l (c :: b ++ $"." ++ e) Hl Hx) as [-> ->].
    rewrite (proj2 (rsplit_Some "." (c :: b ++ $"." ++ e) (c :: b) e)); auto.
  - rewrite split_dir by auto. cbv iota.
    assert (Hh : match r with [] => True | c :: _ => c <> "."%char end) by (destruct r; auto; intros ->; apply Hr; now left).
    destruct (take_dots l r Hl Hh) as [-> ->]. now rewrite (proj2 (rsplit_None "." r)).
Qed.
Lemma Stem_total p : exists root, Stem p root.
Proof.
  assert (Hd : exists d n, p = d ++ n /\ dir_part d /\ component n).
  { destruct (rsplit "/" p) as [[a b]|] eqn:E.
    - apply rsplit_Some in E as [-> H]. exists (a ++ $"/"), b. split; [now rewrite <- app_assoc|]. split; auto. right. eauto.
    - exists [], p. split; auto. split; [now left|]. now apply rsplit_None. }
  destruct Hd as (d & n & -> & Hd & Hn).
  pose proof (take_drop_while (is_ch ".") n) as E. pose proof (take_while_Forall (is_ch ".") n) as Hl. pose proof (drop_while_hd (is_ch ".") n) as Hh.
  set (l := take_while (is_ch ".") n) in *. set (r := drop_while (is_ch ".") n) in *. clearbody l r. subst n.
  assert (Hl' : dots l) by (eapply Forall_impl; [|exact Hl]; cbv beta; intros c Hc; now apply is_ch_eq in Hc).
  destruct (rsplit "." r) as [[b e]|] eqn:Er.
  - apply rsplit_Some in Er as [-> He]. destruct b as [|c b]; [specialize (Hh _ _ eq_refl); discriminate|]. cbn [app] in *.
    specialize (Hh _ _ eq_refl). exists (d ++ l ++ c :: b). apply Stem_ext; auto.
    + unfold component in *. rewrite in_app_iff in *. cbn [In] in *. rewrite in_app_iff in Hn. tauto.
    + intros ->. discriminate.
    + split; auto. unfold component in Hn. rewrite in_app_iff in Hn. cbn [In] in Hn. rewrite in_app_iff in Hn. cbn [In] in Hn. tauto.
  - eexists. apply Stem_none; auto. now apply rsplit_None.
Qed.
Lemma splitext_iff p root : splitext_root p = root <-> Stem p root.
Proof. split; [|apply splitext_stem]. intros <-. destruct (Stem_total p) as (r & H). now rewrite (splitext_stem _ _ H). Qed.
Lemma dir_part_dec p : {dir_part p} + {~ dir_part p}.
Proof.
  destruct p as [|c p]; [left; now left|]. destruct (is_suffix $"/" (c :: p)) eqn:E; [left|right].
  - right. apply is_suffix_spec in E as (r & E). eauto.
  - intros [H|(a & H)]; [discriminate|]. assert (is_suffix $"/" (c :: p) = true) by (apply is_suffix_spec; eauto). congruence.
Qed.
Lemma join_iff base stem : join_trace base = stem <-> InDir base stem.
Proof.
  assert (G : (dir_part base -> join_trace base = base ++ $"trace") /\ (~ dir_part base -> join_trace base = base ++ $"/trace")).
  { unfold join_trace. destruct base as [|c p]; [split; [reflexivity|]; intros H; exfalso; apply H; now left|].
    destruct (is_suffix $"/" (c :: p)) eqn:E; split; intros H; auto; exfalso.
    - apply H. right. apply is_suffix_spec in E as (r & E). eauto.
    - destruct H as [H|(a & H)]; [discriminate|]. assert (is_suffix $"/" (c :: p) = true) by (apply is_suffix_spec; eauto). congruence. }
  destruct G as [G1 G2]. split.
  - intros <-. split; auto.
  - intros [H1 H2]. destruct (dir_part_dec base) as [Hd|Hd]; [rewrite H1|rewrite H2]; auto.
Qed.
Lemma named_iff (isfile : str -> bool) base stem : (if isfile base then splitext_root base else join_trace base) = stem <-> Named isfile base stem.
Proof.
  unfold Named. destruct (isfile base); rewrite ?splitext_iff, ?join_iff; intuition discriminate.
Qed.
Lemma process_path_named (isfile : str -> bool) base stem : Named isfile base stem ->
  process_path isfile base =
  (if isfile (stem ++ $".dat") then Ok (stem ++ $".dat", true)
   else if isfile (stem ++ $".txt") then Ok (stem ++ $".txt", false)
   else if isfile (stem ++ $".raw.txt") then Err ERuntime else Err EIO).
Proof. intros H. apply named_iff in H. unfold process_path. now rewrite H. Qed.
Lemma named_total (isfile : str -> bool) base : exists stem, Named isfile base stem.
Proof. eexists. apply named_iff. reflexivity. Qed.
Lemma Stem_unique p r1 r2 : Stem p r1 -> Stem p r2 -> r1 = r2.
Proof. intros H1 H2. apply splitext_stem in H1, H2. congruence. Qed.

(** ** Header metadata *)
Lemma search_from_bos r pre c s : search_from (RSeq RBos r) pre (Some c) s = None.
Proof. revert pre c. induction s as [|d s IH]; intros pre c; cbn [search_from mt s_prev]; auto. Qed.
Lemma search_bos r s : re_search (RSeq RBos r) s = mt r (St None s []) (fun s' => Some (mk_res [] s s')).
Proof.
  unfold re_search. destruct s as [|c s]; cbn [search_from].
  - change (mt (RSeq RBos r) ?s ?k) with (mt r s k). now destruct (mt r _ _).
  - rewrite search_from_bos. change (mt (RSeq RBos r) ?s ?k) with (mt r s k). now destruct (mt r _ _).
Qed.
Lemma lit_None {A} l s (k : st -> option A) : (forall r, s_rest s <> l ++ r) -> mt (RLit l) s k = None.
Proof. intros H. apply mt_None. intros s' Hm. apply mat_lit in Hm as (E & _). destruct (H _ E). Qed.
Lemma alt_step {A} keys key s rest (k : st -> option A) x : In key keys -> s_rest s = key ++ rest ->
  Forall (fun k' => k' = key \/ forall r, s_rest s <> k' ++ r) keys ->
  k (adv s key rest) = Some x -> mt (alternatives keys) s k = Some x.
Proof.
  intros Hin E Hf Hk. induction keys as [|k1 keys IH]; [destruct Hin|]. inversion Hf as [|? ? H1 H2]; subst.
  assert (Hstep : k1 = key -> mt (RLit k1) s k = Some x) by (intros ->; now rewrite (lit_step key s rest k E)).
  destruct keys as [|k2 keys].
  - destruct Hin as [H|[]]. now apply Hstep.
  - change (alternatives (k1 :: k2 :: keys)) with (RAlt (RLit k1) (alternatives (k2 :: keys))).
    change (mt (RAlt ?r1 ?r2) s k) with (match mt r1 s k with Some y => Some y | None => mt r2 s k end).
    destruct H1 as [H1|H1]; [now rewrite (Hstep H1)|]. rewrite lit_None by exact H1. apply IH; auto.
    destruct Hin as [->|Hin]; auto. destruct (H1 _ E).
Qed.
Lemma mat_alternatives keys s s' : keys <> [] -> mat (alternatives keys) s s' ->
  exists k, In k keys /\ s_rest s = k ++ s_rest s' /\ s_caps s' = s_caps s.
Proof.
  induction keys as [|k1 keys IH]; intros Hn H; [congruence|]. destruct keys as [|k2 keys].
  - apply mat_lit in H as (E & _ & C). exists k1. repeat split; auto. now left.
  - change (alternatives (k1 :: k2 :: keys)) with (RAlt (RLit k1) (alternatives (k2 :: keys))) in H.
    apply mat_alt_inv in H as [H|H].
    + apply mat_lit in H as (E & _ & C). exists k1. repeat split; auto. now left.
    + destruct IH as (k & Hk & E & C); auto; [discriminate|]. exists k. repeat split; auto. now right.
Qed.

Definition known (k : str) : Prop := k = $"version" \/ k = $"cpus".
Lemma known_both : Forall known [$"version"; $"cpus"].
Proof. constructor; [now left|constructor; [now right|constructor]]. Qed.
Lemma known_head k : known k -> exists c r, k = c :: r /\ is_word c = true.
Proof. intros [->| ->]; vm_compute; eauto. Qed.
Lemma known_last k o : known k -> opt_word (last_or o k) = true.
Proof. intros [->| ->]; reflexivity. Qed.
Lemma known_prefix k k' a b : known k -> known k' -> k ++ a = k' ++ b -> k = k'.
Proof. intros [->| ->] [->| ->] H; auto; discriminate. Qed.
Lemma space_not_word c : is_space c = true -> is_word c = false.
Proof. ascii_enum c. Qed.
Lemma digit_not_space c : is_digit c = true -> is_space c = false.
Proof. ascii_enum c. Qed.
Lemma eq_not_space : is_space "=" = false. Proof. reflexivity. Qed.

Definition meta_tail : re := RSeqs [RWb; RStar (RCls is_space); RLit $"="; RStar (RCls is_space); RGrp 2 (RPlus (RCls is_digit))].
Lemma pat_meta_eq keys : pat_meta keys = RSeq RBos (RSeq RWb (RSeq (RGrp 1 (alternatives keys)) meta_tail)).
Proof. reflexivity. Qed.
Definition kv (o : option mres) : option (option str * option str) :=
  match o with Some m => Some (group 1 m, group 2 m) | None => None end.
Lemma meta_hit keys key value line : Forall known keys -> In key keys -> HeaderLine key value line ->
  kv (re_search (pat_meta keys) line) = Some (Some key, Some value).
Proof.
  intros Hk Hin (sp1 & sp2 & rest & E & H1 & H2 & [Hv1 Hv2] & Hr).
  assert (Kk : known key) by (rewrite Forall_forall in Hk; auto).
  rewrite pat_meta_eq, search_bos. set (s0 := St None line []).
  change (mt (RSeq RWb ?r) s0 ?k) with (if xorb (opt_word (s_prev s0)) (opt_word (hd_error (s_rest s0))) then mt r s0 k else None).
  assert (Hw : xorb (opt_word (s_prev s0)) (opt_word (hd_error (s_rest s0))) = true).
  { cbn [s0 s_prev s_rest opt_word xorb]. destruct (known_head key Kk) as (c & r & -> & Hc). rewrite E. cbn [app hd_error opt_word]. now rewrite Hc. }
  rewrite Hw.
  change (mt (RSeq (RGrp 1 ?r1) ?r2) s0 ?k) with (mt r1 s0 (fun s' => mt r2 (cap_add 1 s0 s') k)).
  erewrite (alt_step keys key s0 (sp1 ++ $"=" ++ sp2 ++ value ++ rest)); [|exact Hin|exact E| |].
  2:{ rewrite Forall_forall in Hk. apply Forall_forall. intros k' Hk'. destruct (str_dec k' key) as [->|Hne]; [now left|].
      right. intros r Hr'. cbn [s0 s_rest] in Hr'. rewrite E in Hr'. apply Hne. symmetry. eapply known_prefix; eauto. }
  2:{ rewrite cap_add_adv by exact E. match goal with |- mt _ ?s _ = _ => set (s1 := s) end.
      unfold meta_tail. cbn [RSeqs].
      change (mt (RSeq RWb ?r) s1 ?k) with (if xorb (opt_word (s_prev s1)) (opt_word (hd_error (s_rest s1))) then mt r s1 k else None).
      assert (Hw1 : xorb (opt_word (s_prev s1)) (opt_word (hd_error (s_rest s1))) = true).
      { cbn [s1 s_prev s_rest]. rewrite known_last by auto. destruct sp1 as [|c sp1]; [reflexivity|]. inversion H1; subst.
        cbn [app hd_error opt_word]. now rewrite space_not_word. }
      rewrite Hw1.
      change (mt (RSeq (RStar ?p) ?r) s1 ?k) with (mt (RStar p) s1 (fun s' => mt r s' k)).
      apply (star_max is_space s1 sp1 ($"=" ++ sp2 ++ value ++ rest)); [reflexivity|exact H1|reflexivity|].
      change (mt (RSeq (RLit ?l) ?r) ?s ?k) with (mt (RLit l) s (fun s' => mt r s' k)).
      rewrite (lit_step $"=" _ (sp2 ++ value ++ rest)) by reflexivity.
      match goal with |- mt _ ?s _ = _ => set (s2 := s) end.
      change (mt (RSeq (RStar ?p) ?r) s2 ?k) with (mt (RStar p) s2 (fun s' => mt r s' k)).
      apply (star_max is_space s2 sp2 (value ++ rest)); [reflexivity|exact H2| |].
      { destruct value as [|c v]; [congruence|]. inversion Hv2; subst. cbn [app]. now apply digit_not_space. }
      match goal with |- mt _ ?s _ = _ => set (s3 := s) end.
      change (mt (RGrp 2 ?r1) s3 ?k) with (mt r1 s3 (fun s' => k (cap_add 2 s3 s'))).
      apply (plus_max is_digit s3 value rest); [reflexivity|exact Hv1|exact Hv2| |].
      { destruct rest as [|c r]; [exact I|]. now apply (Hr c r). }
      rewrite cap_add_adv by reflexivity. reflexivity. }
  reflexivity.
Qed.
Lemma meta_miss keys line : keys <> [] -> (forall key value, In key keys -> ~ HeaderLine key value line) ->
  re_search (pat_meta keys) line = None.
Proof.
  intros Hn Hno. rewrite pat_meta_eq, search_bos. apply mt_None. intros s' Hm. exfalso.
  apply mat_seq_inv in Hm as (s1 & HW & Hm). assert (s1 = St None line []) by now inversion HW. subst s1. clear HW.
  apply mat_seq_inv in Hm as (s2 & H2 & Hm). apply mat_grp_inv in H2 as (s2' & H2 & ->).
  apply mat_alternatives in H2 as (k & Hk & E1 & _); auto. unfold meta_tail in Hm. cbn [RSeqs] in Hm.
  apply mat_seq_inv in Hm as (s3 & HW & Hm). assert (s_rest s3 = s_rest s2') by now inversion HW. clear HW.
  apply mat_seq_inv in Hm as (s4 & H4 & Hm). apply mat_seq_inv in Hm as (s5 & H5 & Hm).
  apply mat_seq_inv in Hm as (s6 & H6 & H7). apply mat_star_cls in H4 as (u4 & E4 & F4 & _). apply mat_lit in H5 as (E5 & _).
  apply mat_star_cls in H6 as (u6 & E6 & F6 & _). apply mat_grp_inv in H7 as (s7 & H7 & ->).
  apply mat_plus_cls in H7 as (u7 & E7 & N7 & F7 & _). cbn [s_rest cap_add] in *.
  apply (Hno k (u7 ++ take_while is_digit (s_rest s7)) Hk). exists u4, u6, (drop_while is_digit (s_rest s7)).
  split.
  - rewrite <- app_assoc, take_drop_while, <- E7, <- E6, <- E5, <- E4, H. exact E1.
  - split; auto. split; auto. split.
    + split; [destruct u7; [congruence|discriminate]|]. apply Forall_app. split; auto. apply take_while_Forall.
    + intros c r Hd. now apply drop_while_hd in Hd.
Qed.
Lemma header_line_dec keys line : Forall known keys ->
  (exists key value, In key keys /\ HeaderLine key value line) \/ (forall key value, In key keys -> ~ HeaderLine key value line).
Proof.
  intros Hk. destruct keys as [|k keys]; [right; intros ? ? []|].
  destruct (re_search (pat_meta (k :: keys)) line) as [m|] eqn:E.
  - left. rewrite pat_meta_eq, search_bos in E. apply mt_sound in E as (s' & Hm & _).
    assert (Hs : ~ (forall key value, In key (k :: keys) -> ~ HeaderLine key value line)).
    { intros Hno. pose proof (meta_miss (k :: keys) line ltac:(discriminate) Hno) as X. rewrite pat_meta_eq, search_bos in X.
      apply (mt_complete _ _ _ (fun s' => Some (mk_res [] line s')) Hm); [discriminate|exact X]. }
    clear Hs.
    apply mat_seq_inv in Hm as (s1 & HW & Hm). assert (s1 = St None line []) by now inversion HW. subst s1. clear HW.
    apply mat_seq_inv in Hm as (s2 & H2 & Hm). apply mat_grp_inv in H2 as (s2' & H2 & ->).
    apply mat_alternatives in H2 as (k0 & Hk0 & E1 & _); [|discriminate]. unfold meta_tail in Hm. cbn [RSeqs] in Hm.
    apply mat_seq_inv in Hm as (s3 & HW & Hm). assert (s_rest s3 = s_rest s2') by now inversion HW. clear HW.
    apply mat_seq_inv in Hm as (s4 & H4 & Hm). apply mat_seq_inv in Hm as (s5 & H5 & Hm).
    apply mat_seq_inv in Hm as (s6 & H6 & H7). apply mat_star_cls in H4 as (u4 & E4 & F4 & _). apply mat_lit in H5 as (E5 & _).
    apply mat_star_cls in H6 as (u6 & E6 & F6 & _). apply mat_grp_inv in H7 as (s7 & H7 & ->).
    apply mat_plus_cls in H7 as (u7 & E7 & N7 & F7 & _). cbn [s_rest cap_add] in *.
    exists k0, (u7 ++ take_while is_digit (s_rest s7)). split; auto. exists u4, u6, (drop_while is_digit (s_rest s7)).
    split; [rewrite <- app_assoc, take_drop_while, <- E7, <- E6, <- E5, <- E4, H; exact E1|].
    split; auto. split; auto. split.
    + split; [destruct u7; [congruence|discriminate]|]. apply Forall_app. split; auto. apply take_while_Forall.
    + intros c r Hd. now apply drop_while_hd in Hd.
  - right. intros key value Hin Hh. pose proof (meta_hit _ _ _ _ Hk Hin Hh) as X. rewrite E in X. discriminate.
Qed.
Lemma header_line_unique k v k' v' line : known k -> known k' -> HeaderLine k v line -> HeaderLine k' v' line -> k = k' /\ v = v'.
Proof.
  intros K K' H H'. assert (Hk : Forall known [k; k']) by (constructor; [exact K|constructor; [exact K'|constructor]]).
  pose proof (meta_hit [k; k'] k v line Hk ltac:(now left) H) as E.
  pose proof (meta_hit [k; k'] k' v' line Hk ltac:(right; now left) H') as E'. rewrite E in E'. injection E' as -> ->. auto.
Qed.

Lemma trace_line_cases l : is_trace_line l = true /\ TraceLine l \/ is_trace_line l = false /\ ~ TraceLine l.
Proof. destruct (is_trace_line l) eqn:E; [left|right]; split; auto; rewrite <- LineReadP.is_trace_line_iff; congruence. Qed.
Lemma Header_total f : exists h, Header f h.
Proof.
  induction f as [|l f (h & IH)]; [exists []; constructor|]. destruct (trace_line_cases l) as [[_ E]|[_ E]]; eexists; [now apply Hd_last|eapply Hd_more; [exact E|exact IH]].
Qed.
Lemma Header_unique f : forall h1 h2, Header f h1 -> Header f h2 -> h1 = h2.
Proof.
  induction f as [|l f IH]; intros h1 h2 H1 H2; inversion H1; inversion H2; subst; auto; try contradiction. f_equal. auto.
Qed.
Lemma value_nil k v : ~ HeaderValue [] k v.
Proof. intros (h & pre & l & post & Hh & E & _). inversion Hh; subst. destruct pre; discriminate. Qed.
Lemma value_here l f k v : HeaderLine k v l -> HeaderValue (l :: f) k v.
Proof.
  intros H. destruct (Header_total (l :: f)) as (h & Hh). exists h, [], l, (tl h). split; auto. split; [inversion Hh; reflexivity|]. auto.
Qed.
Lemma value_cons l f k v : (forall v', ~ HeaderLine k v' l) ->
  (HeaderValue (l :: f) k v <-> is_trace_line l = false /\ HeaderValue f k v).
Proof.
  intros Hno. split.
  - intros (h & pre & l' & post & Hh & E & Hl & Hp). destruct pre as [|x pre]; cbn [app] in E.
    + assert (l' = l) by (inversion Hh; congruence). subst l'. destruct (Hno _ Hl).
    + subst h. inversion Hh as [|l0 f0 Ht E0 E1|l0 f0 h' Ht Hh' E0 E1]; subst.
      * destruct pre; discriminate.
      * match goal with N : ~ TraceLine ?y |- _ => split; [destruct (trace_line_cases y) as [[_ X]|[X _]]; [contradiction|exact X]|] end. exists (pre ++ l' :: post), pre, l', post. inversion Hp; subst. auto.
  - intros [Ht (h & pre & l' & post & Hh & -> & Hl & Hp)]. exists (l :: pre ++ l' :: post), (l :: pre), l', post.
    split; [apply Hd_more; auto; destruct (trace_line_cases l) as [[X _]|[_ X]]; [congruence|exact X]|]. auto.
Qed.
Lemma value_unique k v v' f : known k -> HeaderValue f k v -> HeaderValue f k v' -> v = v'.
Proof.
  intros K. induction f as [|l f IH]; intros H H'; [destruct (value_nil _ _ H)|].
  destruct (header_line_dec [k] l) as [(k0 & v0 & [<-|[]] & Hl)|Hno]; [constructor; [exact K|constructor]| |].
  - assert (G : forall w, HeaderValue (l :: f) k w -> w = v0).
    { intros w (h & pre & l' & post & Hh & E & Hl' & Hp). destruct pre as [|x pre]; cbn [app] in E.
      - assert (l' = l) by (inversion Hh; congruence). subst l'. now destruct (header_line_unique k w k v0 l).
      - assert (x = l) by (inversion Hh; congruence). subst x. inversion Hp as [|? ? Hx _]; subst. destruct (Hx v0 Hl). }
    now rewrite (G v), (G v').
  - assert (Hno' : forall v', ~ HeaderLine k v' l) by (intros w; apply Hno; now left).
    apply (value_cons l f k v Hno') in H as [_ H]. apply (value_cons l f k v' Hno') in H' as [_ H']. auto.
Qed.

Lemma loop_spec file : forall keys res, Forall known keys -> forall k,
  (In k keys -> dget eqs k res = None -> forall v, dget eqs k (metadata_loop keys res file) = Some v <-> HeaderValue file k v) /\
  (~ In k keys -> dget eqs k (metadata_loop keys res file) = dget eqs k res).
Proof.
  induction file as [|line file IH]; intros keys res Hk k.
  { cbn [metadata_loop]. split; auto. intros _ -> v. split; [discriminate|]. intros H. destruct (value_nil _ _ H). }
  cbn [metadata_loop]. destruct keys as [|k0 keys0]; [split; [intros []|auto]|].
  set (keys := k0 :: keys0) in *. assert (Hne : keys <> []) by discriminate. clearbody keys.
  destruct (header_line_dec keys line Hk) as [(k1 & v1 & Hin1 & Hl)|Hno].
  - pose proof (meta_hit keys k1 v1 line Hk Hin1 Hl) as Hm. destruct (re_search (pat_meta keys) line) as [m|]; [|discriminate].
    cbn [kv] in Hm. injection Hm as Hm1 Hm2. rewrite Hm1, Hm2. cbv iota.
    set (keys' := filter (fun k' => negb (eqs k1 k')) keys).
    assert (Hin' : forall x, In x keys' <-> In x keys /\ x <> k1).
    { intros x. unfold keys'. rewrite filter_In, negb_true_iff. rewrite eqs_neq. intuition congruence. }
    assert (Hk' : Forall known keys').
    { rewrite Forall_forall in *. intros x Hx. apply Hk. now apply Hin' in Hx. }
    assert (Kk1 : known k1) by (rewrite Forall_forall in Hk; auto).
    destruct (IH keys' (dset eqs k1 v1 res) Hk' k) as [IH1 IH2].
    split.
    + intros Hin Hnone v. assert (Kk : known k) by (rewrite Forall_forall in Hk; auto).
      destruct (str_dec k k1) as [->|Hd].
      * assert (Hg : dget eqs k1 (if is_trace_line line then dset eqs k1 v1 res else metadata_loop keys' (dset eqs k1 v1 res) file) = Some v1).
        { destruct (is_trace_line line).
          - rewrite (dget_dset eqs eqs_eq), eqs_refl. reflexivity.
          - rewrite IH2; [rewrite (dget_dset eqs eqs_eq), eqs_refl; reflexivity|]. intros X. apply Hin' in X. tauto. }
        rewrite Hg. split.
        -- intros X. injection X as <-. now apply value_here.
        -- intros Hv. f_equal. eapply value_unique; [exact Kk1|apply value_here; exact Hl|exact Hv].
      * assert (Hno : forall v', ~ HeaderLine k v' line).
        { intros v' H. apply Hd. now destruct (header_line_unique k v' k1 v1 line). }
        rewrite (value_cons line file k v Hno). assert (Hg : dget eqs k (dset eqs k1 v1 res) = None).
        { rewrite (dget_dset eqs eqs_eq). rewrite (proj2 (eqs_neq k k1)); auto. }
        destruct (is_trace_line line).
        -- rewrite Hg. split; [discriminate|]. intros [X _]. discriminate.
        -- rewrite IH1; auto; [|apply Hin'; auto]. tauto.
    + intros Hnin. assert (Hd : k <> k1) by congruence.
      assert (Hg : dget eqs k (dset eqs k1 v1 res) = dget eqs k res) by (rewrite (dget_dset eqs eqs_eq), (proj2 (eqs_neq k k1)); auto).
      destruct (is_trace_line line); auto. rewrite IH2; auto. intros X. apply Hin' in X. tauto.
  - rewrite meta_miss by auto. cbv iota. destruct (IH keys res Hk k) as [IH1 IH2]. split.
    + intros Hin Hnone v. rewrite (value_cons line file k v) by (intros v'; now apply Hno).
      destruct (is_trace_line line); [rewrite Hnone; split; [discriminate|intros [X _]; discriminate]|]. rewrite IH1; auto. tauto.
    + intros Hnin. destruct (is_trace_line line); auto.
Qed.
Lemma metadata_spec file k v : known k -> (dget eqs k (trace_metadata file) = Some v <-> HeaderValue file k v).
Proof.
  intros Hk. unfold trace_metadata. apply loop_spec; auto.
  - exact known_both.
  - destruct Hk as [->| ->]; cbn; auto.
Qed.
Lemma metadata_only file k v : dget eqs k (trace_metadata file) = Some v -> known k.
Proof.
  intros H. destruct (str_dec k $"version") as [->|H1]; [now left|]. destruct (str_dec k $"cpus") as [->|H2]; [now right|].
  unfold trace_metadata in H. rewrite (proj2 (loop_spec file [$"version"; $"cpus"] [] known_both k)) in H; [discriminate|].
  intros [E|[E|[]]]; congruence.
Qed.
Lemma metadata_after pre l post post' : is_trace_line l = true -> trace_metadata (pre ++ l :: post) = trace_metadata (pre ++ l :: post').
Proof.
  intros Hl. unfold trace_metadata. generalize [$"version"; $"cpus"] as keys. generalize (@nil (str * str)) as res.
  induction pre as [|x pre IH]; intros res keys; cbn [app metadata_loop].
  - destruct keys; auto. rewrite Hl. reflexivity.
  - destruct keys as [|k0 keys0]; auto. destruct (match re_search _ _ with Some _ => _ | None => _ end) as [keys' res'].
    destruct (is_trace_line x); auto.
Qed.
Lemma metadata_after_line pre l post post' : TraceLine l -> trace_metadata (pre ++ l :: post) = trace_metadata (pre ++ l :: post').
Proof. intros H. apply metadata_after. now apply LineReadP.is_trace_line_iff. Qed.
Lemma choice isfile base p dat : process_path isfile base = Ok (p, dat) <->
  exists stem, Named isfile base stem /\ isfile p = true /\
    ((dat = true /\ p = stem ++ $".dat") \/ (dat = false /\ p = stem ++ $".txt" /\ isfile (stem ++ $".dat") = false)).
Proof.
  destruct (named_total isfile base) as (stem & Hs). rewrite (process_path_named _ _ _ Hs). split.
  - intros H. exists stem. split; auto. destruct (isfile (stem ++ $".dat")) eqn:E1.
    { injection H as <- <-. auto. }
    destruct (isfile (stem ++ $".txt")) eqn:E2; [injection H as <- <-; auto|]. destruct (isfile (stem ++ $".raw.txt")); discriminate.
  - intros (stem' & Hs' & Hp & H). assert (stem' = stem) by (apply named_iff in Hs, Hs'; congruence). subst stem'.
    destruct H as [[-> ->]|(-> & -> & E)]; [now rewrite Hp|now rewrite E, Hp].
Qed.
Lemma choice_fails isfile base : (exists e, process_path isfile base = Err e) <->
  exists stem, Named isfile base stem /\ isfile (stem ++ $".dat") = false /\ isfile (stem ++ $".txt") = false.
Proof.
  destruct (named_total isfile base) as (stem & Hs). rewrite (process_path_named _ _ _ Hs). split.
  - intros (e & H). exists stem. split; auto. destruct (isfile (stem ++ $".dat")); [discriminate|]. destruct (isfile (stem ++ $".txt")); [discriminate|auto].
  - intros (stem' & Hs' & E1 & E2). assert (stem' = stem) by (apply named_iff in Hs, Hs'; congruence). subst stem'. rewrite E1, E2.
    destruct (isfile (stem ++ $".raw.txt")); eauto.
Qed.
Lemma plain_stem p e : plain p -> extension e -> Stem (p ++ $"." ++ e) p.
Proof.
  intros (d & l & c & b & -> & Hd & Hc & Hl & Hx) He. replace ((d ++ l ++ c :: b) ++ $"." ++ e) with (d ++ l ++ c :: b ++ $"." ++ e).
  - now apply Stem_ext.
  - rewrite <- !app_assoc. reflexivity.
Qed.
Lemma ext_dat : extension $"dat". Proof. split; vm_compute; intuition discriminate. Qed.
Lemma ext_txt : extension $"txt". Proof. split; vm_compute; intuition discriminate. Qed.
Lemma given_dat isfile p : plain p -> isfile (p ++ $".dat") = true -> process_path isfile (p ++ $".dat") = Ok (p ++ $".dat", true).
Proof.
  intros Hp Hf. apply choice. exists p. split; [left; split; auto; exact (plain_stem p $"dat" Hp ext_dat)|]. auto.
Qed.
Lemma given_txt isfile p : plain p -> isfile (p ++ $".txt") = true ->
  process_path isfile (p ++ $".txt") = if isfile (p ++ $".dat") then Ok (p ++ $".dat", true) else Ok (p ++ $".txt", false).
Proof.
  intros Hp Hf. rewrite (process_path_named isfile _ p).
  - rewrite Hf. reflexivity.
  - left. split; auto. exact (plain_stem p $"txt" Hp ext_txt).
Qed.
Lemma app_inv_same (a b c : str) : a ++ b = a ++ c -> b = c.
Proof. apply app_inv_head. Qed.
Lemma given_other isfile p e dat q : plain p -> extension e -> e <> $"dat" -> e <> $"txt" -> isfile (p ++ $"." ++ e) = true ->
  process_path isfile (p ++ $"." ++ e) = Ok (q, dat) -> q <> p ++ $"." ++ e /\ (q = p ++ $".dat" \/ q = p ++ $".txt").
Proof.
  intros Hp He H1 H2 Hf H. assert (Hn : Named isfile (p ++ $"." ++ e) p) by (left; split; auto; now apply plain_stem).
  rewrite (process_path_named isfile _ p Hn) in H.
  assert (Q : q = p ++ $".dat" \/ q = p ++ $".txt").
  { destruct (isfile (p ++ $".dat")); [injection H as <- _; auto|]. destruct (isfile (p ++ $".txt")); [injection H as <- _; auto|].
    destruct (isfile (p ++ $".raw.txt")); discriminate. }
  split; auto. intros ->. destruct Q as [Q|Q]; apply app_inv_same in Q; [apply H1|apply H2]; now injection Q.
Qed.
