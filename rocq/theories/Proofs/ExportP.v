(** Proofs about the notebook export filter. *)
From Coq Require Import List Ascii String ZArith NArith Bool Lia Arith.
From Verif Require Import Lib.PyStr Lib.PyStrFacts Lib.Regex Lib.RegexFacts Lib.SearchFacts.
From Verif Require Import Spec.Events Proofs.EventsP Model.Export Spec.Export.
Import ListNotations.
Local Notation concat := List.concat.

(** ** Directives *)
Lemma not_quote_dq l : Forall (fun c => not_quote c = true) l <-> ~ In dq l.
Proof.
  unfold not_quote. rewrite Forall_forall. split.
  - intros H Hi. apply H in Hi. discriminate.
  - intros H c Hc. apply negb_true_iff, ascii_eqb_neq. intros ->. exact (H Hc).
Qed.
Definition dir_pat (open close : str) : re := RSeqs [RLit open; RGrp 1 (RPlus (RCls not_quote)); RLit (quote :: close)].
Definition DirAt (open close : str) (call rest f : str) : Prop :=
  f <> [] /\ ~ In dq f /\ call = open ++ f ++ quote :: close.
Definition dir_Q (s' : st) (f : str) : Prop := s_caps s' = [(1, f)].
Lemma dir_hit open close prev pre call rest f : DirAt open close call rest f -> exists s',
  mt (dir_pat open close) (St prev (call ++ rest) []) (fun s' => Some (mk_res pre (call ++ rest) s')) = Some (mk_res pre (call ++ rest) s') /\ dir_Q s' f.
Proof.
  intros (Hn & Hq & ->). eexists. split.
  - rewrite <- !app_assoc. cbn [app]. unfold dir_pat. cbn [RSeqs]. set (final := fun s' => _).
    set (r1 := quote :: close ++ rest).
    match goal with |- mt (RSeq ?a ?b) ?s ?k = _ => change (mt (RSeq a b) s k) with (mt a s (fun s' => mt b s' k)) end.
    rewrite (lit_step open _ (f ++ r1)) by reflexivity.
    match goal with |- mt (RSeq (RGrp 1 ?r1) ?r2) ?s ?k = _ => set (s1 := s);
      change (mt (RSeq (RGrp 1 r1) r2) s1 k) with (mt r1 s1 (fun s' => mt r2 (cap_add 1 s1 s') k)) end.
    apply (plus_max not_quote s1 f r1); [reflexivity|exact Hn|now apply not_quote_dq|reflexivity|].
    rewrite cap_add_adv by reflexivity.
    match goal with |- mt _ ?s _ = _ => set (s7 := s) end.
    rewrite (lit_step (quote :: close) s7 rest) by reflexivity. unfold final. reflexivity.
  - reflexivity.
Qed.
Lemma mat_seq_inv r1 r2 s s' : mat (RSeq r1 r2) s s' -> exists s1, mat r1 s s1 /\ mat r2 s1 s'.
Proof. intros H. inversion H; subst. eauto. Qed.
Lemma mat_grp_inv n r s s' : mat (RGrp n r) s s' -> exists s1, mat r s s1 /\ s' = cap_add n s s1.
Proof. intros H. inversion H; subst. eauto. Qed.
Lemma dir_inv open close prev b s' : mat (dir_pat open close) (St prev b []) s' -> exists call rest f, b = call ++ rest /\ DirAt open close call rest f.
Proof.
  unfold dir_pat. intros H. change (RSeqs _) with (RSeq (RLit open) (RSeq (RGrp 1 (RPlus (RCls not_quote))) (RLit (quote :: close)))) in H.
  apply mat_seq_inv in H as (s1 & H1 & H). apply mat_seq_inv in H as (s2 & H2 & H3). apply mat_grp_inv in H2 as (s3 & H2 & ->).
  apply mat_lit in H1 as (E1 & _ & _). apply mat_lit in H3 as (E3 & _ & _). apply mat_plus_cls in H2 as (u & E & Hn & Hu & _ & _).
  cbn [s_rest cap_add] in *. exists (open ++ u ++ quote :: close), (s_rest s'), u. split.
  - rewrite E1, E, E3. rewrite <- !app_assoc. reflexivity.
  - split; auto. split; auto. now apply not_quote_dq.
Qed.

Lemma dir_some open close l m : re_search (dir_pat open close) l = Some m ->
  exists f, group 1 m = Some f /\ FirstAt (DirAt open close) l f.
Proof.
  intros H. pose proof H as H'.
  apply (search_some _ (DirAt open close) dir_Q (dir_hit open close) (dir_inv open close)) in H' as (f & Hf).
  exists f. split; auto.
  apply (search_first _ (DirAt open close) dir_Q (dir_hit open close) (dir_inv open close)) in Hf as (pre & b & s' & E & Q).
  rewrite E in H. injection H as <-. unfold group, mk_res. cbn [m_caps]. now rewrite Q.
Qed.
Lemma dir_fun open close l f : FirstAt (DirAt open close) l f ->
  exists m, re_search (dir_pat open close) l = Some m /\ group 1 m = Some f.
Proof.
  intros H. apply (search_first _ (DirAt open close) dir_Q (dir_hit open close) (dir_inv open close)) in H as (pre & b & s' & E & Q).
  eexists. split; [exact E|]. unfold group, mk_res. cbn [m_caps]. now rewrite Q.
Qed.

Lemma import_at call rest f : ImportAt call rest f <-> DirAt ($"/* TRAPPY_PUBLISH_IMPORT = " ++ [quote]) $" */" call rest f.
Proof. unfold ImportAt, DirAt. now rewrite <- !app_assoc. Qed.
Lemma source_at call rest f : SourceAt call rest f <-> DirAt ($"<!-- TRAPPY_PUBLISH_SOURCE_LIB = " ++ [quote]) $" -->" call rest f.
Proof. unfold SourceAt, DirAt. now rewrite <- !app_assoc. Qed.
Lemma FirstAt_iff {A} (P Q : str -> str -> A -> Prop) s x : (forall a b y, P a b y <-> Q a b y) -> FirstAt P s x <-> FirstAt Q s x.
Proof.
  intros H. split; intros (pre & call & post & E & HP & Hf); exists pre, call, post; (split; [exact E|]); (split; [now apply H|]);
    intros a b c d y E' HQ; apply (Hf a b c d y E'); now apply H.
Qed.
Lemma imports_iff l f : Imports l f <-> exists m, re_search pat_import l = Some m /\ group 1 m = Some f.
Proof.
  unfold Imports. rewrite (FirstAt_iff _ _ _ _ import_at). split.
  - apply dir_fun.
  - intros (m & E & G). apply dir_some in E as (f' & G' & H). congruence.
Qed.
Lemma imports_some l m : re_search pat_import l = Some m -> exists f, group 1 m = Some f /\ Imports l f.
Proof.
  intros E. pose proof E as E'. apply dir_some in E' as (f & G & _). exists f. split; auto. apply imports_iff. eauto.
Qed.
Lemma imports_fun l f f' : Imports l f -> Imports l f' -> f = f'.
Proof. intros (m & E & G)%imports_iff (m' & E' & G')%imports_iff. congruence. Qed.
Lemma first_source l f : FirstAt SourceAt l f <-> exists m, re_search pat_source l = Some m /\ group 1 m = Some f.
Proof.
  rewrite (FirstAt_iff _ _ _ _ source_at). split.
  - apply dir_fun.
  - intros (m & E & G). apply dir_some in E as (f' & G' & H). congruence.
Qed.
Lemma sources_iff l u : Sources l u <-> re_search pat_import l = None /\ exists m, re_search pat_source l = Some m /\ group 1 m = Some u.
Proof.
  unfold Sources. rewrite first_source. split; intros [A B]; split; auto.
  - destruct (re_search pat_import l) as [m|] eqn:E; auto. apply imports_some in E as (f & _ & H). now apply B in H.
  - intros f (m & E & _)%imports_iff. congruence.
Qed.
Lemma sources_fun l u u' : Sources l u -> Sources l u' -> u = u'.
Proof. intros (_ & m & E & G)%sources_iff (_ & m' & E' & G')%sources_iff. congruence. Qed.
Lemma source_some l m : re_search pat_import l = None -> re_search pat_source l = Some m -> exists u, group 1 m = Some u /\ Sources l u.
Proof.
  intros N E. pose proof E as E'. apply dir_some in E' as (f & G & _). exists f. split; auto. apply sources_iff. eauto.
Qed.
Lemma plain_iff l : Plain l <-> re_search pat_import l = None /\ re_search pat_source l = None.
Proof.
  split.
  - intros [A B]. assert (N : re_search pat_import l = None).
    { destruct (re_search pat_import l) as [m|] eqn:E; auto. apply imports_some in E as (f & _ & H). now apply A in H. }
    split; auto. destruct (re_search pat_source l) as [m|] eqn:E; auto.
    apply (source_some l m N) in E as (u & _ & H). now apply B in H.
  - intros [A B]. split.
    + intros f (m & E & _)%imports_iff. congruence.
    + intros u (_ & m & E & _)%sources_iff. congruence.
Qed.

(** ** Files *)
Lemma file_of_iff base f p : FileOf base f p <-> p = path_join base f.
Proof.
  unfold path_join. assert (R : forall f, is_prefix $"/" f = match f with "/"%char :: _ => true | _ => false end).
  { intros [|c r]; [reflexivity|]. cbn. destruct c as [[] [] [] [] [] [] [] []]; reflexivity. }
  rewrite R.
  assert (G : (base = [] \/ (exists b, base = b ++ $"/")) /\ p = base ++ f \/
         base <> [] /\ (forall b, base <> b ++ $"/") /\ p = base ++ $"/" ++ f <->
         p = if eqs base [] || is_suffix $"/" base then base ++ f else base ++ $"/" ++ f).
  { destruct (eqs base []) eqn:E1; [|destruct (is_suffix $"/" base) eqn:E2]; cbn [orb].
    - apply eqs_eq in E1. subst. split; [intros [[_ H]|[H _]]; auto; congruence|auto].
    - apply is_suffix_spec in E2 as [b E2]. split; [intros [[_ H]|(_ & H & _)]; auto; now apply H in E2|intros H; left; eauto].
    - apply eqs_neq in E1. assert (N : forall b, base <> b ++ $"/").
      { intros b Hb. enough (is_suffix $"/" base = true) by congruence. apply is_suffix_spec. eauto. }
      split; [intros [[[H|[b H]] _]|(_ & _ & H)]; auto; [congruence|now apply N in H]|auto]. }
  unfold FileOf. destruct f as [|c r]; [exact G|].
  destruct c as [[] [] [] [] [] [] [] []]; try exact G. reflexivity.
Qed.
Lemma chop_snoc full l : chop_lines (full ++ [l]) = full ++ match l with [] => [] | _ => [removelast l] end.
Proof.
  induction full as [|x full IH]; [reflexivity|]. cbn [app]. destruct (full ++ [l]) eqn:E.
  - apply app_eq_nil in E as [_ E]. discriminate.
  - rewrite <- IH. reflexivity.
Qed.
Lemma join_terminated full l : join [nl] (full ++ [l]) = concat (map (fun l => l ++ [LF]) full) ++ l.
Proof.
  induction full as [|x full IH]; [reflexivity|]. cbn [app map concat].
  destruct (full ++ [l]) as [|l0 l1] eqn:E; [apply app_eq_nil in E as [_ E]; discriminate|].
  change (join [nl] (x :: l0 :: l1)) with (x ++ [nl] ++ join [nl] (l0 :: l1)). rewrite IH, <- !app_assoc. reflexivity.
Qed.
Lemma lines_read c : Lines c (readlines_chopped c).
Proof.
  unfold readlines_chopped. pose proof (join_split_ch nl c) as J. pose proof (split_ch_pieces nl c) as P.
  destruct (exists_last (split_ch_nonnil nl c)) as (full & l & E). rewrite E in *.
  rewrite chop_snoc. rewrite join_terminated in J. apply Forall_app in P as [P1 P2]. inversion P2; subst.
  exists full. split; [exact P1|].
  destruct l as [|a l']; [left; now rewrite !app_nil_r|]. right. exists (removelast (a :: l')), (last (a :: l') "0"%char).
  rewrite <- app_removelast_last by discriminate. repeat split; auto.
Qed.
Lemma tag_eq u : script_tag u = tag u.
Proof. unfold script_tag, tag. cbn. repeat (rewrite <- ?app_assoc; cbn [app]). reflexivity. Qed.
Lemma mem_In x l : mem x l = true <-> In x l.
Proof.
  unfold mem. rewrite existsb_exists. split.
  - intros (y & H & E). apply eqs_eq in E. now subst.
  - intros H. exists x. split; auto. apply eqs_refl.
Qed.

(** ** Removed regions *)
Lemma has_iff m l : Has m l <-> contains m l = true.
Proof. symmetry. apply contains_spec. Qed.
Lemma region_0 ls : ~ InRegion ls 0.
Proof. intros (j & l & H & _). lia. Qed.
Lemma region_start ls i l : nth_error ls i = Some l -> Has START l -> InRegion ls (S i).
Proof. intros E H. exists i, l. repeat split; auto. intros. lia. Qed.
Lemma region_stop ls i l : nth_error ls i = Some l -> Has STOP l -> ~ Has START l -> ~ InRegion ls (S i).
Proof.
  intros E H N (j & l' & Hj & E' & H' & F). destruct (Nat.eq_dec j i) as [-> | Hn].
  - rewrite E in E'. injection E' as <-. auto.
  - apply N. apply (F i l); auto. lia.
Qed.
Lemma region_step ls i l : nth_error ls i = Some l -> ~ Has STOP l -> ~ Has START l -> InRegion ls (S i) <-> InRegion ls i.
Proof.
  intros E H N. split; intros (j & l' & Hj & E' & H' & F).
  - assert (j <> i) by (intros ->; rewrite E in E'; injection E' as <-; auto).
    exists j, l'. repeat split; auto; [lia|]. intros k m Hk. apply F. lia.
  - exists j, l'. repeat split; auto. intros k m Hk Em Hm. destruct (Nat.eq_dec k i) as [-> | Hn].
    + rewrite E in Em. injection Em as <-. contradiction.
    + apply (F k m); auto. lia.
Qed.

(** ** The loop *)
Section loop.
  Context (w : env) (ts : list (list str)).
  Local Notation base := (e_base w).
  Local Notation file := (e_file w).
  Definition Inv (k i : nat) (s : pstate) : Prop :=
    (forall p, In p (ps_inlined s) <-> EarlierImport base ts k i p) /\
    (forall u, In u (ps_sourced s) <-> EarlierSource ts k i u) /\
    (forall p, In p (ps_inlined s) -> file p <> None).

  Lemma before_S k i k' i' : Before k' i' k (S i) <-> Before k' i' k i \/ (k' = k /\ i' = i).
  Proof. unfold Before. lia. Qed.
  Lemma earlier_import_S k i p : EarlierImport base ts k (S i) p <->
    EarlierImport base ts k i p \/ exists l f, LiveLine ts k i l /\ Imports l f /\ FileOf base f p.
  Proof.
    unfold EarlierImport. split.
    - intros (k' & i' & l & f & [H|[-> ->]]%before_S & H2 & H3 & H4); [left|right]; eauto 10.
    - intros [(k' & i' & l & f & H & H2)|(l & f & H)].
      + exists k', i', l, f. split; auto. apply before_S. auto.
      + exists k, i, l, f. split; auto. apply before_S. auto.
  Qed.
  Lemma earlier_source_S k i u : EarlierSource ts k (S i) u <->
    EarlierSource ts k i u \/ exists l, LiveLine ts k i l /\ Sources l u.
  Proof.
    unfold EarlierSource. split.
    - intros (k' & i' & l & [H|[-> ->]]%before_S & H2 & H3); [left|right]; eauto 10.
    - intros [(k' & i' & l & H & H2)|(l & H)].
      + exists k', i', l. split; auto. apply before_S. auto.
      + exists k, i, l. split; auto. apply before_S. auto.
  Qed.
  Lemma live_fun k i l l' : LiveLine ts k i l -> LiveLine ts k i l' -> l = l'.
  Proof. intros (a & A & B & _) (b & C & D & _). congruence. Qed.
  Lemma Inv_removed k i s ls : nth_error ts k = Some ls -> Removed ls i -> Inv k i s -> Inv k (S i) s.
  Proof.
    intros E R (A & B & C). assert (N : forall l, ~ LiveLine ts k i l).
    { intros l (ls' & E' & _ & H). rewrite E in E'. injection E' as <-. auto. }
    split; [|split; auto].
    - intros p. rewrite earlier_import_S, A. split; auto. intros [H|(l & f & H & _)]; auto. now apply N in H.
    - intros u. rewrite earlier_source_S, B. split; auto. intros [H|(l & H & _)]; auto. now apply N in H.
  Qed.
  Lemma Inv_plain k i s l : LiveLine ts k i l -> Plain l -> Inv k i s -> Inv k (S i) s.
  Proof.
    intros L [P1 P2] (A & B & C). split; [|split; auto].
    - intros p. rewrite earlier_import_S, A. split; auto. intros [H|(l' & f & H & H2 & _)]; auto.
      rewrite (live_fun _ _ _ _ H L) in H2. now apply P1 in H2.
    - intros u. rewrite earlier_source_S, B. split; auto. intros [H|(l' & H & H2)]; auto.
      rewrite (live_fun _ _ _ _ H L) in H2. now apply P2 in H2.
  Qed.
  Lemma import_not_source l f u : Imports l f -> ~ Sources l u.
  Proof. intros H [_ N]. now apply N in H. Qed.
  Lemma Inv_import k i s s' l f : LiveLine ts k i l -> Imports l f ->
    (forall p, In p (ps_inlined s') <-> In p (ps_inlined s) \/ p = path_join base f) ->
    ps_sourced s' = ps_sourced s -> file (path_join base f) <> None -> Inv k i s -> Inv k (S i) s'.
  Proof.
    intros L I H1 H2 H3 (A & B & C). split; [|split].
    - intros p. rewrite earlier_import_S, H1, A. split; intros [H|H]; auto.
      + right. exists l, f. repeat split; auto. now apply file_of_iff.
      + destruct H as (l' & f' & H & H' & H''). rewrite (live_fun _ _ _ _ H L) in H'.
        rewrite (imports_fun _ _ _ H' I) in H''. right. now apply file_of_iff.
    - intros u. rewrite earlier_source_S, H2, B. split; auto. intros [H|(l' & H & H')]; auto.
      rewrite (live_fun _ _ _ _ H L) in H'. exfalso. eapply import_not_source; eauto.
    - intros p [H| ->]%H1; auto.
  Qed.
  Lemma Inv_source k i s s' l u : LiveLine ts k i l -> Sources l u ->
    (forall v, In v (ps_sourced s') <-> In v (ps_sourced s) \/ v = u) ->
    ps_inlined s' = ps_inlined s -> Inv k i s -> Inv k (S i) s'.
  Proof.
    intros L I H1 H2 (A & B & C). split; [|split].
    - intros p. rewrite earlier_import_S, H2, A. split; auto. intros [H|(l' & f & H & H' & _)]; auto.
      rewrite (live_fun _ _ _ _ H L) in H'. exfalso. eapply import_not_source; eauto.
    - intros v. rewrite earlier_source_S, H1, B. split; intros [H|H]; auto.
      + right. exists l. subst. auto.
      + destruct H as (l' & H & H'). rewrite (live_fun _ _ _ _ H L) in H'. right. eapply sources_fun; eauto.
    - intros p. rewrite H2. apply C.
  Qed.

  Lemma becomes_cons k n p (ps : list (list str)) : Becomes base file ts k n p ->
    (forall i q, nth_error ps i = Some q -> Becomes base file ts k (S n + i) q) ->
    forall i q, nth_error (p :: ps) i = Some q -> Becomes base file ts k (n + i) q.
  Proof.
    intros H HF [|i] q E; cbn in E.
    - injection E as <-. now rewrite Nat.add_0_r.
    - rewrite <- Nat.add_succ_comm. auto.
  Qed.

  Lemma loop_made k ls : nth_error ts k = Some ls -> forall rest done s rm,
    ls = done ++ rest -> (rm = true <-> InRegion ls (List.length done)) -> Inv k (List.length done) s ->
    match filter_lines w s rm rest with
    | Ok (o, s') => (exists ps, List.length ps = List.length rest /\ o = concat ps /\
                      forall i p, nth_error ps i = Some p -> Becomes base file ts k (List.length done + i) p) /\
                    Inv k (List.length ls) s'
    | Err e => e = EIO /\ Unreadable base file ts
    end.
  Proof.
    intros Ek. induction rest as [|line rest IH]; intros done s rm El Hrm HI.
    { cbn [filter_lines]. split; [exists []; repeat split; auto; intros [|i] p; discriminate|]. now rewrite El, app_nil_r. }
    set (n := List.length done) in *.
    assert (En : nth_error ls n = Some line).
    { rewrite El. unfold n. rewrite nth_error_app2 by lia. now rewrite Nat.sub_diag. }
    assert (El' : ls = (done ++ [line]) ++ rest) by (rewrite El, <- app_assoc; reflexivity).
    assert (Len : List.length (done ++ [line]) = S n) by (rewrite app_length; cbn; unfold n; lia).
    (* one step with piece [p] *)
    assert (Step : forall p s1 rm1 o' , Becomes base file ts k n p -> (rm1 = true <-> InRegion ls (S n)) -> Inv k (S n) s1 ->
              (forall x, o' x = match x with Ok y => Ok (p ++ fst y, snd y) | Err e => Err e end) ->
              match o' (filter_lines w s1 rm1 rest) with
              | Ok (o, s') => (exists ps, List.length ps = List.length (line :: rest) /\ o = concat ps /\
                                forall i p, nth_error ps i = Some p -> Becomes base file ts k (n + i) p) /\
                              Inv k (List.length ls) s'
              | Err e => e = EIO /\ Unreadable base file ts
              end).
    { intros p s1 rm1 o' Hp Hr Hi Ho. rewrite Ho. specialize (IH (done ++ [line]) s1 rm1 El'). rewrite Len in IH. specialize (IH Hr Hi).
      destruct (filter_lines w s1 rm1 rest) as [[o s']|e]; [|exact IH]. cbn [fst snd].
      destruct IH as [(ps & L & -> & F) Inv']. split; [|exact Inv']. exists (p :: ps). cbn [List.length concat].
      split; [now rewrite L|]. split; auto. now apply becomes_cons. }
    assert (Skip : forall s1 rm1, Becomes base file ts k n [] -> (rm1 = true <-> InRegion ls (S n)) -> Inv k (S n) s1 ->
              match filter_lines w s1 rm1 rest with
              | Ok (o, s') => (exists ps, List.length ps = List.length (line :: rest) /\ o = concat ps /\
                                forall i p, nth_error ps i = Some p -> Becomes base file ts k (n + i) p) /\
                              Inv k (List.length ls) s'
              | Err e => e = EIO /\ Unreadable base file ts
              end).
    { intros s1 rm1 Hp Hr Hi. specialize (Step [] s1 rm1 (fun x => match x with Ok y => Ok ([] ++ fst y, snd y) | Err e => Err e end) Hp Hr Hi (fun x => eq_refl)).
      cbn beta in Step. destruct (filter_lines w s1 rm1 rest) as [[o s']|e]; exact Step. }
    cbn [filter_lines].
    destruct (contains remove_start line) eqn:C1.
    { apply (has_iff START) in C1. assert (R : Removed ls n) by (right; eauto).
      apply Skip; [econstructor; eauto| |now apply (Inv_removed _ _ _ ls)]. split; auto. intros _. now apply (region_start _ _ line). }
    assert (N1 : ~ Has START line) by (intros H; apply has_iff in H; unfold START, remove_start in *; congruence).
    destruct (contains remove_stop line) eqn:C2.
    { apply (has_iff STOP) in C2. assert (R : Removed ls n) by (right; eauto 6).
      apply Skip; [econstructor; eauto| |now apply (Inv_removed _ _ _ ls)]. split; [discriminate|]. intros H.
      now apply (region_stop _ _ line) in H. }
    assert (N2 : ~ Has STOP line) by (intros H; apply has_iff in H; unfold STOP, remove_stop in *; congruence).
    assert (Hrm' : rm = true <-> InRegion ls (S n)) by now rewrite (region_step _ _ line).
    destruct (rm || contains remove_line line) eqn:C3.
    { assert (R : Removed ls n).
      { apply orb_prop in C3 as [C3|C3]; [left; now apply Hrm|right; exists line; split; auto; right; right; now apply has_iff]. }
      apply Skip; [econstructor; eauto|auto|now apply (Inv_removed _ _ _ ls)]. }
    apply orb_false_elim in C3 as [C3 C4].
    assert (L : LiveLine ts k n line).
    { exists ls. split; auto. split; auto. intros [H|(l & E & H)]; [apply Hrm in H; congruence|].
      rewrite En in E. injection E as <-. destruct H as [H|[H|H]]; auto. apply has_iff in H. unfold LINE, remove_line in *. congruence. }
    destruct HI as (A & B & C).
    destruct (re_search pat_import line) as [m|] eqn:Em.
    { apply imports_some in Em as (f & -> & Hf). assert (FO : FileOf base f (path_join base f)) by now apply file_of_iff.
      destruct (mem (path_join base f) (ps_inlined s)) eqn:M.
      - apply mem_In in M. apply Skip; auto.
        + eapply B_again; eauto. now apply A.
        + apply (Inv_import k n s s line f); auto; [|now split]. intros p. split; auto. intros [H| ->]; auto.
      - assert (M' : ~ EarlierImport base ts k n (path_join base f)) by (intros H; apply A, mem_In in H; congruence).
        destruct (file (path_join base f)) as [c|] eqn:Ef.
        + apply (Step (readlines_chopped c) (PS (ps_inlined s ++ [path_join base f]) (ps_sourced s)) rm
             (fun x => match x with Ok y => Ok (readlines_chopped c ++ fst y, snd y) | Err e => Err e end)); auto.
          * eapply B_inline; eauto. apply lines_read.
          * apply (Inv_import k n s _ line f); auto; [|congruence|now split]. cbn [ps_inlined]. intros p. rewrite in_app_iff. cbn. intuition.
        + split; auto. exists k, n, line, f, (path_join base f). auto. }
    destruct (re_search pat_source line) as [m|] eqn:Es.
    { apply (source_some _ _ Em) in Es as (u & -> & Hu).
      destruct (mem u (ps_sourced s)) eqn:M.
      - apply mem_In in M. apply Skip; auto.
        + eapply B_again_lib; eauto. now apply B.
        + apply (Inv_source k n s s line u); auto; [|now split]. intros p. split; auto. intros [H| ->]; auto.
      - assert (M' : ~ EarlierSource ts k n u) by (intros H; apply B, mem_In in H; congruence).
        apply (Step [script_tag u] (PS (ps_inlined s) (ps_sourced s ++ [u])) rm
             (fun x => match x with Ok y => Ok (script_tag u :: fst y, snd y) | Err e => Err e end)); auto.
        + rewrite tag_eq. eapply B_lib; eauto.
        + apply (Inv_source k n s _ line u); auto; [|now split]. cbn [ps_sourced]. intros p. rewrite in_app_iff. cbn. intuition. }
    assert (P : Plain line) by (apply plain_iff; auto).
    apply (Step [line] s rm (fun x => match x with Ok y => Ok (line :: fst y, snd y) | Err e => Err e end)); auto.
    - now apply B_plain.
    - apply (Inv_plain _ _ _ line); auto. now split.
  Qed.
  Lemma Inv_next k ls s : nth_error ts k = Some ls -> Inv k (List.length ls) s -> Inv (S k) 0 s.
  Proof.
    intros E (A & B & C).
    assert (Eq : forall k' i' l, LiveLine ts k' i' l -> Before k' i' k (List.length ls) <-> Before k' i' (S k) 0).
    { intros k' i' l (ls' & E1 & E2 & _). unfold Before. split; [lia|]. intros H. destruct (Nat.eq_dec k' k) as [-> | Hn]; [|lia].
      right. split; auto. rewrite E in E1. injection E1 as <-. apply nth_error_Some. congruence. }
    split; [|split; auto].
    - intros p. rewrite A. split; intros (k' & i' & l & f & H & L & R); exists k', i', l, f; (split; [now apply (Eq _ _ l)|auto]).
    - intros u. rewrite B. split; intros (k' & i' & l & H & L & R); exists k', i', l; (split; [now apply (Eq _ _ l)|auto]).
  Qed.
  Lemma Inv_0 : Inv 0 0 ps_init.
  Proof.
    assert (N : forall k i, ~ Before k i 0 0) by (unfold Before; lia).
    split; [|split; [|intros p []]].
    - intros p. split; [intros []|]. intros (k & i & l & f & H & _). now apply N in H.
    - intros p. split; [intros []|]. intros (k & i & l & H & _). now apply N in H.
  Qed.
End loop.

Lemma filter_made w ts k text : nth_error ts k = Some (split_ch nl text) -> forall s, Inv w ts k 0 s ->
  match filter_output w s text with
  | Ok (o, s') => (exists ls, o = join [LF] ls /\ Made (e_base w) (e_file w) ts k (split_ch nl text) ls) /\ Inv w ts (S k) 0 s'
  | Err e => e = EIO /\ Unreadable (e_base w) (e_file w) ts
  end.
Proof.
  intros E s HI. unfold filter_output.
  pose proof (loop_made w ts k _ E (split_ch nl text) [] s false eq_refl) as H. cbn [List.length] in H.
  specialize (H (conj (fun h : false = true => match Bool.diff_false_true h with end) (fun h => match region_0 _ h with end)) HI).
  destruct (filter_lines w s false (split_ch nl text)) as [[o s']|e]; cbn [bind]; auto.
  cbn [fst snd]. destruct H as [(ps & L & -> & F) I']. split; [|now apply (Inv_next w ts k (split_ch nl text))].
  eexists. split; [reflexivity|]. exists ps. auto.
Qed.

(** ** Cells *)
Section cells.
  Context {X : Type} (w : env).
  Fixpoint filter_texts (s : pstate) (ts : list str) : res (list str * pstate) :=
    match ts with
    | [] => Ok ([], s)
    | t :: r => do x <- filter_output w s t ;; do y <- filter_texts (snd x) r ;; Ok (fst x :: fst y, snd y)
    end.
  Lemma filter_texts_app s a b : filter_texts s (a ++ b) =
    do x <- filter_texts s a ;; do y <- filter_texts (snd x) b ;; Ok (fst x ++ fst y, snd y).
  Proof.
    revert s. induction a as [|t a IH]; intros s; cbn [app filter_texts].
    - cbn [bind fst snd]. destruct (filter_texts s b) as [[o s']|e]; reflexivity.
    - destruct (filter_output w s t) as [[o1 s1]|e]; cbn [bind fst snd]; auto. rewrite IH.
      destruct (filter_texts s1 a) as [[o2 s2]|e]; cbn [bind fst snd]; auto.
      destruct (filter_texts s2 b) as [[o3 s3]|e]; reflexivity.
  Qed.
  Definition otexts (os : list (output X)) : list str := flat_map (fun o => match displayed o with Some t => [t] | None => [] end) os.
  Definition ctexts (c : cell X) : list str :=
    match c_outputs c with Some os => if eqs (c_type c) $"code" then otexts os else [] | None => [] end.
  Definition cblank (c : cell X) : cell X :=
    Cell (c_type c) (match c_outputs c with Some os => Some (if eqs (c_type c) $"code" then map blank_output os else os) | None => None end) (c_rest c).

  Lemma do_output_texts s (o : output X) :
    match do_output w s o with
    | Ok (o', s') => filter_texts s (otexts [o]) = Ok (otexts [o'], s') /\ blank_output o' = blank_output o
    | Err e => filter_texts s (otexts [o]) = Err e
    end.
  Proof.
    destruct o as [ty h rs]. unfold do_output, otexts, blank_output, displayed. cbn [o_type o_html o_rest flat_map].
    destruct h as [t|]; [|cbn [o_type o_html]; destruct (eqs ty _) eqn:E; cbn [app]; split; reflexivity].
    destruct (eqs ty $"display_data") eqn:E; [|cbn [app o_type o_html]; rewrite E; split; reflexivity]. cbn [app filter_texts].
    destruct (filter_output w s t) as [[o1 s1]|e]; cbn [bind fst snd]; [|reflexivity].
    cbn [o_type o_html o_rest]. rewrite E. split; reflexivity.
  Qed.
  Lemma otexts_cons o os : otexts (o :: os) = otexts [o] ++ otexts os.
  Proof. unfold otexts. cbn [flat_map]. now rewrite app_nil_r. Qed.
  Lemma do_outputs_texts os : forall s,
    match do_outputs w s os with
    | Ok (os', s') => filter_texts s (otexts os) = Ok (otexts os', s') /\ map blank_output os' = map blank_output os
    | Err e => filter_texts s (otexts os) = Err e
    end.
  Proof.
    induction os as [|o os IH]; intros s; [now split|]. cbn [do_outputs]. rewrite otexts_cons, filter_texts_app.
    pose proof (do_output_texts s o) as H. destruct (do_output w s o) as [[o1 s1]|e]; cbn [bind fst snd].
    2:{ now rewrite H. }
    destruct H as [H Hb]. rewrite H. cbn [bind fst snd]. specialize (IH s1).
    destruct (do_outputs w s1 os) as [[os' s2]|e]; cbn [bind fst snd].
    2:{ now rewrite IH. }
    destruct IH as [IH IHb]. rewrite IH. cbn [bind fst snd]. rewrite (otexts_cons o1 os'). split; auto.
    cbn [map]. now rewrite Hb, IHb.
  Qed.
  Lemma do_cell_texts s c :
    match do_cell w s c with
    | Ok (c', s') => filter_texts s (ctexts c) = Ok (ctexts c', s') /\ cblank c' = cblank c
    | Err e => filter_texts s (ctexts c) = Err e
    end.
  Proof.
    destruct c as [ty [os|] rs]; unfold do_cell, ctexts, cblank; cbn [c_type c_outputs c_rest].
    2:{ destruct (eqs ty _); now split. }
    destruct (eqs ty $"code") eqn:E.
    2:{ cbn [c_outputs c_type]. rewrite E. now split. }
    pose proof (do_outputs_texts os s) as H. destruct (do_outputs w s os) as [[os' s1]|e]; cbn [bind fst snd]; [|exact H].
    cbn [c_type c_outputs c_rest]. rewrite E. destruct H as [H Hb]. split; auto. now rewrite Hb.
  Qed.
  Lemma texts_cons (c : cell X) cs : texts (c :: cs) = ctexts c ++ texts cs.
  Proof. reflexivity. Qed.
  Lemma do_cells_texts (cs : list (cell X)) : forall s,
    match do_cells w s cs with
    | Ok (cs', s') => filter_texts s (texts cs) = Ok (texts cs', s') /\ blank cs' = blank cs
    | Err e => filter_texts s (texts cs) = Err e
    end.
  Proof.
    induction cs as [|c cs IH]; intros s; [now split|]. cbn [do_cells]. rewrite texts_cons, filter_texts_app.
    pose proof (do_cell_texts s c) as H. destruct (do_cell w s c) as [[c1 s1]|e]; cbn [bind fst snd].
    2:{ now rewrite H. }
    destruct H as [H Hb]. rewrite H. cbn [bind fst snd]. specialize (IH s1).
    destruct (do_cells w s1 cs) as [[cs' s2]|e]; cbn [bind fst snd].
    2:{ now rewrite IH. }
    destruct IH as [IH IHb]. rewrite IH. cbn [bind fst snd]. rewrite (texts_cons c1 cs'). split; auto.
    change (cblank c1 :: blank cs' = cblank c :: blank cs). now rewrite Hb, IHb.
  Qed.
End cells.

Lemma texts_made w (all : list str) : forall rest done s, all = done ++ rest ->
  Inv w (map (split_ch nl) all) (List.length done) 0 s ->
  match filter_texts w s rest with
  | Ok (outs, s') => List.length outs = List.length rest /\
      (forall k t o, nth_error rest k = Some t -> nth_error outs k = Some o ->
         exists ls, o = join [LF] ls /\ Made (e_base w) (e_file w) (map (split_ch nl) all) (List.length done + k) (split_ch nl t) ls) /\
      Inv w (map (split_ch nl) all) (List.length all) 0 s'
  | Err e => e = EIO /\ Unreadable (e_base w) (e_file w) (map (split_ch nl) all)
  end.
Proof.
  induction rest as [|t rest IH]; intros done s E HI; cbn [filter_texts].
  { split; auto. split; [intros [|k]; discriminate|]. replace (List.length all) with (List.length done) by (rewrite E, app_nil_r; reflexivity). exact HI. }
  assert (Ek : nth_error (map (split_ch nl) all) (List.length done) = Some (split_ch nl t)).
  { rewrite nth_error_map, E, nth_error_app2 by lia. now rewrite Nat.sub_diag. }
  pose proof (filter_made w _ _ t Ek s HI) as H. destruct (filter_output w s t) as [[o s1]|e]; cbn [bind fst snd]; [|exact H].
  destruct H as [HM HI']. specialize (IH (done ++ [t]) s1). rewrite app_length, Nat.add_1_r in IH.
  specialize (IH ltac:(rewrite E, <- app_assoc; reflexivity) HI').
  destruct (filter_texts w s1 rest) as [[outs s2]|e]; cbn [bind fst snd]; [|exact IH].
  destruct IH as (L & F & I2). split; [cbn; now rewrite L|]. split; auto.
  intros [|k] t' o' E1 E2; cbn in E1, E2.
  - injection E1 as <-. injection E2 as <-. rewrite Nat.add_0_r. exact HM.
  - rewrite <- Nat.add_succ_comm. eauto.
Qed.

Lemma live_texts ts k i l : LiveLine ts k i l -> Before k i (List.length ts) 0.
Proof. intros (ls & E & _). left. apply nth_error_Some. congruence. Qed.

Theorem export_made {X} w (cs : list (cell X)) :
  let ts := map (split_ch nl) (texts cs) in
  match export w cs with
  | Ok cs' => blank cs' = blank cs /\ List.length (texts cs') = List.length (texts cs) /\
      (forall k t o, nth_error (texts cs) k = Some t -> nth_error (texts cs') k = Some o ->
         exists ls, o = join [LF] ls /\ Made (e_base w) (e_file w) ts k (split_ch nl t) ls) /\
      ~ Unreadable (e_base w) (e_file w) ts
  | Err e => e = EIO /\ Unreadable (e_base w) (e_file w) ts
  end.
Proof.
  cbn zeta. unfold export. pose proof (do_cells_texts w cs ps_init) as H.
  pose proof (texts_made w (texts cs) (texts cs) [] ps_init eq_refl (Inv_0 w _)) as T.
  destruct (do_cells w ps_init cs) as [[cs' s']|e]; cbn [bind fst].
  - destruct H as [H Hb]. rewrite H in T. destruct T as (L & F & (A & _ & C)). split; auto. split; auto. split; [exact F|].
    intros (k & i & l & f & p & Hl & Hf & Hp & Hn). apply (C p); auto. apply A. exists k, i, l, f. split; [|auto].
    apply live_texts in Hl. rewrite map_length in Hl. exact Hl.
  - rewrite H in T. exact T.
Qed.

(** ** The specification says one thing *)
Lemma lines_fun c o : Lines c o -> o = readlines_chopped c.
Proof.
  intros (full & F & [[-> ->]|(l & x & N & -> & ->)]); unfold readlines_chopped.
  - replace (concat (map (fun l => l ++ [LF]) full)) with (join [nl] (full ++ [[]])).
    2:{ rewrite join_terminated. apply app_nil_r. }
    rewrite split_ch_join.
    + now rewrite chop_snoc, app_nil_r.
    + destruct full; discriminate.
    + apply Forall_app. split; auto.
  - rewrite <- join_terminated. rewrite split_ch_join.
    + rewrite chop_snoc. destruct (l ++ [x]) eqn:E; [destruct l; discriminate|]. rewrite <- E. now rewrite removelast_last.
    + destruct full; discriminate.
    + apply Forall_app. split; auto.
Qed.
Lemma becomes_fun base file ts k i o o' : Becomes base file ts k i o -> Becomes base file ts k i o' -> o = o'.
Proof.
  assert (RL : forall ls l, nth_error ts k = Some ls -> Removed ls i -> LiveLine ts k i l -> False).
  { intros ls l E R (ls' & E' & _ & N). rewrite E in E'. injection E' as <-. auto. }
  intros H H'. destruct H as [ls E R|l f p L I Fo Ea|l f p c o L I Fo Ea Hc Hl|l u L S Ea|l u L S Ea|l L P];
    destruct H' as [ls' E' R'|l' f' p' L' I' Fo' Ea'|l' f' p' c' o' L' I' Fo' Ea' Hc' Hl'|l' u' L' S' Ea'|l' u' L' S' Ea'|l' L' P']; auto;
    try (exfalso; eapply RL; eassumption);
    try (pose proof (live_fun _ _ _ _ _ L L'); subst l');
    try (exfalso; eapply import_not_source; eassumption);
    try (exfalso; match goal with P : Plain _, I : Imports _ _ |- _ => exact (proj1 P _ I) end);
    try (exfalso; match goal with P : Plain _, I : Sources _ _ |- _ => exact (proj2 P _ I) end);
    try (pose proof (imports_fun _ _ _ I I'); subst f'; apply file_of_iff in Fo, Fo'; subst p p');
    try (pose proof (sources_fun _ _ _ S S'); subst u'); try contradiction; auto.
  rewrite Hc in Hc'. injection Hc' as <-. apply lines_fun in Hl, Hl'. congruence.
Qed.
(** every line of every text becomes something, unless a file cannot be read *)
Lemma becomes_again base file ts k i k' i' l l' f f' p o : Before k i k' i' -> LiveLine ts k i l -> LiveLine ts k' i' l' ->
  Imports l f -> Imports l' f' -> FileOf base f p -> FileOf base f' p -> Becomes base file ts k' i' o -> o = [].
Proof.
  intros B L L' I I' F F' H. eapply becomes_fun; [exact H|]. eapply B_again; eauto. exists k, i, l, f. auto.
Qed.
Lemma becomes_again_lib base file ts k i k' i' l l' u o : Before k i k' i' -> LiveLine ts k i l -> LiveLine ts k' i' l' ->
  Sources l u -> Sources l' u -> Becomes base file ts k' i' o -> o = [].
Proof.
  intros B L L' I I' H. eapply becomes_fun; [exact H|]. eapply B_again_lib; eauto. exists k, i, l. auto.
Qed.
Lemma export_ok {X} w (cs cs' : list (cell X)) : export w cs = Ok cs' ->
  blank cs' = blank cs /\ List.length (texts cs') = List.length (texts cs) /\
  forall k t o, nth_error (texts cs) k = Some t -> nth_error (texts cs') k = Some o ->
     exists ls, o = join [LF] ls /\ Made (e_base w) (e_file w) (map (split_ch LF) (texts cs)) k (split_ch LF t) ls.
Proof. intros E. pose proof (export_made w cs) as H. cbn zeta in H. rewrite E in H. destruct H as (A & B & C & _). auto. Qed.
Lemma export_err {X} w (cs : list (cell X)) e : export w cs = Err e <-> e = EIO /\ Unreadable (e_base w) (e_file w) (map (split_ch LF) (texts cs)).
Proof.
  pose proof (export_made w cs) as H. cbn zeta in H. destruct (export w cs) as [cs'|e'].
  - split; [discriminate|]. intros [_ U]. now apply H in U.
  - destruct H as [-> U]. split; [intros E; injection E as <-; auto|intros [-> _]; auto].
Qed.
