(** Reports of the events trappy knows, read through the files of the cache
    (ftrace.py:315-335, bare_trace.py:138-145, base.py:313-330). *)
From Coq Require Import List Ascii String ZArith NArith Bool Lia.
From Verif Require Import Lib.PyStr Lib.PyStrFacts Lib.F64 Lib.SearchFacts
  Model.Base Model.Line Model.Registry Model.Populate Model.Window Model.Cache Model.Csv Model.CsvCache Model.Events Model.Classes
  Spec.Lines Spec.Payload Spec.Arrays Spec.Parts Spec.Trace Spec.Interval Spec.Tables Spec.Written Spec.Events Spec.Classes
  Spec.History Spec.Cached Spec.CachedClasses
  Proofs.PayloadP Proofs.ScanP Proofs.FrameP Proofs.LineP Proofs.PopulateP Proofs.SolveP Proofs.EventsP Proofs.EventsQ Proofs.SyncP Proofs.WrittenP Proofs.WrittenQ
  Proofs.ClassesP Proofs.ClassesQ Proofs.CacheP Proofs.CsvP Proofs.CsvCacheP Proofs.CachedP.
Import ListNotations.
Local Open Scope list_scope.

(** ** The order of the columns *)
Definition pre_keys (L : str -> nat) (m : mark) (r : float * dict) : Prop :=
  (forall n, In n (map fst (text_cells L (m_text m))) -> ~ In n meta_names) ->
  map fst (snd r) = meta_names ++ map fst (text_cells L (m_text m)).
Lemma meta_nodup : NoDup meta_names.
Proof. repeat (constructor; [intros C; repeat (destruct C as [C|C]; [discriminate C|]); destruct C|]). constructor. Qed.
Lemma row_keys gdd e d r : gdd (ev_data e) = Ok d -> row_dict gdd e = Ok r -> NoDup (map fst d) ->
  (forall n, In n (map fst d) -> ~ In n meta_names) -> map fst r = meta_names ++ map fst d.
Proof.
  intros Ed Er Hn Hd. unfold row_dict in Er. rewrite Ed in Er. cbn [bind] in Er. injection Er as <-.
  rewrite dupdate_fresh; [now rewrite map_app|]. cbn [map fst]. change ($"__comm" :: _) with meta_names.
  apply nodup_app2; auto. apply meta_nodup.
Qed.
Lemma good_keys fuel f L ss fr : Forall (fun m => good f L (m_text m) /\ NoDup (map fst (text_cells L (m_text m)))) ss ->
  pre_frame fuel f (map ev_mark ss) = Ok fr -> Forall2 (pre_keys L) ss fr.
Proof.
  intros H E. unfold pre_frame in E.
  destruct (mapM _ (map ev_mark ss)) as [evs|] eqn:EM; [|discriminate]. cbn [bind] in E.
  apply mapM_Forall2 in EM. apply (proj1 (Forall2_map_l _ ev_mark _ _)) in EM.
  assert (EB : Forall2 (fun m e => exists d, form_dict f (ev_data e) = Ok d /\ ~ In "{"%char (ev_data e) /\
     Forall2 holds (text_cells L (m_text m)) d /\ NoDup (map fst (text_cells L (m_text m)))) ss evs).
  { clear E. induction EM as [|m e ss evs He EM IH]; constructor; inversion H as [|? ? [Hg Hn] H']; subst; auto.
    destruct Hg as (data & d & E1 & E2 & E3 & E4). unfold ev_mark in He. cbn [ev_data set_data] in He. rewrite E1 in He. cbn [bind] in He.
    injection He as <-. exists d. cbn [ev_data with_data]. auto. }
  unfold create_dataframe, explode_all in E. rewrite no_brace_lengths in E.
  2:{ apply Forall_map. clear -EB. induction EB as [|m e ss evs (d & _ & A & _) _ IH]; constructor; auto. }
  cbn [bind] in E. apply mapM_Forall2 in E. clear -EB E. revert fr E.
  induction EB as [|m e ss evs (d & E1 & E2 & E3 & E4) EB IH]; intros fr E; inversion E as [|? r ? ? Er E']; subst; constructor; auto.
  destruct (row_dict (form_dict f) e) as [r0|] eqn:ER; [|discriminate]. cbn [bind] in Er. injection Er as <-. intros Hd. cbn [snd].
  rewrite <- (holds_keys _ _ E3) in *. now apply (row_keys _ _ _ _ E1 ER).
Qed.
Lemma fields_keys fuel ss fr :
  Forall (fun m => text_ok Fields (m_text m)) ss ->
  (forall t, In t (map m_text ss) -> NoDup (map fst (text_cells (lengths (map m_text ss)) t))) ->
  match parts_in (map m_text ss) with
  | [] => True
  | p :: _ => has_array p = true \/ forall q, In q (parts_in (map m_text ss)) -> has_array q = false
  end ->
  (forall q, In q (parts_in (map m_text ss)) -> (arrays q < fuel)%nat) ->
  pre_frame fuel Fields (map ev_mark ss) = Ok fr -> Forall2 (pre_keys (lengths (map m_text ss))) ss fr.
Proof.
  intros Ht Hn Ha Hf E0.
  assert (EP : parts_in (map m_text ss) = map s_parts (map stamp_of ss)).
  { clear -Ht. induction Ht as [|m ss Hm _ IH]; auto. cbn [map parts_in flat_map]. fold (parts_in (map m_text ss)). rewrite IH.
    assert (E : exists ps, m_text m = TFields ps) by (destruct (m_text m); try contradiction; eauto). destruct E as [ps E].
    replace (s_parts (stamp_of m)) with ps by (unfold stamp_of; cbn [s_parts]; now rewrite E). rewrite E. reflexivity. }
  assert (EE : map ev_mark ss = map ev_of (map stamp_of ss)).
  { rewrite map_map. clear -Ht. induction Ht as [|m ss Hm _ IH]; auto. cbn [map]. rewrite IH. f_equal.
    unfold ev_mark, ev_of, stamp_of, mark_event, stamp_event. cbn. destruct (m_text m); try contradiction. reflexivity. }
  unfold lengths in *. rewrite EP in *.
  destruct (frame_full fuel (map stamp_of ss)) as (fr' & E & F).
  - apply Forall_map. eapply Forall_impl; [|exact Ht]. intros m Hm. cbv beta in *. unfold stamp_of. cbn [s_parts].
    destruct (m_text m); try contradiction. exact Hm.
  - split; [|exact Ha]. intros q Hq. rewrite map_map in Hq. apply in_map_iff in Hq as (m & <- & Hm).
    assert (K := Hn (m_text m) (in_map _ _ _ Hm)). rewrite Forall_forall in Ht. apply Ht in Hm.
    unfold stamp_of. cbn [s_parts]. destruct (m_text m) as [ps| | | | | | | |]; try contradiction. cbn [text_cells] in K.
    rewrite map_map in K. exact K.
  - exact Hf.
  - unfold pre_frame in E0. rewrite same_data in E0. cbn [bind] in E0. rewrite EE in E0. cbn [form_dict] in E0. rewrite E in E0. injection E0 as <-.
    apply (proj1 (Forall2_map_l _ stamp_of _ _)) in F. revert F. generalize (trace_len (map s_parts (map stamp_of ss))) as L. clear -Ht.
    intros L F. induction F as [|m r ss0 fr0 Hr F IH]; [constructor|].
    inversion Ht as [|m' ss' Hm Hs]; subst. constructor; auto. destruct Hr as (_ & R).
    unfold stamp_of in R. cbn [s_parts s_time] in R. unfold pre_keys.
    destruct (m_text m) as [ps| | | | | | | |]; try contradiction. cbn [text_cells]. rewrite map_map. exact R.
Qed.

Lemma no_meta_names k : no_meta k -> ~ In k meta_names.
Proof.
  intros H C. specialize (H (Ev fzero [] 0 0 0 [])). unfold meta_names in C.
  destruct C as [<-|[<-|[<-|[<-|[]]]]]; discriminate H.
Qed.
Lemma rename_keys o n fr : Forall2 (fun r r' : float * dict => map fst (snd r') = map (fun k => if eqs o k then n else k) (map fst (snd r))) fr (rename_col o n fr).
Proof.
  unfold rename_col. induction fr as [|r fr IH]; cbn [map]; constructor; auto. cbn [snd]. rewrite !map_map. reflexivity.
Qed.
Lemma Forall2_trans {A B C} (P : A -> B -> Prop) (Q : B -> C -> Prop) l1 l2 l3 :
  Forall2 P l1 l2 -> Forall2 Q l2 l3 -> Forall2 (fun a c => exists b, P a b /\ Q b c) l1 l3.
Proof. intros H. revert l3. induction H as [|a b l1 l2 H1 H IH]; intros l3 HQ; inversion HQ; subst; constructor; eauto. Qed.
Lemma eqs_sym a b : eqs a b = eqs b a.
Proof. destruct (eqs_spec a b) as [->|N]; [now rewrite eqs_refl|]. destruct (eqs_spec b a); congruence. Qed.
Lemma final_keys c fr : ClassesP.fresh c -> Forall2 (fun r r' : float * dict => map fst (snd r') = map (column c) (map fst (snd r))) fr (col_final c fr).
Proof.
  assert (Hid : forall (g : float * dict -> float * dict) l, (forall r, map fst (snd (g r)) = map (fun k => k) (map fst (snd r))) ->
     Forall2 (fun r r' : float * dict => map fst (snd r') = map (fun k : str => k) (map fst (snd r))) l (map g l)).
  { intros g l Hg. induction l; cbn [map]; constructor; auto. }
  destruct c as [|l| |]; cbn [col_final column]; intros Hf.
  - rewrite <- (map_id fr) at 2. apply (Hid (fun r => r)). intros r. now rewrite map_id.
  - destruct l as [|[o1 n1] [|[o2 n2] [|x l]]]; try contradiction; cbn [ClassesP.fresh] in Hf; cbn [fold_left fst snd].
    + eapply Forall2_impl; [|apply rename_keys]. cbn beta. intros r r' ->. apply map_ext. intros k. cbn [column dget].
      rewrite (eqs_sym k o1). now destruct (eqs o1 k).
    + destruct Hf as ((D1 & D2 & D3 & D4 & D5 & D6) & _).
      eapply Forall2_impl; [|eapply Forall2_trans; apply rename_keys]. cbn beta. intros r r' (r1 & E1 & ->). rewrite E1, map_map.
      apply map_ext. intros k. cbn [column dget]. rewrite (eqs_sym k o1), (eqs_sym k o2). destruct (eqs o1 k) eqn:K1.
      * destruct (eqs_spec o2 n1); congruence.
      * now destruct (eqs o2 k).
  - apply Hid. intros r. cbn [snd]. rewrite map_map, map_id. now apply map_ext.
  - apply Hid. intros r. cbn [snd]. rewrite map_map, map_id. now apply map_ext.
Qed.
Lemma column_meta c n : ClassesP.fresh c -> In n meta_names -> column c n = n.
Proof.
  intros Hf Hn. destruct c as [|l| |]; auto. cbn [column].
  destruct l as [|[o1 n1] [|[o2 n2] [|x l]]]; try contradiction; cbn [ClassesP.fresh] in Hf; cbn [column dget].
  - destruct Hf as (_ & M & _). apply no_meta_names in M. destruct (eqs_spec n o1) as [->|]; [contradiction|reflexivity].
  - destruct Hf as (_ & M & _ & M2 & _). apply no_meta_names in M, M2. destruct (eqs_spec n o1) as [->|]; [contradiction|].
    destruct (eqs_spec n o2) as [->|]; [contradiction|reflexivity].
Qed.
Lemma column_inj c (ks : list str) : ClassesP.fresh c -> NoDup ks ->
  match c with Renamed l => forall old new, In (old, new) l -> ~ In new ks | _ => True end -> NoDup (map (column c) ks).
Proof.
  intros Hf Hn Hr. assert (Inj : forall x y, In x ks -> In y ks -> column c x = column c y -> x = y).
  { intros x y Hx Hy E. destruct c as [|l| |]; auto. cbn [column] in E.
    destruct l as [|[o1 n1] [|[o2 n2] [|z l]]]; try contradiction; cbn [ClassesP.fresh] in Hf; cbn [dget] in E.
    - assert (N1 := Hr o1 n1 (or_introl eq_refl)). destruct (eqs_spec x o1), (eqs_spec y o1); try congruence.
    - assert (N1 := Hr o1 n1 (or_introl eq_refl)). assert (N2 := Hr o2 n2 (or_intror (or_introl eq_refl))).
      destruct Hf as ((D1 & D2 & D3 & D4 & D5 & D6) & _).
      destruct (eqs_spec x o1), (eqs_spec y o1); try congruence; destruct (eqs_spec x o2), (eqs_spec y o2); congruence. }
  clear Hr. induction Hn as [|k ks Hk Hn IH]; [constructor|]. cbn [map]. constructor.
  - intros C. apply in_map_iff in C as (x & E & Hx). apply Hk. rewrite <- (Inj x k); auto; [now right|now left].
  - apply IH. intros x y Hx Hy. apply Inj; now right.
Qed.

Definition full_row (c : columns) (L : str -> nat) (m : mark) (r : float * dict) : Prop :=
  row_shows c L (fun t => t) m r /\
  ((forall n, In n (map fst (text_cells L (m_text m))) -> ~ In n meta_names) ->
   map fst (snd r) = meta_names ++ map (column c) (map fst (text_cells L (m_text m)))).
Theorem class_full fuel k ss :
  Forall (fun m => text_ok (fst (kind_of k)) (m_text m)) ss ->
  titles_ok (snd (kind_of k)) (map m_text ss) ->
  (forall q, In q (parts_in (map m_text ss)) -> (arrays q < fuel)%nat) ->
  exists fr, class_frame fuel k (map ev_mark ss) = Ok fr /\ Forall2 (full_row (snd (kind_of k)) (lengths (map m_text ss))) ss fr.
Proof.
  intros Ht Hti Hf. destruct (class_rows fuel k ss Ht Hti Hf) as (fr & E & HR). exists fr. split; auto.
  rewrite frame_pre in E. destruct (pre_frame fuel _ _) as [fr0|] eqn:E0; [|discriminate]. cbn [bind] in E. injection E as <-.
  destruct Hti as (Hn & Ha). set (L := lengths (map m_text ss)) in *.
  assert (X : Forall2 (pre_keys L) ss fr0).
  { destruct (fst (kind_of k)) eqn:Ef.
    1:{ apply (fields_keys fuel); auto. intros t Hi. now apply Hn. }
    all: eapply good_keys; [|exact E0]; rewrite Forall_forall in Ht |- *; intros m Hm; destruct (Hn _ (in_map m_text _ _ Hm)) as [HN _];
      split; [apply text_good; [discriminate|now apply Ht|exact HN]|exact HN]. }
  assert (Y := Forall2_trans _ _ _ _ _ X (final_keys (snd (kind_of k)) fr0 (proj2 (table k)))). clear -HR Y.
  assert (Hc := proj2 (table k)). revert HR Y. generalize (col_final (snd (kind_of k)) fr0) as fr. generalize L. intros L' fr HR.
  induction HR as [|m r ss fr Hr HR IH]; intros Y; inversion Y as [|? ? ? ? (r0 & K1 & K2) Y']; subst; constructor; auto.
  split; auto. intros Hd. rewrite K2, (K1 Hd), map_app. f_equal.
  transitivity (map (fun k : str => k) meta_names); [|now rewrite map_id]. apply map_ext_in. intros n Hi. now apply column_meta.
Qed.

(** ** Looking at a report through fewer classes *)
Definition eview1 (f : str -> option str) (i : entry) : entry :=
  match i with
  | EWrote L b t => match f b with Some b' => EWrote L b' t | None => EForeign L end
  | _ => i
  end.
Definition eview (f : str -> option str) (l : list entry) : list entry := map (eview1 f) l.
Lemma eview_str f l : map entry_str (eview f l) = map entry_str l.
Proof. unfold eview. rewrite map_map. apply map_ext. intros [s|L|L a t]; auto. cbn [eview1]. now destruct (f a). Qed.
Lemma eview_begins f l : begins l -> begins (eview f l).
Proof. destruct l as [|[s|L|L a t] r]; auto. intros _. cbn [eview map eview1]. destruct (f a); exact I. Qed.
Lemma eview_lines f l : entry_lines (eview f l) = entry_lines l.
Proof.
  induction l as [|[s|L|L a t] r IH]; [reflexivity|exact IH| |]; cbn [eview map eview1].
  - cbn [entry_lines flat_map app]. f_equal. exact IH.
  - destruct (f a); cbn [entry_lines flat_map app]; f_equal; exact IH.
Qed.
Lemma entries_texts a l : map snd (entries_for a l) = texts_of a l.
Proof.
  induction l as [|[s|L|L b t] r IH]; auto. cbn [entries_for texts_of flat_map]. rewrite map_app. f_equal; [|exact IH].
  now destruct (eqs a b).
Qed.
Lemma marked_pos l : forall i us, Forall (fun m => (i <= m_pos m < i + Z.of_nat (List.length l))%Z) (marked i l us).
Proof.
  induction l as [|it r IH]; intros i us; [constructor|].
  assert (W : forall us, Forall (fun m => (i <= m_pos m < i + Z.of_nat (List.length (it :: r)))%Z) (marked (i + 1) r us)).
  { intros us'. eapply Forall_impl; [|apply IH]. intros s H. cbn beta in *. cbn [List.length]. rewrite Nat2Z.inj_succ. lia. }
  destruct it as [s|L|L b t]; cbn [marked]; [apply W| |]; destruct us as [|u us]; try constructor; try apply W.
  cbn [m_pos List.length]. lia.
Qed.

Section Kept.
  Context {F : Type}.
  Variable fparse : str -> option F.
  Variables (all : classes).
  Let ws := map (fun d : str * klass => (k_word (snd d), d)) all.
  Hypotheses (Nk : NoDup (map fst all)) (Nw : NoDup (map (fun d => k_word (snd d)) all)).
  Section One.
    Variables (a : str) (k : klass) (items : list entry).
    Hypotheses (Hin : In (a, k) all) (Hok : Forall (entry_ok all) items).
    Hypothesis Hamb : forall line d1 d2, In line (map entry_str items) -> In d1 all -> In d2 all ->
      contains (k_word (snd d1)) line = true -> contains (k_word (snd d2)) line = true -> snd d1 = snd d2.
    Let f := fun b => if eqs a b then Some ([] : str) else None.
    Lemma eone_ok : Forall (entry_ok [([], k)]) (eview f items).
    Proof.
      unfold eview. apply Forall_map. apply Forall_forall. intros i Hi. rewrite Forall_forall in Hok. specialize (Hok i Hi).
      destruct i as [l|L|L b t]; cbn [eview1]; auto.
      - destruct Hok as [HL HN]. split; auto. intros w a' k' [H|[]]. injection H as <- <- <-. apply (HN _ a k).
        apply in_map_iff. exists (a, k). auto.
      - destruct Hok as (HL & Hd & HD & Hp). destruct (CachedP.dispatch_class _ _ _ HD) as (k2 & Hi2 & O2). unfold f.
        destruct (eqs_spec a b) as [<-|N].
        + assert (E : (a, k) = (a, k2)) by (apply (nodup_inj fst all); auto). injection E as <-.
          split; auto. split; auto. split; [apply dispatch_single; exact O2|]. intros k' [E|[]]. injection E as <-. now apply Hp.
        + split; auto. intros w a' k' [H|[]] O. injection H as <- <- <-. apply N.
          assert (E : k = k2).
          { apply (Hamb (entry_str (EWrote L b t)) (a, k) (b, k2)); auto; [now apply in_map| |]; cbn [snd]; now apply occurs_iff. }
          subst k2. assert (E : (a, k) = (b, k)) by (apply (nodup_inj (fun d => k_word (snd d)) all); auto). now injection E.
    Qed.
    Lemma eone_marks : forall i us, List.length us = List.length (entry_lines items) ->
      map (fun s : mark => (Spec.Classes.m_line s, m_text s)) (filter (has_attr []) (marked i (eview f items) us)) = entries_for a items.
    Proof.
      clear Hok Hamb. induction items as [|it r IH]; intros i us E; [reflexivity|].
      destruct it as [l|L|L b t]; cbn [eview map eview1].
      - apply IH. exact E.
      - destruct us as [|u us]; [discriminate|]. cbn [marked]. apply IH. now injection E.
      - destruct us as [|u us]; [discriminate|]. injection E as E. cbn [entries_for flat_map]. unfold f at 1. destruct (eqs a b).
        + cbn [marked filter]. unfold has_attr at 1. cbn [m_attr eqs map Spec.Classes.m_line m_text app]. f_equal. now apply IH.
        + cbn [marked app]. now apply IH.
    Qed.
  End One.

  (** ** The frame of one attribute *)
  Lemma class_kept c ss fr (es : list (tline * text)) :
    let L := lengths (map m_text ss) in
    let cells := fun e : tline * text => text_cells L (snd e) in
    ClassesP.fresh c ->
    Forall2 (full_row c L) ss fr -> map (fun s => (Spec.Classes.m_line s, m_text s)) ss = es ->
    (forall t, In t (map m_text ss) -> NoDup (map fst (text_cells L t)) /\
       match c with Renamed l => forall old new, In (old, new) l -> ~ In new (map fst (text_cells L t)) | _ => True end) ->
    Forall (fun s => fits (m_pos s)) ss ->
    (forall x y, In x es -> In y es -> map fst (cells x) = map fst (cells y)) ->
    (forall x n, In x es -> In n (map fst (cells x)) ->
       ~ In (column c n) [[]; $"Time"; $"__comm"; $"__pid"; $"__cpu"; $"__line"]) ->
    (forall n,
      (forall x P v, In x es -> In (n, P) (cells x) -> P v -> exists z, shown c n v = CInt z /\ fits z) \/
      (exists ss, texts_ok fparse ss /\
         (forall x P v, In x es -> In (n, P) (cells x) -> P v -> exists s, In s ss /\ shown c n v = CStr s) /\
         (forall s, In s ss -> exists x P, In x es /\ In (n, P) (cells x) /\ forall v, P v -> shown c n v = CStr s))) ->
    texts_ok fparse (map (fun x => l_comm (fst x)) es) ->
    (forall x, In x es -> fits (Z.of_N (dec_val (l_pid (fst x)))) /\ fits (Z.of_N (dec_val (l_cpu (fst x))))) ->
    frame_kept fparse fr \/ fr = [].
  Proof.
    intros L cells Hfr HF Hes Hnd Hpos Hsame Hres Hcols Hcomm Hids.
    destruct ss as [|s0 ss0] eqn:Ess; [inversion HF; auto|]. rewrite <- Ess in *. left.
    assert (Hs0 : In s0 ss) by (rewrite Ess; now left). clear Ess.
    set (keys := map fst (text_cells L (m_text s0))). set (names0 := map (column c) keys).
    assert (Hse : forall s, In s ss -> In (Spec.Classes.m_line s, m_text s) es).
    { intros s Hs. rewrite <- Hes. apply in_map_iff. eauto. }
    assert (Hes' : forall x, In x es -> exists s, In s ss /\ Spec.Classes.m_line s = fst x /\ m_text s = snd x).
    { intros x Hx. rewrite <- Hes in Hx. apply in_map_iff in Hx as (s & <- & Hs). eauto. }
    assert (Hnames : forall s, In s ss -> map fst (text_cells L (m_text s)) = keys).
    { intros s Hs. apply (Hsame (Spec.Classes.m_line s, m_text s) (Spec.Classes.m_line s0, m_text s0)); auto. }
    assert (Hfree : forall n, In n keys -> ~ In (column c n) ([] :: $"Time" :: meta_names)).
    { intros n Hn. apply (Hres (Spec.Classes.m_line s0, m_text s0) n); auto. }
    assert (Hkm : forall n, In n keys -> ~ In n meta_names).
    { intros n Hn C. apply (Hfree n Hn). rewrite (column_meta c n Hfr C). right. now right. }
    assert (N0 : NoDup keys) by (apply Hnd; now apply in_map).
    assert (N1 : NoDup names0) by (apply column_inj; auto; apply (Hnd (m_text s0)); now apply in_map).
    assert (Hf0 : forall n, In n names0 -> ~ In n ([] :: $"Time" :: meta_names)).
    { intros n Hn. apply in_map_iff in Hn as (x & <- & Hx). auto. }
    assert (Nm : NoDup ($"Time" :: meta_names)).
    { repeat (constructor; [intros C; repeat (destruct C as [C|C]; [discriminate C|]); destruct C|]). constructor. }
    assert (NN : NoDup ($"Time" :: meta_names ++ names0)).
    { apply (nodup_app2 ($"Time" :: meta_names)); auto. intros n Hn C. apply (Hf0 n Hn). now right. }
    assert (Hrow : forall s r, full_row c L s r -> In s ss -> map fst (snd r) = meta_names ++ names0).
    { intros s r [_ Hk] Hs. rewrite Hk; [now rewrite Hnames|]. intros n Hn. rewrite Hnames in Hn by auto. auto. }
    assert (P1 : forall r, In r fr -> exists s, In s ss /\ full_row c L s r).
    { clear -HF. revert HF. generalize L. intros L' HF. induction HF as [|s r ss fr H HF IH]; intros r' Hr; [destruct Hr|].
      destruct Hr as [->|Hr]; [exists s; split; auto; now left|]. destruct (IH r' Hr) as (s' & ? & ?). exists s'. split; auto. now right. }
    assert (P2 : forall s, In s ss -> exists r, In r fr /\ full_row c L s r).
    { clear -HF. revert HF. generalize L. intros L' HF. induction HF as [|s r ss fr H HF IH]; intros s' Hs; [destruct Hs|].
      destruct Hs as [->|Hs]; [exists r; split; auto; now left|]. destruct (IH s' Hs) as (r' & ? & ?). exists r'. split; auto. now right. }
    assert (Hlook : forall s r n v, full_row c L s r -> In s ss -> (In (n, v) (snd r) <-> dlookup n (snd r) = Some v)).
    { intros s r n v Hr Hs. unfold dlookup. split; [|apply (dget_In eqs eqs_eq)]. apply (In_dget eqs eqs_eq).
      rewrite (Hrow s r Hr Hs). now inversion NN. }
    assert (Hmeta : forall n s r v, In n meta_names -> full_row c L s r -> In s ss ->
      (In (n, v) (snd r) <-> option_map (shown c n) (meta_cell (mark_event s) n) = Some v)).
    { intros n s r v Hn Hr Hs. rewrite (Hlook s r n v Hr Hs). destruct Hr as [(_ & _ & Hr) _]. rewrite Hr; [reflexivity|].
      rewrite <- map_map, Hnames by auto. intros C. apply (Hf0 n C). right. now right. }
    exists (meta_names ++ names0). split; [discriminate|]. split; [exact NN|]. split.
    { intros C. apply in_app_or in C as [C|C]; [repeat (destruct C as [C|C]; [discriminate C|]); destruct C|].
      apply (Hf0 [] C). now left. }
    split.
    { apply Forall_forall. intros r Hr. destruct (P1 r Hr) as (s & Hs & H). eauto. }
    assert (Hshow : forall n z, In n meta_names -> fits z -> exists z', shown c n (CInt z) = CInt z' /\ fits z').
    { intros n z Hn Hz. destruct c as [|l| |]; cbn [shown]; eauto.
      - destruct (z =? 4294967295)%Z; eauto. exists (-1)%Z. split; auto. unfold fits. lia.
      - destruct (eqs_spec n $"cpus") as [->|]; eauto. exfalso. repeat (destruct Hn as [Hn|Hn]; [discriminate Hn|]). destruct Hn. }
    assert (Hstr : forall n s, In n meta_names -> shown c n (CStr s) = CStr s).
    { intros n z Hn. destruct c as [|l| |]; cbn [shown]; auto.
      destruct (eqs_spec n $"cpus") as [->|]; eauto. exfalso. repeat (destruct Hn as [Hn|Hn]; [discriminate Hn|]). destruct Hn. }
    assert (Hint : forall n (g : mark -> Z), In n meta_names -> (forall s, meta_cell (mark_event s) n = Some (CInt (g s))) ->
      (forall s, In s ss -> fits (g s)) -> column_kept fparse fr n).
    { intros n g Hn Hg Hfit. left. intros v (r & Hr & Hc). destruct (P1 r Hr) as (s & Hs & H). apply (Hmeta n s r v Hn H Hs) in Hc.
      rewrite Hg in Hc. cbn [option_map] in Hc. injection Hc as <-. eauto. }
    intros n Hn. apply in_app_or in Hn as [Hn|Hn].
    - destruct Hn as [<-|[<-|[<-|[<-|[]]]]].
      + right. exists (map (fun x => l_comm (fst x)) es). split; [|exact Hcomm]. intros v. split.
        * intros (r & Hr & Hc). destruct (P1 r Hr) as (s & Hs & H). apply (Hmeta _ s r v) in Hc; auto; [|now left].
          change (meta_cell (mark_event s) $"__comm") with (Some (CStr (l_comm (Spec.Classes.m_line s)))) in Hc. cbn [option_map] in Hc.
          rewrite Hstr in Hc by now left. injection Hc as <-. exists (l_comm (Spec.Classes.m_line s)). split; auto.
          apply in_map_iff. exists (Spec.Classes.m_line s, m_text s). auto.
        * intros (t & Ht & ->). apply in_map_iff in Ht as (x & <- & Hx). destruct (Hes' x Hx) as (s & Hs & E1 & _).
          destruct (P2 s Hs) as (r & Hr & H). exists r. split; auto. apply (Hmeta _ s r); auto; [now left|].
          change (meta_cell (mark_event s) $"__comm") with (Some (CStr (l_comm (Spec.Classes.m_line s)))). cbn [option_map].
          rewrite Hstr by now left. now rewrite E1.
      + apply (Hint _ (fun s => Z.of_N (dec_val (l_pid (Spec.Classes.m_line s))))); [right; now left|reflexivity|].
        intros s Hs. apply (Hids (Spec.Classes.m_line s, m_text s)). auto.
      + apply (Hint _ (fun s => Z.of_N (dec_val (l_cpu (Spec.Classes.m_line s))))); [right; right; now left|reflexivity|].
        intros s Hs. apply (Hids (Spec.Classes.m_line s, m_text s)). auto.
      + apply (Hint _ m_pos); [right; right; right; now left|reflexivity|]. now apply Forall_forall.
    - apply in_map_iff in Hn as (key & <- & Hn).
      assert (Hcell : forall s r, full_row c L s r -> In s ss -> exists P, In (key, P) (text_cells L (m_text s)) /\
          forall v, In (column c key, v) (snd r) -> exists v0, P v0 /\ v = shown c key v0).
      { intros s r Hr Hs. assert (X : In key (map fst (text_cells L (m_text s)))) by now rewrite Hnames.
        apply in_map_iff in X as ([n' P] & E & Hi). cbn [fst] in E. subst n'. exists P. split; auto.
        intros v Hc. apply (Hlook s r _ v Hr Hs) in Hc. destruct Hr as [(_ & Hr & _) _]. destruct (Hr key P Hi) as (v0 & Hv & E).
        rewrite Hc in E. injection E as ->. eauto. }
      destruct (Hcols key) as [HI|(tx & Htx & HT1 & HT2)].
      + left. intros v (r & Hr & Hc). destruct (P1 r Hr) as (s & Hs & H). destruct (Hcell s r H Hs) as (P & Hi & Hcc).
        destruct (Hcc v Hc) as (v0 & Hv & ->). apply (HI (Spec.Classes.m_line s, m_text s) P v0 (Hse s Hs) Hi Hv).
      + right. exists tx. split; [|exact Htx]. intros v. split.
        * intros (r & Hr & Hc). destruct (P1 r Hr) as (s & Hs & H). destruct (Hcell s r H Hs) as (P & Hi & Hcc).
          destruct (Hcc v Hc) as (v0 & Hv & ->). apply (HT1 (Spec.Classes.m_line s, m_text s) P v0 (Hse s Hs) Hi Hv).
        * intros (t & Ht & ->). destruct (HT2 t Ht) as (x & P & Hx & Hi & Hv). destruct (Hes' x Hx) as (s & Hs & _ & E2).
          destruct (P2 s Hs) as (r & Hr & H). exists r. split; auto. apply (Hlook s r); auto. destruct H as [(_ & Hrr & _) _].
          unfold cells in Hi. rewrite <- E2 in Hi. destruct (Hrr key P Hi) as (v0 & HP & E). rewrite E. f_equal. auto.
  Qed.
End Kept.

(** ** Histories over reports *)
Section Histories.
  Context {F content digest header : Type}.
  Variables (trepr : float -> str) (tparse : str -> option float) (frepr : F -> str) (fparse : str -> option F)
            (f_of : Z -> F) (num_cell : F -> cell) (bool_cell : bool -> cell).
  Variables (deq : digest -> digest -> bool) (md5 : content -> digest) (file : content -> list str) (head : content -> header)
            (fuel : nat) (all : classes) (T : content -> Prop).
  Let body := fun c => ftrace_body (file c).
  Let enc := csv_of trepr frepr f_of.
  Let dec := frame_of tparse fparse num_cell bool_cell.
  Let K := fun k => exists a, In (a, k) all.
  Hypothesis Htime : forall x, tparse (trepr x) = Some x.
  Hypotheses (Nk : NoDup (map fst all)) (Nw : NoDup (map (fun d => k_word (snd d)) all))
             (Nn : NoDup (map (fun d => k_pyname (snd d)) all)).
  Hypothesis Hrep : forall c, T c -> exists l, known_report fparse fuel all (file c) l.
  Hypothesis Hamb : unambiguous body K T.

  Lemma knames_differ : names_unique K.
  Proof.
    intros k1 k2 [a1 H1] [a2 H2] E. assert (X : (a1, k1) = (a2, k2)) by (apply (nodup_inj (fun d => k_pyname (snd d)) all); auto).
    now injection X.
  Qed.
  Lemma class_empty k f : K k -> class_frame fuel k [] = Ok f -> f = [].
  Proof.
    intros _ H. rewrite frame_pre in H. cbn in H. injection H as <-. assert (Hf := proj2 (table k)).
    destruct (snd (kind_of k)) as [|l| |]; auto. cbn [col_final]. clear. induction l; auto.
  Qed.
  Lemma report_body c l : known_report fparse fuel all (file c) l -> body c = map entry_str l.
  Proof. intros (hdr & Ef & Hh & Hs & Hok & _). unfold body. rewrite Ef. eapply body_entries; eauto. Qed.
  Lemma class_tables : tables_faithful body enc dec (class_frame fuel) K T.
  Proof.
    intros k c es f f' [a Ha] HT (us & HA & HR) Hf Hd.
    destruct (Hrep c HT) as (items & Hr). assert (Eb := report_body c items Hr).
    destruct Hr as (hdr & Ef & Hh & Hs & Hok & Hlen & Hcls).
    rewrite Eb in HA, HR.
    set (g := fun b => if eqs a b then Some ([] : str) else None).
    assert (Hone : Forall (entry_ok [([], k)]) (eview g items)).
    { apply (eone_ok all Nk Nw a k items Ha Hok). intros line d1 d2 Hl H1 H2 C1 C2. apply (Hamb c line); auto; try (eexists; rewrite <- surjective_pairing; eassumption).
      now rewrite Eb. }
    rewrite <- (eview_str g) in HA, HR. rewrite (times_entries _ _ Hone) in HA.
    apply (recorded_entries _ _ _ Hone) in HR. rewrite eview_lines in HA.
    assert (El : List.length us = List.length (entry_lines items)).
    { apply Assigned_length in HA. now rewrite map_length in HA. }
    assert (Est := eone_marks a items 0%Z us El). fold g in Est.
    set (ss := filter (has_attr []) (marked 0 (eview g items) us)) in *.
    assert (Ep : map m_text ss = texts_of a items).
    { rewrite <- entries_texts, <- Est, map_map. reflexivity. }
    destruct (Hcls a k Ha) as (Hc & (K1 & K2 & K3 & K4 & K5) & Hfuel).
    rewrite entries_texts in *.
    assert (Hp : Forall (fun m => text_ok (fst (kind_of k)) (m_text m)) ss).
    { apply (marked_texts [([], k)]); auto. now left. }
    rewrite <- Ep in *. destruct (class_full fuel k ss Hp Hc Hfuel) as (fr & Efr & HF).
    rewrite HR in Hf. rewrite Efr in Hf. injection Hf as <-.
    assert (Hk : frame_kept fparse fr \/ fr = []).
    { apply (class_kept fparse (snd (kind_of k)) ss fr (entries_for a items)); auto; [apply table| |].
      - intros t Ht. destruct Hc as [Hc _]. destruct (Hc t Ht) as [C1 C2]. split; auto. now destruct (snd (kind_of k)).
      - apply Forall_forall. intros s Hi. apply filter_In in Hi as [Hi _]. assert (X := marked_pos (eview g items) 0%Z us).
        rewrite Forall_forall in X. specialize (X s Hi). unfold eview in X. rewrite map_length in X. unfold fits. lia. }
    unfold dec, enc in Hd. rewrite (frame_round trepr tparse frepr fparse f_of num_cell bool_cell Htime fr Hk) in Hd. now injection Hd as <-.
  Qed.

  Hypothesis Hdig : digest_faithful deq md5 T.
  Notation reach := (Reach deq md5 body head enc dec (class_frame fuel) K T).
  Notation construct := (construct deq md5 body head enc dec (class_frame fuel)).
  Theorem known_same s cf : reach false s -> selection K (c_defs cf) -> fst (construct cf s) = fst (construct (uncached cf) s).
  Proof.
    destruct Hdig as [D1 D2]. apply transparent; auto. apply knames_differ. apply class_tables. apply class_empty.
  Qed.
  Theorem known_crash s cf : reach true s -> selection K (c_defs cf) -> c_nocache cf = false ->
    (match f_cache s with Some d => match d_meta d with Some (MOk _) => False | _ => True end | None => False end ->
       exists e, fst (construct cf s) = Err e /\ (e = EIO \/ e = EJson)) /\
    (match f_cache s with Some d => exists m, d_meta d = Some (MOk m) | None => True end ->
       fst (construct cf s) = fst (construct (uncached cf) s)).
  Proof.
    destruct Hdig as [D1 D2]. apply after_crashes; auto. apply knames_differ. apply class_tables. apply class_empty.
  Qed.
  Lemma known_T b s : reach b s -> T (f_trace s).
  Proof.
    destruct Hdig as [D1 D2]. intros H. apply reach_crash in H; auto; [apply H| | |]; [apply knames_differ|apply class_tables|apply class_empty].
  Qed.

  Section Selection.
    Variables (defs : classes) (items : list entry).
    Hypotheses (Nd : NoDup (map fst defs)) (Hsub : incl defs all).
    Let sel := fun b => if existsb (eqs b) (map fst defs) then Some b else None.
    Let ws := map (fun d : str * klass => (k_word (snd d), d)) all.
    Let ws' := map (fun d : str * klass => (k_word (snd d), d)) defs.
    Lemma esel_ok : (forall line d1 d2, In line (map entry_str items) -> In d1 all -> In d2 all ->
        contains (k_word (snd d1)) line = true -> contains (k_word (snd d2)) line = true -> snd d1 = snd d2) ->
      Forall (entry_ok all) items -> Forall (entry_ok defs) (eview sel items).
    Proof.
      intros Hu Hok. unfold eview. apply Forall_map. apply Forall_forall. intros i Hi. rewrite Forall_forall in Hok. specialize (Hok i Hi).
      destruct i as [l|L|L b ps]; cbn [eview1]; auto.
      - destruct Hok as [HL HN]. split; auto. intros w a' k' H. apply (HN w a' k'). unfold ws', ws in *.
        apply in_map_iff in H as (d & E & Hd). apply in_map_iff. exists d. split; auto.
      - destruct Hok as (HL & Hd & HD & Hp). destruct (CachedP.dispatch_class _ _ _ HD) as (k2 & Hi2 & O2).
        assert (Only : forall d, In d all -> occurs (k_word (snd d)) (entry_str (EWrote L b ps)) -> d = (b, k2)).
        { intros d Hd' O. apply (nodup_inj (fun d => k_word (snd d)) all); auto. f_equal.
          apply (Hu (entry_str (EWrote L b ps))); auto; [now apply in_map| |]; now apply occurs_iff. }
        unfold sel. destruct (existsb (eqs b) (map fst defs)) eqn:Ex.
        + split; auto. split; auto. split; [|intros k Hk; apply Hp; auto]. apply existsb_eqs in Ex.
          apply in_map_iff in Ex as ([b' k'] & E & Hi'). cbn [fst] in E. subst b'.
          assert (E : (b, k') = (b, k2)) by (apply (nodup_inj fst all); auto). injection E as ->.
          change (entry_str (EWrote L b ps)) with (line_str L ++ [nl]) in *.
          apply in_split in Hi' as (pre & post & Epp). exists (map (fun d : str * klass => (k_word (snd d), d)) pre), (k_word k2), k2,
            (map (fun d : str * klass => (k_word (snd d), d)) post).
          split; [rewrite Epp, map_app; reflexivity|]. split; [exact O2|].
          assert (Npre : forall d, In d (pre ++ post) -> d <> (b, k2)).
          { intros d Hd' ->. rewrite Epp in Nd. rewrite map_app in Nd. cbn [map fst] in Nd. apply NoDup_remove_2 in Nd. apply Nd.
            rewrite <- map_app. apply in_map_iff. exists (b, k2). auto. }
          assert (Hno : forall w' a' k', In (w', (a', k')) (map (fun d : str * klass => (k_word (snd d), d)) (pre ++ post)) -> ~ occurs w' (line_str L ++ [nl])).
          { intros w' a' k' H O. apply in_map_iff in H as (d & E & Hd'). injection E as <- ->. apply (Npre _ Hd'). apply Only; auto.
            apply Hsub. rewrite Epp. apply in_app_or in Hd' as [?|?]; apply in_or_app; [left|right; right]; auto. }
          rewrite map_app in Hno.
          destruct (k_fallback k2) eqn:Efb; [right|left]; (split; [reflexivity|]).
          * split.
            -- intros w' a' k' H Hf. rewrite Epp, map_app in H. apply in_app_or in H as [H|[H|H]].
               ++ apply (Hno w' a' k'). apply in_or_app. now left.
               ++ cbn [snd] in H. injection H as <- <- <-. congruence.
               ++ apply (Hno w' a' k'). apply in_or_app. now right.
            -- intros w' a' k' H. apply (Hno w' a' k'). apply in_or_app. now right.
          * intros w' a' k' H _. apply (Hno w' a' k'). apply in_or_app. now left.
        + split; auto. intros w a' k' H O. apply in_map_iff in H as (d & E & Hd'). injection E as <- ->.
          assert (E : (a', k') = (b, k2)) by (apply Only; auto). injection E as -> ->.
          assert (C : existsb (eqs b) (map fst defs) = true) by (apply existsb_eqs; apply in_map_iff; exists (b, k2); auto). congruence.
    Qed.
    Lemma esel_texts a k : In (a, k) defs -> texts_of a (eview sel items) = texts_of a items.
    Proof.
      intros Ha. induction items as [|it r IH]; auto. cbn [eview map]. cbn [texts_of flat_map]. f_equal; [|exact IH].
      destruct it as [l|L|L b ps]; auto. cbn [eview1]. unfold sel. destruct (eqs_spec a b) as [<-|N].
      - assert (E : existsb (eqs a) (map fst defs) = true) by (apply existsb_eqs, in_map_iff; exists (a, k); auto). rewrite E. now rewrite eqs_refl.
      - destruct (existsb (eqs b) (map fst defs)); auto. destruct (eqs_spec a b); [congruence|reflexivity].
    Qed.
    Lemma esel_marks a k p : In (a, k) defs -> forall i us,
      filter (fun x => eqs a (m_attr x) && p x) (marked i (eview sel items) us) = filter (fun x => eqs a (m_attr x) && p x) (marked i items us).
    Proof.
      intros Ha. induction items as [|it r IH]; intros i us; auto. destruct it as [l|L|L b ps]; cbn [eview map eview1].
      - cbn [marked]. apply IH.
      - cbn [marked]. destruct us as [|u us]; [reflexivity|]. apply IH.
      - unfold sel at 1. destruct (existsb (eqs b) (map fst defs)) eqn:Ex.
        + cbn [marked]. destruct us as [|u us]; [reflexivity|]. cbn [filter m_attr]. fold (eview sel r). now rewrite IH.
        + cbn [marked]. destruct us as [|u us]; [reflexivity|]. cbn [filter m_attr]. fold (eview sel r). rewrite IH.
          destruct (eqs_spec a b) as [->|N]; [|reflexivity].
          exfalso. assert (C : existsb (eqs b) (map fst defs) = true) by (apply existsb_eqs; apply in_map_iff; exists (b, k); auto). congruence.
    Qed.
  End Selection.

  Theorem known_read b s cf l : reach b s -> c_defs cf <> [] -> NoDup (map fst (c_defs cf)) -> incl (c_defs cf) all ->
    known_report fparse fuel all (file (f_trace s)) l ->
    b = false \/ c_nocache cf = true \/ match f_cache s with Some d => exists m, d_meta d = Some (MOk m) | None => True end ->
    exists tr ts us, fst (construct cf s) = Ok tr /\
      Forall2 printed_time (entry_lines l) ts /\ Assigned fzero ts us /\
      t_base tr = hd fzero us /\ t_end tr = last us fzero /\ t_head tr = Some (head (f_trace s)) /\
      map fst (t_frames tr) = map fst (c_defs cf) /\
      (windows_ok (c_win cf) (c_abs cf) (t_base tr) -> forall a k, In (a, k) (c_defs cf) ->
       exists fr, dget eqs a (t_frames tr) = Some fr /\
         Forall2 (row_shows (snd (kind_of k)) (lengths (texts_of a l)) (fun t => if c_norm cf then fsub t (t_base tr) else t))
           (filter (fun x => eqs a (m_attr x) && in_both (c_win cf) (c_abs cf) (t_base tr) (m_time x)) (marked 0 l us)) fr).
  Proof.
    intros Hr Hne Nd Hsub Hkr Hm. assert (Eb := report_body _ _ Hkr). destruct Hkr as (hdr & Ef & Hh & Hs & Hok & Hlen & Hcls).
    assert (Nw' := sub_nodup all (c_defs cf) Nd Hsub _ Nw).
    assert (Hsel : selection K (c_defs cf)).
    { split; auto. split; auto. split; auto. apply Forall_forall. intros [a k] Hi. exists a. auto. }
    assert (Hsame : fst (construct cf s) = fst (construct (uncached cf) s)).
    { destruct b.
      - destruct Hm as [Hm|[Hm|Hm]]; [discriminate| |].
        + now rewrite (uncached_same cf Hm).
        + destruct (c_nocache cf) eqn:En; [now rewrite (uncached_same cf En)|].
          now apply (known_crash s cf Hr Hsel En).
      - now apply known_same. }
    rewrite Hsame.
    set (sel := fun b => if existsb (eqs b) (map fst (c_defs cf)) then Some b else None).
    assert (HT := known_T _ _ Hr).
    assert (Hok' : Forall (entry_ok (c_defs cf)) (eview sel l)).
    { apply esel_ok; auto. intros line d1 d2 Hl H1 H2 C1 C2. apply (Hamb (f_trace s) line); auto; try (eexists; rewrite <- surjective_pairing; eassumption).
      now rewrite Eb. }
    destruct (entries_back deq md5 file head enc dec fuel (uncached cf) s hdr (eview sel l)) as (tr & ts & us & E & H1 & H2 & H3 & H4 & H5 & H6 & H7); auto.
    - rewrite eview_str. exact Ef.
    - now apply eview_begins.
    - intros a k Hi. unfold sel. rewrite (esel_texts (c_defs cf) l a k Hi). destruct (Hcls a k) as (X & _ & Y); auto.
    - exists tr, ts, us. rewrite eview_lines in H1. split; [unfold Cache.construct; destruct (do_parse _ _ _ _ _ _ _ _ _); exact E|].
      repeat (split; [assumption|]). intros Hw a k Hi. destruct (H7 Hw a k Hi) as (fr & Efr & HF). exists fr. split; auto.
      unfold sel in HF. rewrite (esel_texts (c_defs cf) l a k Hi) in HF.
      rewrite (esel_marks (c_defs cf) l a k (fun x => in_both (c_win cf) (c_abs cf) (t_base tr) (m_time x)) Hi) in HF. exact HF.
  Qed.
End Histories.
