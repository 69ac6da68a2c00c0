(** The frames of the event classes of trappy (bare_trace.py:138-145). *)
From Coq Require Import List Ascii String ZArith NArith Bool Lia.
From Verif Require Import Lib.PyStr Lib.PyStrFacts Lib.F64 
  Model.Base Model.Registry Model.Populate Model.Events Model.Classes
  Spec.Lines Spec.Payload Spec.Arrays Spec.Parts Spec.Trace Spec.Written Spec.Events Spec.Classes
  Proofs.PayloadP Proofs.ScanP Proofs.FrameP Proofs.PopulateP Proofs.EventsP Proofs.EventsQ Proofs.WrittenP.
Import ListNotations.
Local Open Scope list_scope.

(** ** The table of classes *)
Definition form_text (f : form) : str -> res str :=
  match f with
  | Switches => fun s => Ok (switch_text s)
  | Enters => enter_explode
  | Exits => exit_explode
  | _ => fun s => Ok s
  end.
Definition form_dict (f : form) : str -> res dict :=
  match f with
  | Clocks => clk_dict | Pairs => ext4_dict | Commas => f2fs_dict | CommasIs => f2fs_exit_dict | Free => mark_dict
  | _ => generate_data_dict
  end.
Definition col_final (c : columns) : frame -> frame :=
  match c with
  | Same => fun fr => fr
  | Renamed l => fun fr => fold_left (fun fr on => rename_col (fst on) (snd on) fr) l fr
  | Idle => idle_finalize
  | Mask => mask_finalize
  end.
Definition no_meta (k : str) : Prop := forall e, meta_cell e k = None.
Definition fresh (c : columns) : Prop :=
  match c with
  | Renamed [(o, n)] => o <> n /\ no_meta o /\ no_meta n
  | Renamed [(o1, n1); (o2, n2)] => (o1 <> n1 /\ o2 <> n2 /\ n1 <> n2 /\ o2 <> n1 /\ o1 <> o2 /\ o1 <> n2) /\
      no_meta o1 /\ no_meta n1 /\ no_meta o2 /\ no_meta n2
  | Renamed _ => False
  | _ => True
  end.
Lemma table k : style_of k = Style (form_text (fst (kind_of k))) (form_dict (fst (kind_of k))) (col_final (snd (kind_of k))) /\
  fresh (snd (kind_of k)).
Proof.
  unfold style_of, kind_of. generalize (k_pyname k) as n. intros n. unfold styles, known. cbn [dget].
  repeat match goal with
  | |- context [eqs n ?x] => destruct (eqs n x);
      [split; [reflexivity|];
       solve [exact I | cbn [snd fresh]; repeat split; try (intros e; reflexivity); discriminate] |]
  end.
  split; [reflexivity|exact I].
Qed.

(** ** One row before the columns are finished *)
Definition ev_mark (m : mark) : event := set_data (mark_event m) (text_str (m_text m)).
Definition row_pre (L : str -> nat) (m : mark) (r : float * dict) : Prop :=
  fst r = m_time m /\
  (forall key P, In (key, P) (text_cells L (m_text m)) -> exists v, P v /\ dlookup key (snd r) = Some v) /\
  (forall key, ~ In key (map fst (text_cells L (m_text m))) -> dlookup key (snd r) = meta_cell (mark_event m) key).
Definition holds (x : str * (cell -> Prop)) (kc : str * cell) : Prop := fst kc = fst x /\ snd x (snd kc).
Lemma holds_keys l d : Forall2 holds l d -> map fst d = map fst l.
Proof. induction 1 as [|x kc l d [E _] _ IH]; auto. cbn [map]. now rewrite E, IH. Qed.
Lemma holds_in l d k P : Forall2 holds l d -> In (k, P) l -> exists v, In (k, v) d /\ P v.
Proof.
  induction 1 as [|x kc l d [E C] _ IH]; intros Hi; [destruct Hi|]. destruct Hi as [->|Hi].
  - exists (snd kc). split; [left; destruct kc; cbn in *; now rewrite E|exact C].
  - destruct (IH Hi) as (v & ? & ?). exists v. split; [now right|auto].
Qed.

Definition good (f : form) (L : str -> nat) (t : text) : Prop :=
  exists data d, form_text f (text_str t) = Ok data /\ ~ In "{"%char data /\ form_dict f data = Ok d /\ Forall2 holds (text_cells L t) d.

Definition pre_frame (fuel : nat) (f : form) (evs : list event) : res frame :=
  do evs' <- mapM (fun e => do d <- form_text f (ev_data e) ;; Ok (with_data e d)) evs ;;
  create_dataframe fuel (form_dict f) evs'.
Lemma frame_pre fuel k evs : class_frame fuel k evs =
  do fr <- pre_frame fuel (fst (kind_of k)) evs ;; Ok (col_final (snd (kind_of k)) fr).
Proof.
  unfold class_frame, pre_frame. rewrite (proj1 (table k)). cbn [y_text y_dict y_final].
  destruct (mapM _ evs); reflexivity.
Qed.

Lemma good_frame fuel f L ss : Forall (fun m => good f L (m_text m) /\ NoDup (map fst (text_cells L (m_text m)))) ss ->
  exists fr, pre_frame fuel f (map ev_mark ss) = Ok fr /\ Forall2 (row_pre L) ss fr.
Proof.
  intros H.
  assert (X : exists xs, mapM (fun e => do d <- form_text f (ev_data e) ;; Ok (with_data e d)) (map ev_mark ss) =
     Ok (map (fun sx => set_data (mark_event (fst sx)) (fst (snd sx))) (combine ss xs)) /\
     Forall2 (fun m (x : str * dict) => ~ In "{"%char (fst x) /\ form_dict f (fst x) = Ok (snd x) /\ Forall2 holds (text_cells L (m_text m)) (snd x) /\
        NoDup (map fst (snd x))) ss xs).
  { induction H as [|m ss ((data & d & E1 & E2 & E3 & E4) & Hn) H (xs & IH & HF)]; [exists []; split; [reflexivity|constructor]|].
    exists ((data, d) :: xs). cbn [map mapM combine fst snd]. unfold ev_mark at 1. cbn [ev_data set_data]. rewrite E1. cbn [bind].
    rewrite IH. split; [reflexivity|]. constructor; auto. cbn [fst snd]. rewrite (holds_keys _ _ E4). auto. }
  destruct X as (xs & E & HF). unfold pre_frame. rewrite E. cbn [bind]. clear E.
  destruct (frame_plain fuel (form_dict f) (map (fun sx => set_data (mark_event (fst sx)) (fst (snd sx))) (combine ss xs)) (map snd xs)) as (fr & E & F).
  - apply Forall_map. clear -HF. induction HF as [|m x ss xs (A & _) _ IH]; constructor; auto.
  - apply Forall2_map_l. clear -HF. induction HF as [|m x ss xs (A & B & C & D) _ IH]; constructor; auto.
  - exists fr. split; auto. clear E H. revert fr F. induction HF as [|m x ss xs (A & B & C & D) HF IH]; intros fr F; cbn [combine map] in F.
    + inversion F; constructor.
    + inversion F as [|y r l l' (F1 & F2) F3 Ey Er]; subst. constructor; auto. cbn [fst snd] in *.
      split; [exact F1|]. split.
      * intros key P Hi. destruct (holds_in _ _ _ _ C Hi) as (v & Hv & HP). exists v. split; auto. rewrite F2.
        unfold dlookup. now rewrite (In_dget eqs eqs_eq key v).
      * intros key Hk. rewrite F2. rewrite <- (holds_keys _ _ C) in Hk. apply (dget_None eqs eqs_eq) in Hk. unfold dlookup. now rewrite Hk.
Qed.

(** ** The payloads *)
Lemma fields_holds gs d : Forall2 (fun g kc => fst kc = g_key g /\ col_cell (g_val g) (g_more g) (snd kc)) gs d ->
  Forall2 holds (map (fun g => (g_key g, col_cell (g_val g) (g_more g))) gs) d.
Proof. intros H. apply Forall2_map_l. exact H. Qed.
Lemma ffields_holds fs d : Forall2 (fun f kc => fst kc = f_key f /\ col_cell (f_val f) (f_more f) (snd kc)) fs d ->
  Forall2 holds (map (fun f => (f_key f, col_cell (f_val f) (f_more f))) fs) d.
Proof. intros H. apply Forall2_map_l. exact H. Qed.
Lemma cast_cell s : no_space s -> col_cell s [] (string_cast_int s).
Proof.
  intros Hs. destruct (string_cast_int s) as [z|t|] eqn:E.
  - left. exists z. split; auto. now apply cast_int_iff.
  - right. split.
    + intros z Hz. apply cast_int_iff in Hz; auto. congruence.
    + unfold string_cast_int in E. destruct (py_int0 s); [discriminate|]. injection E as <-. reflexivity.
  - unfold string_cast_int in E. destruct (py_int0 s); discriminate.
Qed.
Lemma join_mid sep l1 l2 : exists pre post, (forall y, join sep (l1 ++ y :: l2) = pre ++ y ++ post) /\ True.
Proof.
  induction l1 as [|a l1 (pre & post & IH & _)].
  - destruct l2 as [|b l2].
    + exists [], []. split; auto. intros y. cbn. now rewrite app_nil_r.
    + exists [], (sep ++ join sep (b :: l2)). split; auto.
  - exists (a ++ sep ++ pre), post. split; auto. intros y. specialize (IH y).
    change ((a :: l1) ++ y :: l2) with (a :: (l1 ++ y :: l2)).
    destruct (l1 ++ y :: l2) as [|b r] eqn:E; [destruct l1; discriminate|].
    change (join sep (a :: b :: r)) with (a ++ sep ++ join sep (b :: r)). rewrite IH. now rewrite <- !app_assoc.
Qed.
Lemma NoDup_left {A} (a b : list A) : NoDup (a ++ b) -> NoDup a.
Proof.
  induction a as [|x a IH]; cbn [app]; intros H; constructor; inversion H; subst; auto. intros Hi. apply H2, in_or_app. auto.
Qed.
Lemma brace_app a b : ~ In "{"%char a -> ~ In "{"%char b -> ~ In "{"%char (a ++ b).
Proof. rewrite in_app_iff. tauto. Qed.
Lemma str_of_N_brace n : ~ In "{"%char (str_of_N n).
Proof. intros Hi. pose proof (str_of_N_digits n) as F. rewrite Forall_forall in F. apply F in Hi. discriminate. Qed.
Lemma hex_brace n : ~ In "{"%char (fmt_base 16 n).
Proof.
  pose proof (fmt16_hex n) as H. inversion H as [s Hn Hf E1 E2|s Hn Hf E1 E2|s Hn Hf E1 E2]; intros Hi;
   (try destruct Hi as [Hi|Hi]; try discriminate); rewrite Forall_forall in Hf; apply Hf in Hi; apply hex_iff in Hi; discriminate.
Qed.
Ltac nobrace := repeat apply brace_app; first [apply str_of_Z_brace | apply str_of_N_brace | apply hex_brace | (cbn; intuition discriminate)].

Lemma text_good f L t : f <> Fields -> text_ok f t -> NoDup (map fst (text_cells L t)) -> good f L t.
Proof.
  intros Hf Ht Hn. destruct f; [congruence| | | | | | | |]; destruct t; try contradiction; cbn [text_ok] in Ht; unfold good; cbn [form_text form_dict].
  - (* switch *) destruct Ht as (Hp & Hq & Hs & Hb). do 2 eexists. split; [reflexivity|]. split.
    { intros Hi. apply replace1_In in Hi as [[Hi|[]]|Hi]; [discriminate|contradiction]. }
    split; [cbn [text_str]; now apply kernel_switch|]. unfold switch_dict. cbn [text_cells].
    repeat (constructor; [split; [reflexivity|first [reflexivity|now apply cast_cell]]|]). constructor.
  - (* enter *) do 2 eexists. split; [|split; [|split; [apply enter_fields_dict|]]].
    + pose proof (enter_printed n a0 a1 a2 a3 a4 a5 []) as HE. rewrite app_nil_r in HE. apply enter_first in HE. exact HE.
    + apply enter_fields_brace. reflexivity.
    + cbn [text_cells]. repeat (constructor; [split; reflexivity|]). constructor.
  - (* exit *) do 2 eexists. split; [|split; [|split; [apply exit_fields_dict|]]].
    + pose proof (exit_printed nr ret [] I) as HE. rewrite app_nil_r in HE. apply exit_first in HE. exact HE.
    + nobrace.
    + cbn [text_cells]. repeat (constructor; [split; reflexivity|]). constructor.
  - (* clocks *) destruct Ht as (H1 & H2 & H3 & Hb).
    destruct (clk_fields name (groups_text gs) gs) as (d & E & F); auto.
    + apply Words_iff. unfold groups_text. apply split_ws_join. apply Forall_flat_map. eapply Forall_impl; [|exact H3]. cbv beta. tauto.
    + cbn [text_cells] in Hn. rewrite map_app, map_map in Hn. cbn [fst] in Hn. now apply NoDup_left in Hn.
    + eapply Forall_impl; [|exact H3]. cbv beta. tauto.
    + do 2 eexists. split; [reflexivity|]. split; [exact Hb|]. split; [exact E|]. cbn [text_cells]. apply Forall2_app.
      * now apply fields_holds.
      * constructor; [split; reflexivity|constructor].
  - (* pairs *) destruct Ht as (H1 & H2 & Hb). cbn [text_cells] in Hn |- *. rewrite map_map in Hn. cbn [fst] in Hn.
    do 2 eexists. split; [reflexivity|]. split; [exact Hb|]. split; [apply ext4_fields; auto|].
    apply Forall2_map_l. clear. induction ps as [|x ps IH]; constructor; auto. split; reflexivity.
  - (* commas *) destruct Ht as (H1 & H2 & Hb). cbn [text_cells] in Hn |- *. rewrite map_map in Hn. cbn [fst] in Hn.
    destruct (f2fs_fields fs H1 H2 Hn) as (d & E & F). do 2 eexists. split; [reflexivity|]. split; [exact Hb|]. split; [exact E|].
    now apply ffields_holds.
  - (* commas, is *) destruct Ht as (H1 & Hk & Hb & Ho). cbn [text_cells] in Hn |- *. rewrite map_map in Hn. cbn [fst] in Hn.
    destruct (join_mid $", " (map ffield_text before) (map ffield_text after)) as (pre & post & HJ & _).
    assert (EJ : text_str (TCommas (before ++ f :: after)) = pre ++ $"checkpoint = " ++ f_text f ++ post).
    { cbn [text_str]. rewrite map_app. cbn [map]. rewrite HJ. unfold ffield_text. rewrite Hk. now rewrite <- !app_assoc. }
    assert (ET : text_str (TIs before f after) = pre ++ $"checkpoint is " ++ f_text f ++ post).
    { cbn [text_str]. rewrite HJ. now rewrite <- !app_assoc. }
    destruct (f2fs_exit_fields pre (f_text f) post (before ++ f :: after)) as (d & E & F); auto.
    + apply occurs_false. intros (x & y & Ex). apply Ho. rewrite EJ, Ex. exists x, (y ++ $"checkpoint = " ++ f_text f ++ post). now rewrite <- !app_assoc.
    + apply occurs_false. intros (x & y & Ex). apply Ho. rewrite EJ, Ex. exists (pre ++ $"checkpoint = " ++ x), y. now rewrite <- !app_assoc.
    + destruct before; discriminate.
    + do 2 eexists. split; [reflexivity|]. split; [exact Hb|]. rewrite ET. split; [exact E|]. now apply ffields_holds.
  - (* free *) do 2 eexists. split; [reflexivity|]. split; [exact Ht|]. split; [reflexivity|]. constructor; [split; reflexivity|constructor].
Qed.
Lemma drop_text f t : text_ok f t -> drop_empty (text_str t) = text_str t.
Proof.
  intros Ht.
  assert (K : ~ In "{"%char (text_str t) -> drop_empty (text_str t) = text_str t).
  { intros Hb. unfold drop_empty. destruct (contains $"={}" (text_str t)) eqn:E; auto. apply contains_spec in E as (a & b & E).
    exfalso. apply Hb. rewrite E. apply in_or_app. right. right. now left. }
  destruct f, t; try contradiction; cbn [text_ok] in Ht; try (apply K; tauto).
  - now apply drop_empty_payload.
  - apply K. cbn [text_str]. nobrace.
  - apply K. cbn [text_str]. nobrace.
Qed.

(** ** Fields and arrays *)
Definition stamp_of (m : mark) : stamp :=
  Stamp (m_pos m) (m_time m) (m_line m) (m_attr m) (match m_text m with TFields ps => ps | _ => [] end).
Lemma same_data evs : mapM (fun e => do d <- form_text Fields (ev_data e) ;; Ok (with_data e d)) evs = Ok evs.
Proof. induction evs as [|e evs IH]; auto. cbn [mapM]. cbn [form_text bind] in *. rewrite IH. now destruct e. Qed.
Lemma fields_frame fuel ss :
  Forall (fun m => text_ok Fields (m_text m)) ss ->
  (forall t, In t (map m_text ss) -> NoDup (map fst (text_cells (lengths (map m_text ss)) t))) ->
  match parts_in (map m_text ss) with
  | [] => True
  | p :: _ => has_array p = true \/ forall q, In q (parts_in (map m_text ss)) -> has_array q = false
  end ->
  (forall q, In q (parts_in (map m_text ss)) -> (arrays q < fuel)%nat) ->
  exists fr, pre_frame fuel Fields (map ev_mark ss) = Ok fr /\ Forall2 (row_pre (lengths (map m_text ss))) ss fr.
Proof.
  intros Ht Hn Ha Hf.
  assert (EP : parts_in (map m_text ss) = map s_parts (map stamp_of ss)).
  { clear -Ht. induction Ht as [|m ss Hm _ IH]; auto. cbn [map parts_in flat_map]. fold (parts_in (map m_text ss)). rewrite IH.
    assert (E : exists ps, m_text m = TFields ps) by (destruct (m_text m); try contradiction; eauto). destruct E as [ps E].
    replace (s_parts (stamp_of m)) with ps by (unfold stamp_of; cbn [s_parts]; now rewrite E). rewrite E. reflexivity. }
  assert (EE : map ev_mark ss = map ev_of (map stamp_of ss)).
  { rewrite map_map. clear -Ht. induction Ht as [|m ss Hm _ IH]; auto. cbn [map]. rewrite IH. f_equal.
    unfold ev_mark, ev_of, stamp_of, mark_event, stamp_event. cbn. destruct (m_text m); try contradiction. reflexivity. }
  unfold lengths in *. rewrite EP in *.
  destruct (frame_written fuel (map stamp_of ss)) as (fr & E & F).
  - apply Forall_map. eapply Forall_impl; [|exact Ht]. intros m Hm. cbv beta in *. unfold stamp_of. cbn [s_parts].
    destruct (m_text m); try contradiction. exact Hm.
  - split; [|exact Ha]. intros q Hq. rewrite map_map in Hq. apply in_map_iff in Hq as (m & <- & Hm).
    assert (K := Hn (m_text m) (in_map _ _ _ Hm)). rewrite Forall_forall in Ht. apply Ht in Hm.
    unfold stamp_of. cbn [s_parts]. destruct (m_text m) as [ps| | | | | | | |]; try contradiction. cbn [text_cells] in K.
    rewrite map_map in K. exact K.
  - exact Hf.
  - exists fr. split.
    + unfold pre_frame. rewrite same_data. cbn [bind]. now rewrite EE.
    + apply (proj1 (Forall2_map_l _ stamp_of _ _)) in F. revert F. generalize (trace_len (map s_parts (map stamp_of ss))) as L. clear -Ht. intros L F. induction F as [|m r ss0 fr0 Hr F IH]; [constructor|].
      inversion Ht as [|m' ss' Hm Hs]; subst. constructor; auto. clear -Hm Hr. destruct Hr as (R1 & R2 & R3).
      unfold stamp_of in R1, R2, R3. cbn [s_parts s_time] in R1, R2, R3. unfold row_pre.
      destruct (m_text m) as [ps| | | | | | | |]; try contradiction. split; [exact R1|]. cbn [text_cells]. split.
      * intros key P Hi. apply in_map_iff in Hi as ([k [v more]] & E & Hi). injection E as <- <-. cbn [fst snd].
        destruct (R2 _ _ _ Hi) as (c & H1 & H2). eauto.
      * intros key Hk. rewrite map_map in Hk. cbn [fst] in Hk. rewrite R3 by exact Hk. reflexivity.
Qed.

(** ** The columns are finished *)
Lemma pre_none L m r key : row_pre L m r -> ~ In key (map fst (text_cells L (m_text m))) -> no_meta key -> ~ In key (map fst (snd r)).
Proof.
  intros (_ & _ & H) Hk Hm. apply (dget_None eqs eqs_eq). specialize (H key Hk). rewrite Hm in H. exact H.
Qed.
Lemma pre_in L m r key : row_pre L m r -> In key (map fst (text_cells L (m_text m))) -> exists P v, In (key, P) (text_cells L (m_text m)) /\ P v /\ dlookup key (snd r) = Some v.
Proof.
  intros (_ & H & _) Hk. apply in_map_iff in Hk as ([k P] & E & Hk). cbn in E. subst. destruct (H _ _ Hk) as (v & ? & ?). eauto.
Qed.
Lemma in_column c l key : ~ In key (map (fun x => column c (fst x)) l) -> forall k (P : cell -> Prop), In (k, P) l -> column c k <> key.
Proof. intros H k P Hi E. apply H. apply in_map_iff. exists (k, P). auto. Qed.
Lemma finished L c ss fr : fresh c ->
  (forall t, In t (map m_text ss) -> match c with
     | Renamed l => forall old new, In (old, new) l -> ~ In new (map fst (text_cells L t)) | _ => True end) ->
  Forall2 (row_pre L) ss fr -> Forall2 (row_shows c L (fun t => t)) ss (col_final c fr).
Proof.
  intros Hf Hn H.
  assert (X : forall (R : float * dict -> float * dict -> Prop) g, Forall2 R fr (g fr) ->
     (forall m r r', In m ss -> row_pre L m r -> R r r' -> row_shows c L (fun t => t) m r') -> Forall2 (row_shows c L (fun t => t)) ss (g fr)).
  { intros R g HR HS. revert HR HS. generalize (g fr) as fr'. clear -H. induction H as [|m r ss fr Hr H IH]; intros fr' HR HS; inversion HR; subst; constructor.
    - eapply HS; eauto. now left.
    - apply IH; auto. intros. eapply HS; eauto. now right. }
  destruct c as [|l| |]; cbn [col_final].
  - (* the same *)
    apply (X eq (fun f => f)); [clear; induction fr; constructor; auto|]. intros m r r' _ (P1 & P2 & P3) <-. split; [exact P1|]. split.
    + intros key P Hi. apply P2 in Hi. exact Hi.
    + intros key Hk. rewrite P3 by exact Hk. cbn. now destruct (meta_cell _ key).
  - destruct l as [|[o1 n1] [|[o2 n2] [|x l]]]; try contradiction; cbn [fresh] in Hf.
    + (* one column renamed *)
      destruct Hf as (D1 & M1 & M2). cbn [fold_left fst snd].
      apply (X _ (rename_col o1 n1) (rename_rows o1 n1 fr D1 ltac:(
        apply Forall_forall; intros r Hr; clear X; induction H as [|m r' ss fr Hp H IH]; [destruct Hr|]; destruct Hr as [->|Hr];
        [apply (pre_none L m); auto; apply (Hn (m_text m)) with o1; left; auto
        |apply IH; auto; intros t Ht; apply Hn; now right]))).
      intros m r r' Hm (P1 & P2 & P3) (R1 & R2). split; [now rewrite R1|].
      assert (Hnew : ~ In n1 (map fst (text_cells L (m_text m)))) by (apply (Hn (m_text m) (in_map _ _ _ Hm)) with o1; now left).
      split.
      * intros key P Hi. destruct (P2 _ _ Hi) as (v & Hv & E). exists v. split; auto. rewrite R2. cbn [column dget].
        destruct (eqs key o1) eqn:E1.
        -- apply eqs_eq in E1 as ->. now rewrite eqs_refl.
        -- destruct (eqs key n1) eqn:E2; [|rewrite ?E1; exact E]. apply eqs_eq in E2 as ->. exfalso. apply Hnew. apply in_map_iff. now exists (n1, P).
      * intros key Hk. assert (HK := in_column _ _ _ Hk). rewrite R2. destruct (eqs key n1) eqn:E1.
        -- apply eqs_eq in E1 as ->. rewrite P3.
           ++ rewrite M1, M2. reflexivity.
           ++ intros Hi. apply in_map_iff in Hi as ([k P] & E & Hi). cbn in E. subst k. apply (HK _ _ Hi). cbn [column dget]. now rewrite eqs_refl.
        -- destruct (eqs key o1) eqn:E2; [apply eqs_eq in E2 as ->; now rewrite M1|]. rewrite P3; [now destruct (meta_cell _ key)|].
           intros Hi. apply in_map_iff in Hi as ([k P] & E & Hi). cbn in E. subst k. apply (HK _ _ Hi). cbn [column dget]. now rewrite E2.
    + (* two columns renamed *)
      destruct Hf as ((D1 & D2 & D3 & D4 & D5 & D6) & M1 & M2 & M3 & M4). cbn [fold_left fst snd].
      apply (X _ (fun fr => rename_col o2 n2 (rename_col o1 n1 fr)) (rename_two o1 n1 o2 n2 fr D1 D2 D3 D4 D5 ltac:(
        apply Forall_forall; intros r Hr; clear X; induction H as [|m r' ss fr Hp H IH]; [destruct Hr|]; destruct Hr as [->|Hr];
        [split; apply (pre_none L m); auto; [apply (Hn (m_text m)) with o1|apply (Hn (m_text m)) with o2]; cbn; auto
        |apply IH; auto; intros t Ht; apply Hn; now right]))).
      intros m r r' Hm (P1 & P2 & P3) (R1 & R2). split; [now rewrite R1|].
      assert (Hn1 : ~ In n1 (map fst (text_cells L (m_text m)))) by (apply (Hn (m_text m) (in_map _ _ _ Hm)) with o1; now left).
      assert (Hn2 : ~ In n2 (map fst (text_cells L (m_text m)))) by (apply (Hn (m_text m) (in_map _ _ _ Hm)) with o2; right; now left).
      assert (R : forall a b : str, a <> b -> eqs a b = false) by (intros a b Hab; destruct (eqs a b) eqn:E; auto; apply eqs_eq in E; easy).
      split.
      * intros key P Hi. destruct (P2 _ _ Hi) as (v & Hv & E). exists v. split; auto. rewrite R2. cbn [column dget].
        destruct (eqs key o1) eqn:E1.
        -- apply eqs_eq in E1 as ->. now rewrite eqs_refl.
        -- destruct (eqs key o2) eqn:E2.
           ++ apply eqs_eq in E2 as ->. rewrite (R n2 n1) by auto. now rewrite eqs_refl.
           ++ destruct (eqs key n1) eqn:E3; [|destruct (eqs key n2) eqn:E4].
              ** apply eqs_eq in E3 as ->. exfalso. apply Hn1. apply in_map_iff. now exists (n1, P).
              ** apply eqs_eq in E4 as ->. exfalso. apply Hn2. apply in_map_iff. now exists (n2, P).
              ** rewrite E1, E2. exact E.
      * intros key Hk. assert (HK := in_column _ _ _ Hk). rewrite R2. destruct (eqs key n1) eqn:E1; [|destruct (eqs key n2) eqn:E2].
        -- apply eqs_eq in E1 as ->. rewrite P3; [now rewrite M1, M2|].
           intros Hi. apply in_map_iff in Hi as ([k P] & E & Hi). cbn in E. subst k. apply (HK _ _ Hi). cbn [column dget]. now rewrite eqs_refl.
        -- apply eqs_eq in E2 as ->. rewrite P3; [now rewrite M3, M4|].
           intros Hi. apply in_map_iff in Hi as ([k P] & E & Hi). cbn in E. subst k. apply (HK _ _ Hi). cbn [column dget].
           rewrite (R o2 o1) by auto. now rewrite eqs_refl.
        -- destruct (eqs key o1) eqn:E3; [apply eqs_eq in E3 as ->; cbn [orb]; now rewrite M1|].
           destruct (eqs key o2) eqn:E4; [apply eqs_eq in E4 as ->; cbn [orb]; now rewrite M3|]. cbn [orb].
           rewrite P3; [now destruct (meta_cell _ key)|].
           intros Hi. apply in_map_iff in Hi as ([k P] & E & Hi). cbn in E. subst k. apply (HK _ _ Hi). cbn [column dget]. now rewrite E3, E4.
  - (* idle *)
    apply (X _ idle_finalize (idle_rows fr)). intros m r r' _ (P1 & P2 & P3) (R1 & _ & R2). split; [etransitivity; [exact R1|exact P1]|].
    assert (K : forall key, dlookup key (snd r') = option_map (shown Idle key) (dlookup key (snd r))).
    { intros key. rewrite R2. etransitivity; [exact (idle_literal (fun _ => dlookup key (snd r)))|].
      destruct (dlookup key (snd r)) as [[z| |]|]; auto. cbn [option_map shown]. now destruct (z =? 4294967295)%Z. }
    split.
    + intros key P Hi. destruct (P2 _ _ Hi) as (v & Hv & E). exists v. split; auto. cbn [column]. now rewrite K, E.
    + intros key Hk. rewrite K, P3 by exact Hk. reflexivity.
  - (* mask *)
    apply (X _ mask_finalize (mask_rows fr)). intros m r r' _ (P1 & P2 & P3) (R1 & R2). split; [etransitivity; [exact R1|exact P1]|].
    assert (K : forall key, dlookup key (snd r') = option_map (shown Mask key) (dlookup key (snd r))).
    { intros key. rewrite R2. destruct (dlookup key (snd r)) as [v|]; cbn [option_map]; [unfold shown|]; now destruct (eqs key $"cpus"). }
    split.
    + intros key P Hi. destruct (P2 _ _ Hi) as (v & Hv & E). exists v. split; auto. cbn [column]. now rewrite K, E.
    + intros key Hk. rewrite K, P3 by exact Hk. reflexivity.
Qed.

(** ** The frame of a class *)
Theorem class_rows fuel k ss :
  Forall (fun m => text_ok (fst (kind_of k)) (m_text m)) ss ->
  titles_ok (snd (kind_of k)) (map m_text ss) ->
  (forall q, In q (parts_in (map m_text ss)) -> (arrays q < fuel)%nat) ->
  exists fr, class_frame fuel k (map ev_mark ss) = Ok fr /\
    Forall2 (row_shows (snd (kind_of k)) (lengths (map m_text ss)) (fun t => t)) ss fr.
Proof.
  intros Ht (Hn & Ha) Hf. set (L := lengths (map m_text ss)) in *.
  assert (X : exists fr, pre_frame fuel (fst (kind_of k)) (map ev_mark ss) = Ok fr /\ Forall2 (row_pre L) ss fr).
  { destruct (fst (kind_of k)) eqn:Ef.
    1:{ apply fields_frame; auto. intros t Hi. now apply Hn. }
    all: apply good_frame; rewrite Forall_forall in Ht |- *; intros m Hm; destruct (Hn _ (in_map m_text _ _ Hm)) as [HN _];
      split; [apply text_good; [discriminate|now apply Ht|exact HN]|exact HN]. }
  destruct X as (fr & E & F). exists (col_final (snd (kind_of k)) fr). split.
  - rewrite frame_pre, E. reflexivity.
  - apply finished; auto; [apply table|]. intros t Hi. destruct (Hn t Hi) as [_ HR]. now destruct (snd (kind_of k)).
Qed.
