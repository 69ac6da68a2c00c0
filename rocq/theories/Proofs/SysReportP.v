(** Systrace pages are read into frames (systrace.py:54-102). *)
From Coq Require Import List Ascii String ZArith NArith Bool Lia Sorted Permutation.
From Verif Require Import Lib.PyStr Lib.PyStrFacts Lib.F64 Lib.F64Facts Lib.F64Ord
  Model.Base Model.Line Model.Registry Model.Populate Model.Window Model.Cache Model.Classes Model.Systrace Model.SysReport
  Spec.Lines Spec.Payload Spec.Arrays Spec.Parts Spec.Trace Spec.Interval Spec.Select Spec.Written Spec.Events Spec.Classes Spec.Marks Spec.SysReport
  Proofs.FrameP Proofs.LineP Proofs.PopulateP Proofs.RegistryP Proofs.WindowP Proofs.WrittenP Proofs.WrittenQ Proofs.EventsP Proofs.ClassesP Proofs.ClassesQ
  Proofs.SystraceP.
From Verif Require Proofs.LineReadP.
Import ListNotations.
Local Open Scope list_scope.

(** ** The lines of a page *)
Lemma drop_before_begin pre b r : Never is_begin pre -> is_begin b -> drop_before true true (pre ++ b :: r) = drop_before false true r.
Proof.
  intros H Hb. induction H as [|l pre Hl H IH]; cbn [app drop_before].
  - apply begin_iff in Hb. now rewrite Hb.
  - destruct (begin_marker l) eqn:E; [apply begin_iff in E; contradiction|exact IH].
Qed.
Lemma drop_before_data mid d r : Never is_data mid -> is_data d -> drop_before false true (mid ++ d :: r) = drop_before false false (d :: r).
Proof.
  intros H Hb. induction H as [|l pre Hl H IH]; cbn [app drop_before].
  - apply data_iff in Hb. now rewrite Hb.
  - destruct (data_marker l) eqn:E; [apply data_iff in E; contradiction|exact IH].
Qed.
Lemma drop_before_junk hdr r : Forall junk_ok hdr -> drop_before false false (hdr ++ r) = drop_before false false r.
Proof. induction 1 as [|l hdr Hl H IH]; auto. cbn [app drop_before]. rewrite junk_line by auto. exact IH. Qed.
Lemma take_tail lines tail : Never is_end lines -> tail = [] \/ (exists e post, tail = e :: post /\ is_end e) ->
  take_while (fun l => negb (is_suffix end_line l)) (lines ++ tail) = lines.
Proof.
  intros H Ht. induction H as [|l lines Hl H IH]; cbn [app].
  - destruct Ht as [->|(e & post & -> & He)]; [reflexivity|]. cbn [take_while]. apply end_iff in He. now rewrite He.
  - cbn [take_while]. destruct (is_suffix end_line l) eqn:E; [apply end_iff in E; contradiction|]. cbn [negb]. now rewrite IH.
Qed.
Lemma page_body lines file : Page lines file -> match lines with [] => True | l :: _ => is_trace_line l = true end ->
  systrace_body file = lines.
Proof.
  intros [pre b mid d hdr tail H1 H2 H3 H4 H5 H6 H7] Hl. unfold systrace_body.
  rewrite drop_before_begin, drop_before_data by auto.
  change (d :: hdr ++ lines ++ tail) with ((d :: hdr) ++ lines ++ tail). rewrite drop_before_junk by auto.
  destruct lines as [|l lines].
  - destruct H7 as [->|[E _]]; [reflexivity|congruence].
  - cbn [app drop_before]. rewrite Hl. change (l :: lines ++ tail) with ((l :: lines) ++ tail).
    apply take_tail; auto. destruct H7 as [->|[_ H7]]; auto.
Qed.
Lemma begins_line defs items : begins items -> Forall (entry_ok defs) items ->
  match map entry_str items with [] => True | l :: _ => is_trace_line l = true end.
Proof.
  intros Hs Hok. destruct items as [|i items]; [exact I|]. cbn [map]. inversion Hok; subst.
  destruct i as [l|L|L a t]; [destruct Hs| |]; cbn [entry_str]; apply trace_line; auto;
    match goal with H : entry_ok _ _ |- _ => apply H end.
Qed.

(** ** The frame of the markers *)
Lemma marker_nodup s d : Marker s d -> NoDup (map fst d).
Proof.
  intros H. assert (X : map fst d = [$"string"] \/ map fst d = [$"event"; $"pid"; $"func"; $"data"]) by (destruct H; cbn; auto).
  destruct X as [-> | ->]; repeat constructor; cbn; intuition discriminate.
Qed.
Lemma markers_frame fuel ss : Forall (fun m => ~ In "{"%char (text_str (m_text m))) ss ->
  exists fr, create_dataframe fuel (fallback_data_dict systrace_data_dict) (map ev_mark ss) = Ok fr /\
    Forall2 (fun m r => fst r = m_time m /\ marker_shows m (snd r)) ss fr.
Proof.
  intros H.
  assert (X : exists ds, Forall2 (fun m d => Marker (text_str (m_text m)) d) ss ds).
  { clear H. induction ss as [|m ss (ds & IH)]; [exists []; constructor|].
    destruct (marker_total (text_str (m_text m))) as (d & Hd). exists (d :: ds). now constructor. }
  destruct X as (ds & HD).
  destruct (frame_plain fuel (fallback_data_dict systrace_data_dict) (map ev_mark ss) ds) as (fr & E & F).
  - apply Forall_map. exact H.
  - apply Forall2_map_l. clear -HD. induction HD as [|m d ss ds Hd _ IH]; constructor; auto.
    split; [now apply marker_iff|now apply marker_nodup in Hd].
  - exists fr. split; auto. clear E H. revert fr F. induction HD as [|m d ss ds Hd HD IH]; intros fr F; cbn [combine map] in F.
    + inversion F; constructor.
    + inversion F as [|y r l l' (F1 & F2) F3 Ey Er]; subst. constructor; auto. cbn [fst snd] in *.
      split; [exact F1|]. exists d. split; auto.
Qed.
Lemma events_frame fuel k ss :
  Forall (fun m => text_ok (fst (kind_of k)) (m_text m)) ss ->
  titles_ok (snd (kind_of k)) (map m_text ss) ->
  (forall q, In q (parts_in (map m_text ss)) -> (arrays q < fuel)%nat) ->
  exists fr, sys_frame fuel k (map ev_mark ss) = Ok fr /\
    Forall2 (event_shown k (lengths (map m_text ss)) (fun t => t)) ss fr.
Proof.
  intros H1 H2 H3. unfold sys_frame. destruct (eqs_spec (k_pyname k) $"TracingMarkWrite") as [E|E].
  - destruct (markers_frame fuel ss) as (fr & Efr & HF).
    + assert (K : fst (kind_of k) = Free) by (unfold kind_of; rewrite E; reflexivity). rewrite K in H1.
      eapply Forall_impl; [|exact H1]. intros m Hm. cbn beta in Hm. destruct (m_text m); try contradiction. exact Hm.
    + exists fr. split; auto. eapply Forall2_impl; [|exact HF]. intros m r (A & B). split; [exact A|]. split; [auto|congruence].
  - destruct (class_rows fuel k ss H1 H2 H3) as (fr & Efr & HF). exists fr. split; auto.
    eapply Forall2_impl; [|exact HF]. intros m r (A & B & C). split; [exact A|]. split; [congruence|]. intros _. split; auto.
Qed.

(** ** The trace, whatever the frames of the classes are *)
Section Read.
  Context {content digest header csv : Type}.
  Variables (deq : digest -> digest -> bool) (md5 : content -> digest)
            (body : content -> list str) (head : content -> header)
            (enc : frame -> csv) (dec : csv -> option frame) (mk : klass -> list event -> res frame)
            (Q : str -> klass -> mark -> dict -> Prop).
  Definition RS (a : str) (k : klass) (shift : float -> float) (m : mark) (r : float * dict) : Prop :=
    fst r = shift (m_time m) /\ Q a k m (snd r).
  Notation parse := (do_parse deq md5 body head enc dec mk).

  Lemma entries_core_gen defs items : Forall (entry_ok defs) items ->
    exists st ts us, populate (map (fun d => (k_word (snd d), d)) defs) fzero (map entry_str items) = Ok st /\
      Forall2 printed_time (entry_lines items) ts /\ Forall (fun t => nn t = true) ts /\ Assigned fzero ts us /\
      p_base st = hd fzero us /\ p_end st = last us fzero /\ List.length us = List.length (entry_lines items) /\
      forall a, arr a st = map ev_mark (filter (has_attr a) (marked 0 items us)).
  Proof.
    intros Hok. set (ws := map (fun d => (k_word (snd d), d)) defs).
    destruct (pop_lines_total ws (map entry_str items) (PSt fzero fzero 0 (map (fun e => (fst (snd e), [])) ws)) eq_refl)
      as (st & Hst & _).
    exists st, (map line_time (entry_lines items)).
    destruct (populate_spec ws fzero _ st Hst) as (us & HA & HE & HB & HLn & _ & HR).
    rewrite (times_entries defs) in HA by auto. exists us. split; [exact Hst|]. split; [|split; [|split; [exact HA|split; [exact HB|split; [exact HE|split]]]]].
    - clear -Hok. induction Hok as [|it items Hi _ IH]; [constructor|].
      destruct it as [l|L|L a t]; [exact IH| |]; (constructor; [apply line_time_printed, Hi|exact IH]).
    - rewrite <- (times_entries defs items Hok 0%Z). apply parsed_nn.
    - apply Assigned_length in HA. rewrite map_length in HA. auto.
    - intros a. exact (recorded_entries defs a items Hok 0%Z us _ (HR a)).
  Qed.

  Theorem read_gen (c : config) (s : fsys) items :
    NoDup (map fst (c_defs c)) -> NoDup (map (fun d => k_word (snd d)) (c_defs c)) ->
    c_nocache c = true \/ (f_cache s = None /\ c_defs c <> []) ->
    body (f_trace s) = map entry_str items ->
    Forall (entry_ok (c_defs c)) items ->
    (forall a k us, In (a, k) (c_defs c) -> List.length us = List.length (entry_lines items) ->
       exists fr, mk k (map ev_mark (filter (has_attr a) (marked 0 items us))) = Ok fr /\
         Forall2 (RS a k (fun t => t)) (filter (has_attr a) (marked 0 items us)) fr) ->
    exists tr ts us st, fst (parse c s) = Ok tr /\
      populate (map (fun d => (k_word (snd d), d)) (c_defs c)) fzero (map entry_str items) = Ok st /\
      (forall a, arr a st = map ev_mark (filter (has_attr a) (marked 0 items us))) /\
      Forall2 printed_time (entry_lines items) ts /\ Assigned fzero ts us /\
      t_base tr = hd fzero us /\ t_end tr = last us fzero /\ t_head tr = Some (head (f_trace s)) /\
      map fst (t_frames tr) = map fst (c_defs c) /\
      (windows_ok (c_win c) (c_abs c) (t_base tr) -> forall a k, In (a, k) (c_defs c) ->
       exists fr, dget eqs a (t_frames tr) = Some fr /\
         Forall2 (RS a k (fun t => if c_norm c then fsub t (t_base tr) else t))
           (filter (fun x => eqs a (m_attr x) && in_both (c_win c) (c_abs c) (t_base tr) (m_time x)) (marked 0 items us)) fr).
  Proof.
    intros Nk Nw Hnc Hfile Hok Hmk.
    set (ws := map (fun d => (k_word (snd d), d)) (c_defs c)) in *.
    destruct (entries_core_gen (c_defs c) items Hok) as (st & ts & us & Hst & Hts & Hnn & HA & HB & HE & HL & HF).
    assert (Hall : Forall (fun d => exists x, (do f <- mk (snd d) (arr (fst d) st) ;; Ok (fst d, f)) = Ok x /\
        (fst x = fst d /\ Forall2 (RS (fst d) (snd d) (fun t => t))
                        (filter (has_attr (fst d)) (marked 0 items us)) (snd x))) (c_defs c)).
    { apply Forall_forall. intros [a k] Hi. destruct (Hmk a k us Hi HL) as (fr & Efr & HR). exists (a, fr). cbn [fst snd]. rewrite HF, Efr.
      split; [reflexivity|]. split; [reflexivity|exact HR]. }
    apply mapM_rows in Hall as (fs & Efs & Hfs).
    assert (Ek : map fst fs = map fst (c_defs c)).
    { clear -Hfs. induction Hfs as [|d x l l' [E _] _ IH]; auto. cbn [map]. now rewrite E, IH. }
    set (win := if ftruthy (p_base st) then calc_max_window (c_win c) (c_abs c) (p_base st) else (fzero, None)).
    assert (Hp : fst (parse c s) = Ok (Tr (finish c (p_base st) win fs) (p_base st) (p_end st) (Some (head (f_trace s))))).
    { unfold do_parse.
      assert (El : (if c_nocache c then Ok (None, []) else load deq md5 s) = Ok (None, [])).
      { destruct Hnc as [-> |[E _]]; auto. destruct (c_nocache c); auto. unfold load. now rewrite E. }
      rewrite El.
      assert (Eb : negb (c_nocache c) && forallb (fun d => is_cached (digest:=digest) (header:=header) dec None (snd d)) (c_defs c) = false).
      { destruct Hnc as [-> |[_ E]]; auto. destruct (c_defs c); [congruence|]. now rewrite andb_false_r. }
      rewrite Eb. rewrite (word_table_ok _ (c_defs c) []) by (cbn; now rewrite map_map).
      rewrite filter_all by (intros x _; now destruct (dget eqs (fst x) (c_defs c))).
      replace ([] ++ map Select.entry (c_defs c)) with ws by (apply map_ext; now intros [a k]).
      cbn [bind]. rewrite Hfile. unfold ws. rewrite Hst. cbn [bind cached_frame].
      match goal with |- context [mapM ?f (c_defs c)] =>
        replace (mapM f (c_defs c)) with (Ok fs) by (rewrite <- Efs; reflexivity) end.
      cbn [bind fst]. reflexivity. }
    exists (Tr (finish c (p_base st) win fs) (p_base st) (p_end st) (Some (head (f_trace s)))), ts, us, st.
    cbn [t_base t_end t_head t_frames]. do 8 (split; [assumption || reflexivity|]).
    assert (Lf : List.length (apply_user (c_norm c) (p_base st) win (map snd fs)) = List.length fs).
    { unfold apply_user. destruct (c_norm c); now rewrite !map_length. }
    split.
    { unfold finish. rewrite <- Ek. rewrite combine_fst; auto. now rewrite map_length. }
    intros Hw a k Hi.
    assert (Hx : exists f, In (a, f) fs /\ Forall2 (RS a k (fun t => t))
                        (filter (has_attr a) (marked 0 items us)) f).
    { clear -Hfs Hi. induction Hfs as [|d x l l' [E HR] _ IH]; [destruct Hi|]. destruct Hi as [->|Hi].
      - cbn [fst] in *. exists (snd x). split; [left; destruct x; cbn in *; now rewrite E|exact HR].
      - destruct (IH Hi) as (f & ? & ?). exists f. split; [now right|auto]. }
    destruct Hx as (f & Hin & HR).
    set (out := (if c_norm c then normalize_time (p_base st) else fun g => g) (windowify win f)).
    exists out. split.
    { apply (In_dget eqs eqs_eq).
      - unfold finish. rewrite combine_fst by (now rewrite map_length). now rewrite Ek.
      - unfold finish, apply_user, out. clear -Hin. induction fs as [|x fs IH]; [destruct Hin|].
        destruct (c_norm c); cbn [map combine]; (destruct Hin as [->|Hin]; [left; reflexivity|right; now apply IH]). }
    assert (Hnu : Forall (fun u => nn u = true) us /\ Forall (fun u => ftruthy u = true) us).
    { destruct (Assigned_sorted _ _ _ (eq_refl : nn fzero = true) Hnn HA) as (S1 & _ & S3 & _). split; auto.
      eapply Forall_impl; [|exact S1]. cbv beta. tauto. }
    assert (Hso := Assigned_fle fzero ts us eq_refl Hnn HA).
    set (ss := filter (has_attr a) (marked 0 items us)) in *.
    assert (Et : map fst f = map m_time ss).
    { clear -HR. induction HR as [|x r l l' (E & _) _ IH]; auto. cbn [map]. now rewrite E, IH. }
    assert (Hss : StronglySorted (fun x y => fle (m_time x) (m_time y) = true) ss).
    { apply sorted_filter. now apply (marked_sorted (fun a b => fle a b = true)). }
    assert (Hsn : Forall (fun x => nn (m_time x) = true) ss).
    { apply Forall_forall. intros x Hx. apply filter_In in Hx as [Hx _].
      assert (K := marked_forall (fun t => nn t = true) items 0%Z us (proj1 Hnu)). rewrite Forall_forall in K. auto. }
    assert (Hbase : ss = [] \/ ftruthy (p_base st) = true).
    { rewrite HB. destruct us as [|u us']; [left|right].
      - unfold ss. replace (marked 0 items []) with (@nil mark); auto. generalize 0%Z. clear.
        induction items as [|[l|L|L b ps] r IH]; intros z; auto. cbn [marked]. apply IH.
      - destruct Hnu as [_ HT]. now inversion HT. }
    assert (Hfs' : time_sorted f).
    { unfold time_sorted. clear -Et Hss. revert f Et. induction Hss as [|x l _ IH HFl]; intros [|r f] E; try discriminate; constructor.
      - injection E as _ E. now apply IH.
      - injection E as E1 E. apply Forall_forall. intros r' Hr'. assert (Hm : In (fst r') (map m_time l)) by (rewrite <- E; now apply in_map).
        apply in_map_iff in Hm as (y & Ey & Hy). rewrite Forall_forall in HFl. apply HFl in Hy. now rewrite E1, <- Ey. }
    assert (Hfn : Forall (fun r => nn (fst r) = true) f).
    { apply (Forall_map fst (fun t => nn t = true)). rewrite Et. now apply (Forall_map m_time (fun t => nn t = true)). }
    assert (Eo : windowify win f = filter (fun r => in_both (c_win c) (c_abs c) (p_base st) (fst r)) f).
    { destruct Hbase as [E|E].
      - rewrite E in Et. destruct f; [reflexivity|discriminate].
      - unfold win. rewrite E. now apply window_exact. }
    rewrite (filter_ext _ (fun x => has_attr a x && in_both (c_win c) (c_abs c) (p_base st) (m_time x))) by reflexivity.
    rewrite <- filter_filter. fold ss.
    assert (HW : Forall2 (RS a k (fun t => t))
                   (filter (fun x => in_both (c_win c) (c_abs c) (p_base st) (m_time x)) ss) (windowify win f)).
    { rewrite Eo. apply Forall2_filter. eapply Forall2_impl; [|exact HR]. intros x r Hr. split; auto. destruct Hr as (-> & _). reflexivity. }
    unfold out. destruct (c_norm c); [|exact HW].
    unfold normalize_time. destruct (ftruthy (p_base st)) eqn:Eb.
    - apply Forall2_map_r. eapply Forall2_impl; [|exact HW]. intros x r (E1 & E2). cbn in *. unfold RS. cbn [fst snd]. rewrite E1. split; auto.
    - destruct Hbase as [E|E]; [|congruence]. rewrite E in HW |- *. inversion HW; subst. constructor.
  Qed.
End Read.

(** ** The pages *)
Section Pages.
  Context {content digest header csv : Type}.
  Variables (deq : digest -> digest -> bool) (md5 : content -> digest)
            (file : content -> list str) (head : content -> header)
            (enc : frame -> csv) (dec : csv -> option frame) (fuel : nat).
  Notation parse := (sys_parse deq md5 file head enc dec fuel).
  Notation construct := (sys_construct deq md5 file head enc dec fuel).

  Lemma page_read (c : config) (s : fsys) items :
    NoDup (map fst (c_defs c)) -> NoDup (map (fun d => k_word (snd d)) (c_defs c)) ->
    c_nocache c = true \/ (f_cache s = None /\ c_defs c <> []) ->
    Page (map entry_str items) (file (f_trace s)) ->
    begins items -> Forall (entry_ok (c_defs c)) items ->
    (forall a k, In (a, k) (c_defs c) -> titles_ok (snd (kind_of k)) (texts_of a items) /\
       forall q, In q (parts_in (texts_of a items)) -> (arrays q < fuel)%nat) ->
    exists tr ts us st, fst (parse c s) = Ok tr /\
      populate (map (fun d => (k_word (snd d), d)) (c_defs c)) fzero (systrace_body (file (f_trace s))) = Ok st /\
      (forall a, arr a st = map ev_mark (filter (has_attr a) (marked 0 items us))) /\
      Forall2 printed_time (entry_lines items) ts /\ Assigned fzero ts us /\
      t_base tr = hd fzero us /\ t_end tr = last us fzero /\ t_head tr = Some (head (f_trace s)) /\
      map fst (t_frames tr) = map fst (c_defs c) /\
      (windows_ok (c_win c) (c_abs c) (t_base tr) -> forall a k, In (a, k) (c_defs c) ->
       exists fr, dget eqs a (t_frames tr) = Some fr /\
         Forall2 (event_shown k (lengths (texts_of a items)) (fun t => if c_norm c then fsub t (t_base tr) else t))
           (filter (fun x => eqs a (m_attr x) && in_both (c_win c) (c_abs c) (t_base tr) (m_time x)) (marked 0 items us)) fr).
  Proof.
    intros Nk Nw Hnc Hp Hb Hok Hc.
    assert (Eb : systrace_body (file (f_trace s)) = map entry_str items) by (apply (page_body _ _ Hp); now apply (begins_line (c_defs c))).
    destruct (read_gen deq md5 (fun x => systrace_body (file x)) head enc dec (sys_frame fuel)
        (fun a k m r => (k_pyname k = $"TracingMarkWrite" -> marker_shows m r) /\
           (k_pyname k <> $"TracingMarkWrite" -> fields_shown (snd (kind_of k)) (lengths (texts_of a items)) m r)) c s items Nk Nw Hnc Eb Hok)
      as (tr & ts & us & st & A & B & C & D).
    - intros a k us Hi HL. destruct (Hc a k Hi) as [C1 C2]. assert (ET := texts_marked a items 0%Z us HL). rewrite <- ET in C1, C2.
      destruct (events_frame fuel k _ (marked_texts (c_defs c) a k items Hi Hok 0%Z us) C1 C2) as (fr & E1 & E2).
      exists fr. split; [exact E1|]. rewrite ET in E2. exact E2.
    - exists tr, ts, us, st. rewrite Eb. split; [exact A|]. split; [exact B|]. split; [exact C|]. exact D.
  Qed.

  Theorem page_trace (c : config) (s : fsys) items :
    NoDup (map fst (c_defs c)) -> NoDup (map (fun d => k_word (snd d)) (c_defs c)) ->
    c_nocache c = true \/ (f_cache s = None /\ c_defs c <> []) ->
    Page (map entry_str items) (file (f_trace s)) ->
    begins items -> Forall (entry_ok (c_defs c)) items ->
    (forall a k, In (a, k) (c_defs c) -> titles_ok (snd (kind_of k)) (texts_of a items) /\
       forall q, In q (parts_in (texts_of a items)) -> (arrays q < fuel)%nat) ->
    exists tr ts us, fst (parse c s) = Ok tr /\
      Forall2 printed_time (entry_lines items) ts /\ Assigned fzero ts us /\
      t_base tr = hd fzero us /\ t_end tr = last us fzero /\ t_head tr = Some (head (f_trace s)) /\
      map fst (t_frames tr) = map fst (c_defs c) /\
      (windows_ok (c_win c) (c_abs c) (t_base tr) -> forall a k, In (a, k) (c_defs c) ->
       exists fr, dget eqs a (t_frames tr) = Some fr /\
         Forall2 (event_shown k (lengths (texts_of a items)) (fun t => if c_norm c then fsub t (t_base tr) else t))
           (filter (fun x => eqs a (m_attr x) && in_both (c_win c) (c_abs c) (t_base tr) (m_time x)) (marked 0 items us)) fr).
  Proof.
    intros H1 H2 H3 H4 H5 H6 H7. destruct (page_read c s items H1 H2 H3 H4 H5 H6 H7) as (tr & ts & us & st & A & _ & _ & B).
    exists tr, ts, us. split; [exact A|exact B].
  Qed.

  (** The cpus. *)
  Lemma shown_cpu k L shift m r : k_pyname k = $"SchedSwitch" -> text_ok (fst (kind_of k)) (m_text m) ->
    event_shown k L shift m r -> dlookup $"__cpu" (snd r) = Some (CInt (cpu_of m)).
  Proof.
    intros Ek Ht (_ & _ & H). unfold kind_of in *. rewrite Ek in *. cbn in Ht, H.
    destruct H as [_ H]; [discriminate|]. destruct (m_text m) eqn:Em; try contradiction.
    rewrite H; [reflexivity|]. cbn. intuition discriminate.
  Qed.
  Lemma column_cpus k L shift ss fr : k_pyname k = $"SchedSwitch" -> Forall (fun m => text_ok (fst (kind_of k)) (m_text m)) ss ->
    Forall2 (event_shown k L shift) ss fr -> cpu_column fr = Ok (map cpu_of ss).
  Proof.
    intros Ek Ht H. unfold cpu_column. induction H as [|m r ss fr Hr H IH]; [reflexivity|]. inversion Ht; subst.
    cbn [mapM map]. rewrite (shown_cpu k L shift m r) by auto. cbn [bind]. rewrite IH by auto. reflexivity.
  Qed.
  Lemma on_cpus_max m ss n : n = (1 + maxz (cpu_of m) (map cpu_of ss))%Z <-> on_cpus (m :: ss) n.
  Proof.
    destruct (maxz_spec (map cpu_of ss) (cpu_of m)) as [A B]. change (cpu_of m :: map cpu_of ss) with (map cpu_of (m :: ss)) in *.
    split.
    - intros ->. split.
      + apply in_map_iff in A as (x & E & Hx). exists x. split; auto. lia.
      + intros x Hx. specialize (B _ (in_map cpu_of _ _ Hx)). lia.
    - intros ((x & Hx & ->) & H). apply in_map_iff in A as (y & E & Hy). specialize (H y Hy). specialize (B _ (in_map cpu_of _ _ Hx)). lia.
  Qed.
  Lemma page_all (c : config) (s : fsys) items k :
    NoDup (map fst (c_defs c)) -> NoDup (map (fun d => k_word (snd d)) (c_defs c)) ->
    c_nocache c = true \/ (f_cache s = None /\ c_defs c <> []) ->
    Page (map entry_str items) (file (f_trace s)) ->
    begins items -> Forall (entry_ok (c_defs c)) items ->
    (forall a k, In (a, k) (c_defs c) -> titles_ok (snd (kind_of k)) (texts_of a items) /\
       forall q, In q (parts_in (texts_of a items)) -> (arrays q < fuel)%nat) ->
    In ($"sched_switch", k) (c_defs c) -> k_pyname k = $"SchedSwitch" ->
    exists tr ts us, fst (parse c s) = Ok tr /\
      Forall2 printed_time (entry_lines items) ts /\ Assigned fzero ts us /\ t_base tr = hd fzero us /\ t_end tr = last us fzero /\
      (texts_of $"sched_switch" items = [] -> construct c s = Err EKey) /\
      (windows_ok (c_win c) (c_abs c) (t_base tr) ->
       let ss := filter (fun x => eqs $"sched_switch" (m_attr x) && in_both (c_win c) (c_abs c) (t_base tr) (m_time x)) (marked 0 items us) in
       (exists fr, dget eqs $"sched_switch" (t_frames tr) = Some fr /\
         Forall2 (event_shown k (lengths (texts_of $"sched_switch" items)) (fun t => if c_norm c then fsub t (t_base tr) else t)) ss fr) /\
       Forall (fun m => text_ok (fst (kind_of k)) (m_text m)) ss /\
       (texts_of $"sched_switch" items <> [] ->
        construct c s = Ok (tr, Some match map cpu_of ss with [] => NoRows | z :: r => Cpus (1 + maxz z r) end))).
  Proof.
    intros Nk Nw Hnc Hp Hb Hok Hc Hk Ek.
    destruct (page_read c s items Nk Nw Hnc Hp Hb Hok Hc) as (tr & ts & us & st & A & B & C & D & E & F & G & _ & I & J).
    exists tr, ts, us. split; [exact A|]. do 4 (split; [assumption|]).
    assert (HL : List.length us = List.length (entry_lines items)).
    { apply Assigned_length in E. clear -D E. revert E. generalize (List.length us). induction D; intros n <-; cbn; [reflexivity|]. now rewrite (IHD _ eq_refl). }
    assert (HT := texts_marked $"sched_switch" items 0%Z us HL).
    assert (HR : sys_recorded file c s = match texts_of $"sched_switch" items with [] => false | _ => true end).
    { unfold sys_recorded. rewrite B. specialize (C $"sched_switch"). unfold arr in C. rewrite <- HT.
      destruct (dget eqs $"sched_switch" (p_events st)) as [l|]; [subst l|]; destruct (filter _ _); cbn [map] in *; congruence. }
    assert (HK : exists fr, dget eqs $"sched_switch" (t_frames tr) = Some fr).
    { assert (X : In $"sched_switch" (map fst (t_frames tr))) by (rewrite I; exact (in_map fst _ _ Hk)).
      destruct (dget eqs $"sched_switch" (t_frames tr)) eqn:Ed; [eauto|]. exfalso. now apply (dget_None eqs eqs_eq) in Ed. }
    split.
    - intros Et. unfold sys_construct. rewrite A. cbn [bind]. rewrite HR, Et. destruct HK as (fr & ->). reflexivity.
    - intros Hw. cbv zeta. destruct (J Hw _ _ Hk) as (fr & Efr & HF).
      set (ss := filter _ _) in HF |- *.
      assert (Ht : Forall (fun m => text_ok (fst (kind_of k)) (m_text m)) ss).
      { assert (X := marked_texts (c_defs c) _ _ items Hk Hok 0%Z us). rewrite Forall_forall in X |- *. intros m Hm. apply X.
        apply filter_In in Hm as [Hm Hm2]. apply andb_true_iff in Hm2 as [Hm2 _]. now apply filter_In. }
      split; [eauto|]. split; [exact Ht|]. intros Et.
      unfold sys_construct. rewrite A. cbn [bind]. rewrite HR, Efr. destruct (texts_of $"sched_switch" items); [congruence|].
      cbn [count_cpus]. rewrite (column_cpus _ _ _ _ _ Ek Ht HF). reflexivity.
  Qed.
  Theorem page_cpus (c : config) (s : fsys) items k :
    NoDup (map fst (c_defs c)) -> NoDup (map (fun d => k_word (snd d)) (c_defs c)) ->
    c_nocache c = true \/ (f_cache s = None /\ c_defs c <> []) ->
    Page (map entry_str items) (file (f_trace s)) ->
    begins items -> Forall (entry_ok (c_defs c)) items ->
    (forall a k, In (a, k) (c_defs c) -> titles_ok (snd (kind_of k)) (texts_of a items) /\
       forall q, In q (parts_in (texts_of a items)) -> (arrays q < fuel)%nat) ->
    In ($"sched_switch", k) (c_defs c) -> k_pyname k = $"SchedSwitch" ->
    exists tr ts us, fst (parse c s) = Ok tr /\
      Forall2 printed_time (entry_lines items) ts /\ Assigned fzero ts us /\ t_base tr = hd fzero us /\
      (texts_of $"sched_switch" items = [] -> construct c s = Err EKey) /\
      (texts_of $"sched_switch" items <> [] -> windows_ok (c_win c) (c_abs c) (t_base tr) ->
       let ss := filter (fun x => eqs $"sched_switch" (m_attr x) && in_both (c_win c) (c_abs c) (t_base tr) (m_time x)) (marked 0 items us) in
       (ss = [] -> construct c s = Ok (tr, Some NoRows)) /\
       (ss <> [] -> exists n, construct c s = Ok (tr, Some (Cpus n)) /\ on_cpus ss n)).
  Proof.
    intros Nk Nw Hnc Hp Hb Hok Hc Hk Ek.
    destruct (page_all c s items k Nk Nw Hnc Hp Hb Hok Hc Hk Ek) as (tr & ts & us & A & B & C & D & _ & E & F).
    exists tr, ts, us. do 5 (split; [assumption|]). intros Et Hw. cbv zeta. destruct (F Hw) as (_ & _ & X). specialize (X Et).
    rewrite X. set (ss := filter _ _). destruct ss as [|m ss]; split; try congruence; [reflexivity|]. intros _. cbn [map].
    eexists. split; [reflexivity|]. now apply on_cpus_max.
  Qed.

  (** Without the class, no cpus and no error. *)
  Theorem page_no_cpus (c : config) (s : fsys) tr : fst (parse c s) = Ok tr -> ~ In $"sched_switch" (map fst (t_frames tr)) ->
    construct c s = Ok (tr, None).
  Proof.
    intros A H. unfold sys_construct. rewrite A. cbn [bind]. apply (dget_None eqs eqs_eq) in H.
    replace (dget eqs $"sched_switch" (t_frames tr)) with (@None frame) by (symmetry; exact H). reflexivity.
  Qed.
End Pages.

Lemma marker_parts m r x n f d : m_text m = TFree (x :: bar :: str_of_N n ++ bar :: f ++ bar :: d) ->
  capital x -> ~ In bar f -> ~ In newline d -> marker_shows m r ->
  dlookup $"event" r = Some (CStr [x]) /\ dlookup $"pid" r = Some (CInt (Z.of_N n)) /\
  dlookup $"func" r = Some (CStr f) /\ dlookup $"data" r = Some (CStr d).
Proof.
  intros E H1 H2 H3 (c & Hc & H). rewrite E in Hc. cbn [text_str] in Hc. apply marker_iff in Hc. rewrite marker_printed in Hc by auto.
  injection Hc as <-. rewrite !H. auto.
Qed.
