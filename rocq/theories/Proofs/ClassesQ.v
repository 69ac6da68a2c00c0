(** Reports of the events trappy knows are read back (ftrace.py:315-335, bare_trace.py:138-145). *)
From Coq Require Import List Ascii String ZArith NArith Bool Lia Sorted Permutation.
From Verif Require Import Lib.PyStr Lib.PyStrFacts Lib.F64 Lib.F64Facts Lib.F64Ord
  Model.Base Model.Line Model.Registry Model.Populate Model.Window Model.Cache Model.Classes
  Spec.Lines Spec.Payload Spec.Arrays Spec.Parts Spec.Trace Spec.Interval Spec.Select Spec.Written Spec.Events Spec.Classes
  Proofs.FrameP Proofs.LineP Proofs.PopulateP Proofs.RegistryP Proofs.WindowP Proofs.WrittenP Proofs.WrittenQ Proofs.ClassesP.
Import ListNotations.

Lemma body_entries defs hdr items : Forall junk_ok hdr -> begins items -> Forall (entry_ok defs) items ->
  ftrace_body (hdr ++ map entry_str items) = map entry_str items.
Proof.
  intros H Hs Hok. unfold ftrace_body. induction H as [|l hdr Hl H IH]; cbn [app drop_until].
  - destruct items as [|i items]; [reflexivity|]. cbn [map drop_until]. inversion Hok; subst.
    assert (T : is_trace_line (entry_str i) = true).
    { destruct i as [l|L|L a t]; [destruct Hs| |]; cbn [entry_str]; apply trace_line; auto;
        match goal with H : entry_ok _ _ |- _ => apply H end. }
    now rewrite T.
  - now rewrite junk_line.
Qed.
Definition has_attr (a : str) (m : mark) : bool := eqs a (m_attr m).
Lemma times_entries defs items : Forall (entry_ok defs) items -> forall i,
  map (fun p => f_time (snd p)) (parsed i (map entry_str items)) = map line_time (entry_lines items).
Proof.
  induction 1 as [|it items Hi H IH]; intros i; [reflexivity|]. cbn [map parsed].
  destruct it as [l|L|L a t]; cbn [entry_ok] in Hi.
  - cbn [entry_str]. rewrite junk_fields by auto. apply IH.
  - cbn [entry_str]. rewrite item_fields by apply Hi. cbn [map snd f_time fields_of]. rewrite IH. reflexivity.
  - cbn [entry_str]. rewrite item_fields by apply Hi. cbn [map snd f_time fields_of]. rewrite IH. reflexivity.
Qed.
Lemma dispatch_class (defs : list (str * klass)) line a : Dispatch (map (fun d => (k_word (snd d), d)) defs) line a -> exists k, In (a, k) defs.
Proof.
  intros (pre & w & k & post & E & _). assert (Hi : In (w, (a, k)) (map (fun d => (k_word (snd d), d)) defs)).
  { rewrite E. apply in_or_app. right. now left. }
  apply in_map_iff in Hi as (d & Ed & Hi). injection Ed as _ ->. eauto.
Qed.
Lemma recorded_entries defs a items : Forall (entry_ok defs) items -> forall i us es,
  Recorded (map (fun d => (k_word (snd d), d)) defs) a (parsed i (map entry_str items)) us es ->
  es = map ev_mark (filter (has_attr a) (marked i items us)).
Proof.
  set (ws := map (fun d => (k_word (snd d), d)) defs).
  induction 1 as [|it items Hi H IH]; intros i us es HR.
  - cbn in HR. inversion HR; subst. reflexivity.
  - cbn [map parsed] in HR. destruct it as [l|L|L b t]; cbn [entry_ok] in Hi; fold ws in Hi.
    + cbn [entry_str] in HR. rewrite junk_fields in HR by auto. cbn [marked]. now apply IH.
    + destruct Hi as [HL HN]. cbn [entry_str] in HR, HN. rewrite item_fields in HR by auto.
      inversion HR; subst; cbn [marked]; [|eauto].
      match goal with D : Dispatch _ _ _ |- _ => exfalso; destruct D as (pre & w & k & post & E & O & _) end.
      apply (HN w a k); auto. fold ws in E. rewrite E. apply in_or_app. right. now left.
    + destruct Hi as (HL & Hd & HD & Hp). cbn [entry_str] in HR, HD. rewrite item_fields in HR by auto.
      inversion HR; subst; cbn [marked filter].
      * match goal with D : Dispatch _ _ a |- _ => assert (a = b) as <- by (eapply Dispatch_unique; eauto) end.
        unfold has_attr at 1. cbn [m_attr]. rewrite eqs_refl. cbn [map]. f_equal; [|eauto].
        unfold ev_mark, set_data, mark_event, fields_of. cbn. rewrite Hd.
        destruct (dispatch_class _ _ _ HD) as [k Hk]. now rewrite (drop_text _ _ (Hp k Hk)).
      * unfold has_attr at 1. cbn [m_attr]. destruct (eqs_spec a b) as [->|N]; [contradiction|]. eauto.
Qed.
Lemma texts_marked a items : forall i us, List.length us = List.length (entry_lines items) ->
  map m_text (filter (has_attr a) (marked i items us)) = texts_of a items.
Proof.
  induction items as [|it items IH]; intros i us E; [reflexivity|].
  destruct it as [l|L|L b t]; cbn [marked]; [now apply IH| |].
  - destruct us as [|u us]; [discriminate|]. apply IH. now injection E.
  - destruct us as [|u us]; [discriminate|]. injection E as E. cbn [filter texts_of flat_map].
    unfold has_attr at 1. cbn [m_attr]. destruct (eqs a b); cbn [map m_text app]; [f_equal|]; now apply IH.
Qed.
Lemma marked_texts defs a k items : In (a, k) defs -> Forall (entry_ok defs) items -> forall i us,
  Forall (fun m => text_ok (fst (kind_of k)) (m_text m)) (filter (has_attr a) (marked i items us)).
Proof.
  intros Hk. induction 1 as [|it items Hi H IH]; intros i us; [constructor|].
  destruct it as [l|L|L b t]; cbn [marked]; auto; destruct us; cbn [filter]; auto.
  unfold has_attr at 1. cbn [m_attr]. destruct (eqs a b) eqn:E; auto. constructor; auto. cbn [m_text]. apply eqs_eq in E as <-. now apply Hi.
Qed.
Lemma marked_forall P items : forall i us, Forall P us -> Forall (fun m => P (m_time m)) (marked i items us).
Proof.
  induction items as [|it items IH]; intros i us H; [constructor|].
  destruct it as [l|L|L b t]; cbn [marked]; auto; destruct us; auto; inversion H; subst; auto.
Qed.
Lemma marked_sorted R items : forall i us, StronglySorted R us ->
  StronglySorted (fun x y => R (m_time x) (m_time y)) (marked i items us).
Proof.
  induction items as [|it items IH]; intros i us H; [constructor|].
  destruct it as [l|L|L b t]; cbn [marked]; auto; destruct us as [|u us]; try constructor; inversion H; subst; auto.
  apply (marked_forall (R u)). auto.
Qed.
Lemma entries_core defs hdr items : Forall junk_ok hdr -> begins items -> Forall (entry_ok defs) items ->
  exists st ts us, populate (map (fun d => (k_word (snd d), d)) defs) fzero (ftrace_body (hdr ++ map entry_str items)) = Ok st /\
    Forall2 printed_time (entry_lines items) ts /\ Forall (fun t => nn t = true) ts /\ Assigned fzero ts us /\
    p_base st = hd fzero us /\ p_end st = last us fzero /\ p_lines st = Z.of_nat (List.length items) /\
    forall a k fuel, In (a, k) defs -> titles_ok (snd (kind_of k)) (texts_of a items) ->
      (forall q, In q (parts_in (texts_of a items)) -> (arrays q < fuel)%nat) ->
      exists fr, class_frame fuel k (arr a st) = Ok fr /\
        Forall2 (row_shows (snd (kind_of k)) (lengths (texts_of a items)) (fun t => t)) (filter (has_attr a) (marked 0 items us)) fr.
Proof.
  intros Hh Hs Hok. rewrite (body_entries defs) by auto. set (ws := map (fun d => (k_word (snd d), d)) defs).
  destruct (pop_lines_total ws (map entry_str items) (PSt fzero fzero 0 (map (fun e => (fst (snd e), [])) ws)) eq_refl)
    as (st & Hst & _).
  exists st, (map line_time (entry_lines items)).
  destruct (populate_spec ws fzero _ st Hst) as (us & HA & HE & HB & HLn & _ & HR).
  rewrite (times_entries defs) in HA by auto. exists us. split; [exact Hst|]. split; [|split; [|split; [exact HA|split; [exact HB|split; [exact HE|split]]]]].
  - clear -Hok. induction Hok as [|it items Hi _ IH]; [constructor|].
    destruct it as [l|L|L a t]; [exact IH| |]; (constructor; [apply line_time_printed, Hi|exact IH]).
  - rewrite <- (times_entries defs items Hok 0%Z). apply parsed_nn.
  - rewrite HLn. now rewrite map_length.
  - intros a k fuel Hk Hc Hf. rewrite (recorded_entries defs a items Hok 0%Z us _ (HR a)).
    apply Assigned_length in HA. rewrite map_length in HA. rewrite <- (texts_marked a items 0%Z us) in * by auto.
    apply class_rows; auto. now apply (marked_texts defs).
Qed.
Theorem entries_frames defs hdr items : Forall junk_ok hdr -> begins items -> Forall (entry_ok defs) items ->
  exists st ts us, populate (map (fun d => (k_word (snd d), d)) defs) fzero (ftrace_body (hdr ++ map entry_str items)) = Ok st /\
    Forall2 printed_time (entry_lines items) ts /\ Assigned fzero ts us /\
    p_base st = hd fzero us /\ p_end st = last us fzero /\ p_lines st = Z.of_nat (List.length items) /\
    forall a k fuel, In (a, k) defs -> titles_ok (snd (kind_of k)) (texts_of a items) ->
      (forall q, In q (parts_in (texts_of a items)) -> (arrays q < fuel)%nat) ->
      exists fr, class_frame fuel k (arr a st) = Ok fr /\
        Forall2 (row_shows (snd (kind_of k)) (lengths (texts_of a items)) (fun t => t)) (filter (fun m => eqs a (m_attr m)) (marked 0 items us)) fr.
Proof.
  intros H1 H2 H3. destruct (entries_core defs hdr items H1 H2 H3) as (st & ts & us & A & B & _ & C).
  exists st, ts, us. split; [exact A|]. split; [exact B|]. exact C.
Qed.

Section Read.
  Context {content digest header csv : Type}.
  Variables (deq : digest -> digest -> bool) (md5 : content -> digest)
            (file : content -> list str) (head : content -> header)
            (enc : frame -> csv) (dec : csv -> option frame) (fuel : nat).
  Notation parse := (do_parse deq md5 (fun x => ftrace_body (file x)) head enc dec (class_frame fuel)).

  Theorem entries_back (c : config) (s : fsys) hdr items :
    NoDup (map fst (c_defs c)) -> NoDup (map (fun d => k_word (snd d)) (c_defs c)) ->
    c_nocache c = true \/ (f_cache s = None /\ c_defs c <> []) ->
    file (f_trace s) = hdr ++ map entry_str items ->
    Forall junk_ok hdr -> begins items ->
    Forall (entry_ok (c_defs c)) items ->
    (forall a k, In (a, k) (c_defs c) -> titles_ok (snd (kind_of k)) (texts_of a items) /\
       forall q, In q (parts_in (texts_of a items)) -> (arrays q < fuel)%nat) ->
    exists tr ts us, fst (parse c s) = Ok tr /\
      Forall2 printed_time (entry_lines items) ts /\ Assigned fzero ts us /\
      t_base tr = hd fzero us /\ t_end tr = last us fzero /\ t_head tr = Some (head (f_trace s)) /\
      map fst (t_frames tr) = map fst (c_defs c) /\
      (windows_ok (c_win c) (c_abs c) (t_base tr) -> forall a k, In (a, k) (c_defs c) ->
       exists fr, dget eqs a (t_frames tr) = Some fr /\
         Forall2 (row_shows (snd (kind_of k)) (lengths (texts_of a items)) (fun t => if c_norm c then fsub t (t_base tr) else t))
           (filter (fun x => eqs a (m_attr x) && in_both (c_win c) (c_abs c) (t_base tr) (m_time x)) (marked 0 items us)) fr).
  Proof.
    intros Nk Nw Hnc Hfile Hh Hs Hok Hcols.
    set (ws := map (fun d => (k_word (snd d), d)) (c_defs c)) in *.
    destruct (entries_core (c_defs c) hdr items Hh Hs Hok) as (st & ts & us & Hst & Hts & Hnn & HA & HB & HE & _ & HF).
    assert (Hall : Forall (fun d => exists x, (do f <- class_frame fuel (snd d) (arr (fst d) st) ;; Ok (fst d, f)) = Ok x /\
        (fst x = fst d /\ Forall2 (row_shows (snd (kind_of (snd d))) (lengths (texts_of (fst d) items)) (fun t => t))
                        (filter (has_attr (fst d)) (marked 0 items us)) (snd x))) (c_defs c)).
    { apply Forall_forall. intros [a k] Hi. destruct (Hcols a k Hi) as [C1 C2].
      destruct (HF a k fuel Hi C1 C2) as (fr & Efr & HR). exists (a, fr). cbn [fst snd]. rewrite Efr.
      split; [reflexivity|]. split; [reflexivity|exact HR]. }
    apply mapM_rows in Hall as (fs & Efs & Hfs).
    assert (Ek : map fst fs = map fst (c_defs c)).
    { clear -Hfs. induction Hfs as [|d x l l' [E _] _ IH]; auto. cbn [map]. now rewrite E, IH. }
    set (win := if ftruthy (p_base st) then calc_max_window (c_win c) (c_abs c) (p_base st) else (fzero, None)).
    assert (Hp : fst (parse c s) = Ok (Tr (finish c (p_base st) win fs) (p_base st) (p_end st) (Some (head (f_trace s))))).
    { unfold do_parse.
      assert (El : (if c_nocache c then Ok (None, []) else load deq md5 s) = Ok (None, [])).
      { destruct Hnc as [-> |[E _]]; auto. destruct (c_nocache c); auto. unfold load. now rewrite E. }
      rewrite El.
      assert (Eb : negb (c_nocache c) && forallb (fun d => is_cached (digest:=digest) (header:=header) dec None (snd d)) (c_defs c) = false).
      { destruct Hnc as [-> |[_ E]]; auto. destruct (c_defs c); [congruence|]. now rewrite andb_false_r. }
      rewrite Eb. rewrite (word_table_ok _ (c_defs c) []) by (cbn; now rewrite map_map).
      rewrite filter_all by (intros x _; now destruct (dget eqs (fst x) (c_defs c))).
      replace ([] ++ map Select.entry (c_defs c)) with ws by (apply map_ext; now intros [a k]).
      cbn [bind]. rewrite Hfile. unfold ws. rewrite Hst. cbn [bind cached_frame].
      match goal with |- context [mapM ?f (c_defs c)] =>
        replace (mapM f (c_defs c)) with (Ok fs) by (rewrite <- Efs; reflexivity) end.
      cbn [bind fst]. reflexivity. }
    exists (Tr (finish c (p_base st) win fs) (p_base st) (p_end st) (Some (head (f_trace s)))), ts, us.
    cbn [t_base t_end t_head t_frames]. do 6 (split; [assumption || reflexivity|]).
    assert (Lf : List.length (apply_user (c_norm c) (p_base st) win (map snd fs)) = List.length fs).
    { unfold apply_user. destruct (c_norm c); now rewrite !map_length. }
    split.
    { unfold finish. rewrite <- Ek. rewrite combine_fst; auto. now rewrite map_length. }
    intros Hw a k Hi.
    assert (Hx : exists f, In (a, f) fs /\ Forall2 (row_shows (snd (kind_of k)) (lengths (texts_of a items)) (fun t => t))
                        (filter (has_attr a) (marked 0 items us)) f).
    { clear -Hfs Hi. induction Hfs as [|d x l l' [E HR] _ IH]; [destruct Hi|]. destruct Hi as [->|Hi].
      - cbn [fst] in *. exists (snd x). split; [left; destruct x; cbn in *; now rewrite E|exact HR].
      - destruct (IH Hi) as (f & ? & ?). exists f. split; [now right|auto]. }
    destruct Hx as (f & Hin & HR).
    set (out := (if c_norm c then normalize_time (p_base st) else fun g => g) (windowify win f)).
    exists out. split.
    { apply (In_dget eqs eqs_eq).
      - unfold finish. rewrite combine_fst by (now rewrite map_length). now rewrite Ek.
      - unfold finish, apply_user, out. clear -Hin. induction fs as [|x fs IH]; [destruct Hin|].
        destruct (c_norm c); cbn [map combine]; (destruct Hin as [->|Hin]; [left; reflexivity|right; now apply IH]). }
    assert (Hnu : Forall (fun u => nn u = true) us /\ Forall (fun u => ftruthy u = true) us).
    { destruct (Assigned_sorted _ _ _ (eq_refl : nn fzero = true) Hnn HA) as (S1 & _ & S3 & _). split; auto.
      eapply Forall_impl; [|exact S1]. cbv beta. tauto. }
    assert (Hso := Assigned_fle fzero ts us eq_refl Hnn HA).
    set (ss := filter (has_attr a) (marked 0 items us)) in *.
    assert (Et : map fst f = map m_time ss).
    { clear -HR. induction HR as [|x r l l' (E & _) _ IH]; auto. cbn [map]. now rewrite E, IH. }
    assert (Hss : StronglySorted (fun x y => fle (m_time x) (m_time y) = true) ss).
    { apply sorted_filter. now apply (marked_sorted (fun a b => fle a b = true)). }
    assert (Hsn : Forall (fun x => nn (m_time x) = true) ss).
    { apply Forall_forall. intros x Hx. apply filter_In in Hx as [Hx _].
      assert (K := marked_forall (fun t => nn t = true) items 0%Z us (proj1 Hnu)). rewrite Forall_forall in K. auto. }
    assert (Hbase : ss = [] \/ ftruthy (p_base st) = true).
    { rewrite HB. destruct us as [|u us']; [left|right].
      - unfold ss. replace (marked 0 items []) with (@nil mark); auto. generalize 0%Z. clear.
        induction items as [|[l|L|L b ps] r IH]; intros z; auto. cbn [marked]. apply IH.
      - destruct Hnu as [_ HT]. now inversion HT. }
    assert (Hfs' : time_sorted f).
    { unfold time_sorted. clear -Et Hss. revert f Et. induction Hss as [|x l _ IH HFl]; intros [|r f] E; try discriminate; constructor.
      - injection E as _ E. now apply IH.
      - injection E as E1 E. apply Forall_forall. intros r' Hr'. assert (Hm : In (fst r') (map m_time l)) by (rewrite <- E; now apply in_map).
        apply in_map_iff in Hm as (y & Ey & Hy). rewrite Forall_forall in HFl. apply HFl in Hy. now rewrite E1, <- Ey. }
    assert (Hfn : Forall (fun r => nn (fst r) = true) f).
    { apply (Forall_map fst (fun t => nn t = true)). rewrite Et. now apply (Forall_map m_time (fun t => nn t = true)). }
    assert (Eo : windowify win f = filter (fun r => in_both (c_win c) (c_abs c) (p_base st) (fst r)) f).
    { destruct Hbase as [E|E].
      - rewrite E in Et. destruct f; [reflexivity|discriminate].
      - unfold win. rewrite E. now apply window_exact. }
    rewrite (filter_ext _ (fun x => has_attr a x && in_both (c_win c) (c_abs c) (p_base st) (m_time x))) by reflexivity.
    rewrite <- filter_filter. fold ss.
    assert (HW : Forall2 (row_shows (snd (kind_of k)) (lengths (texts_of a items)) (fun t => t))
                   (filter (fun x => in_both (c_win c) (c_abs c) (p_base st) (m_time x)) ss) (windowify win f)).
    { rewrite Eo. apply Forall2_filter. eapply Forall2_impl; [|exact HR]. intros x r Hr. split; auto. destruct Hr as (-> & _). reflexivity. }
    unfold out. destruct (c_norm c); [|exact HW].
    unfold normalize_time. destruct (ftruthy (p_base st)) eqn:Eb.
    - apply Forall2_map_r. eapply Forall2_impl; [|exact HW]. intros x r (E1 & E2 & E3). cbn in *. rewrite E1. split; auto.
    - destruct Hbase as [E|E]; [|congruence]. rewrite E in HW |- *. inversion HW; subst. constructor.
  Qed.
End Read.
