(** When a trace can be constructed from a report (C97). *)
From Coq Require Import List Ascii String ZArith NArith Bool Lia.
From Verif Require Import Lib.PyStr Lib.PyStrFacts Lib.Regex Lib.RegexFacts Lib.SearchFacts Lib.F64
  Model.Base Model.Line Model.Registry Model.Populate Model.Window Model.Cache Model.Events Model.Classes
  Spec.Lines Spec.Payload Spec.Arrays Spec.Parts Spec.Trace Spec.Written Spec.Events Spec.Classes Spec.Readable
  Proofs.PayloadP Proofs.ScanP Proofs.FrameP Proofs.PopulateP Proofs.EventsP Proofs.EventsQ Proofs.WrittenP Proofs.RegistryP Proofs.WindowP Proofs.ClassesP.
Import ListNotations.
Local Open Scope list_scope.

(** ** Payloads *)
Lemma stray_iff s : Stray s <-> exists e, generate_data_dict s = Err e.
Proof.
  split.
  - intros (Hf & pre & gs & W & P & G & HH). apply (proj1 (gdd_error_iff s pre gs W P G)). split; auto.
  - intros He. destruct (payload_decompose s) as (pre & gs & W & P & G). destruct (proj1 (proj1 (gdd_error_iff s pre gs W P G)) He) as [Hf H].
    split; auto. exists pre, gs. auto.
Qed.
Lemma gdd_parse s e : generate_data_dict s = Err e -> e = EParse.
Proof. destruct (payload_decompose s) as (pre & gs & W & P & G). apply (proj2 (gdd_error_iff s pre gs W P G)). Qed.
Definition row_of_text (f : form) (s : str) : res dict := do d <- form_text f s ;; form_dict f d.
Lemma enter_dict_ok s t : enter_explode s = Ok t -> ~ In "{"%char t /\ exists d, generate_data_dict t = Ok d.
Proof.
  intros H. apply enter_ok_iff in H as (nr & args & (pre & call & post & _ & HE & _) & ->). unfold EnterAt in HE. cbn [fst snd] in HE.
  inversion HE; subst. split; [now apply enter_fields_brace|]. eexists. apply enter_fields_dict.
Qed.
Lemma exit_dict_ok s t : exit_explode s = Ok t -> ~ In "{"%char t /\ exists d, generate_data_dict t = Ok d.
Proof. intros H. apply exit_ok_iff in H as (zn & zr & _ & ->). split; [nobrace|]. eexists. apply exit_fields_dict. Qed.
Lemma ok_err {A} (r : res A) : (exists a, r = Ok a) \/ exists e, r = Err e.
Proof. destruct r; eauto. Qed.
Lemma exit_err_iff s : (exists e, exit_explode s = Err e) <-> forall a b c zn zr, s = a ++ b ++ c -> ~ ExitCall b c zn zr.
Proof.
  split.
  - intros [e He] a b c zn zr E HX. destruct (exit_some s) as [(n & r & HF)|HN]; [|eapply HN; eauto].
    apply exit_first in HF. congruence.
  - intros H. exists EValue. now apply exit_never.
Qed.
Lemma row_unreadable f s : Unreadable f s <-> exists e, row_of_text f s = Err e.
Proof.
  unfold row_of_text. destruct f; cbn [Unreadable form_text form_dict bind]; try apply stray_iff.
  - (* enters *) destruct (enter_explode s) as [t|e] eqn:E.
    + destruct (enter_dict_ok s t E) as (_ & d & Hd). cbn [bind]. split; [|intros [x Hx]; congruence].
      intros H. apply enter_err_iff in H. congruence.
    + cbn [bind]. split; [eauto|]. intros _. apply enter_err_iff. now rewrite E, (enter_errs s e E).
  - (* exits *) destruct (exit_explode s) as [t|e] eqn:E.
    + destruct (exit_dict_ok s t E) as (_ & d & Hd). cbn [bind]. split; [|intros [x Hx]; congruence].
      intros H. apply exit_err_iff in H as [x Hx]. congruence.
    + cbn [bind]. split; [eauto|]. intros _. apply exit_err_iff. eauto.
  - (* clocks *) unfold clk_dict. destruct (split_once " " s) as [[n r]|] eqn:E.
    + apply split_once_Some in E as [E Hn]. rewrite E. split.
      * intros [H|(n' & r' & E' & Hn' & H)].
        -- exfalso. apply H, in_or_app. right. now left.
        -- assert (n' = n /\ r' = r) as [-> ->].
           { clear -E' Hn Hn'. revert n' E' Hn'. induction n as [|c n IH]; intros [|c' n'] E' Hn'; cbn in E'.
             - injection E' as <-. auto.
             - injection E' as <- _. exfalso. apply Hn'. now left.
             - injection E' as -> _. exfalso. apply Hn. now left.
             - injection E' as <- E'. destruct (IH (fun H => Hn (or_intror H)) n' E' (fun H => Hn' (or_intror H))) as [-> ->]. auto. }
           apply stray_iff in H as [e He]. rewrite He. eexists. reflexivity.
      * intros [e H]. right. exists n, r. split; [reflexivity|]. split; [exact Hn|]. apply stray_iff.
        destruct (generate_data_dict r) as [d|x]; [discriminate|eauto].
    + apply split_once_None in E. split; [eauto|]. now left.
  - (* pairs *) split; [contradiction|]. intros [e H]. discriminate.
  - (* free *) split; [contradiction|]. intros [e H]. discriminate.
Qed.
Lemma row_errs f s e : row_of_text f s = Err e -> e = EParse \/ e = EValue.
Proof.
  unfold row_of_text. destruct f; cbn [form_text form_dict bind]; try (intros H; left; now apply gdd_parse in H); try discriminate.
  - destruct (enter_explode s) as [t|x] eqn:E; cbn [bind]; [intros H; left; now apply gdd_parse in H|].
    intros [= <-]. right. now apply enter_errs in E.
  - destruct (exit_explode s) as [t|x] eqn:E; cbn [bind]; [intros H; left; now apply gdd_parse in H|].
    intros [= <-]. right. now apply exit_errs in E.
  - unfold clk_dict. destruct (split_once " " s) as [[n r]|]; [|intros [= <-]; auto].
    destruct (generate_data_dict r) as [d|x] eqn:E; cbn [bind]; [discriminate|]. intros [= <-]. left. now apply gdd_parse in E.
Qed.
Lemma form_text_brace f s t : ~ In "{"%char s -> form_text f s = Ok t -> ~ In "{"%char t.
Proof.
  intros Hb. destruct f; cbn [form_text]; try (intros [= <-]; exact Hb).
  - intros [= <-] Hi. apply replace1_In in Hi as [[Hi|[]]|Hi]; [discriminate|contradiction].
  - intros H. now apply enter_dict_ok in H.
  - intros H. now apply exit_dict_ok in H.
Qed.

(** ** Frames *)
Lemma mapM_ok {A B} (f : A -> res B) l : (exists m, mapM f l = Ok m) <-> Forall (fun a => exists b, f a = Ok b) l.
Proof.
  induction l as [|a l IH]; cbn [mapM].
  - split; [constructor|eauto].
  - split.
    + intros [m H]. destruct (f a) as [b|] eqn:E; [|discriminate]. cbn [bind] in H. destruct (mapM f l); [|discriminate].
      constructor; [eauto|]. apply IH. eauto.
    + intros H. inversion H as [|? ? [b Hb] Hl]; subst. apply IH in Hl as [m Hm]. rewrite Hb, Hm. cbn. eauto.
Qed.
Lemma mapM_err {A B} (f : A -> res B) l e : mapM f l = Err e -> exists a, In a l /\ f a = Err e.
Proof.
  induction l as [|a l IH]; cbn [mapM]; [discriminate|]. destruct (f a) as [b|x] eqn:E; cbn [bind].
  - destruct (mapM f l); [discriminate|]. cbn [bind]. intros H. destruct IH as (a' & Hi & Ha); [exact H|]. exists a'. split; [now right|exact Ha].
  - intros [= <-]. exists a. split; [now left|exact E].
Qed.
Lemma mapM_errs {A B} (f : A -> res B) l a : In a l -> (exists e, f a = Err e) -> exists e, mapM f l = Err e.
Proof.
  intros Hi [e He]. destruct (mapM f l) as [m|x] eqn:E; [|eauto]. exfalso.
  assert (H : exists m, mapM f l = Ok m) by eauto. apply mapM_ok in H. rewrite Forall_forall in H. apply H in Hi as [b Hb]. congruence.
Qed.
Lemma no_brace_explode s : ~ In "{"%char s -> re_search pat_explode s = None.
Proof.
  intros H. apply search_none. intros a b -> s' Hm. apply H. unfold pat_explode in Hm. cbn [RSeqs] in Hm.
  apply mat_seq_inv in Hm as (s1 & G1 & Hm). apply mat_seq_inv in Hm as (s2 & L1 & _).
  apply mat_plus_cls in G1 as (u & E & _). apply mat_lit in L1 as [L1 _]. cbn [s_rest] in *. rewrite E, L1.
  apply in_or_app. right. apply in_or_app. right. cbn. auto.
Qed.
Lemma row_ok gdd (e : event) : (exists r, (do d <- row_dict gdd e ;; Ok (ev_time e, d)) = Ok r) <-> exists d, gdd (ev_data e) = Ok d.
Proof.
  unfold row_dict. destruct (gdd (ev_data e)) as [d|x]; cbn [bind].
  - split; eauto.
  - split; intros [r H]; discriminate.
Qed.
Lemma row_err gdd (e : event) x : (do d <- row_dict gdd e ;; Ok (ev_time e, d)) = Err x <-> gdd (ev_data e) = Err x.
Proof. unfold row_dict. destruct (gdd (ev_data e)) as [d|y]; cbn [bind]; split; congruence. Qed.
(** All payloads without braces. *)
Lemma frame_errs fuel k evs e : Forall (fun e => ~ In "{"%char (ev_data e)) evs -> class_frame fuel k evs = Err e ->
  exists v, In v evs /\ row_of_text (fst (kind_of k)) (ev_data v) = Err e.
Proof.
  intros Hb. rewrite frame_pre. unfold pre_frame. set (f := fst (kind_of k)).
  destruct (mapM (fun e0 : event => do d <- form_text f (ev_data e0);; Ok (with_data e0 d)) evs) as [evs'|x] eqn:E; cbn [bind].
  - unfold create_dataframe, explode_all.
    assert (HF : Forall2 (fun v v' => form_text f (ev_data v) = Ok (ev_data v')) evs evs').
    { clear -E. revert evs' E. induction evs as [|v evs IH]; cbn [mapM]; intros evs' E; [injection E as <-; constructor|].
      destruct (form_text f (ev_data v)) as [t|] eqn:Et; [|discriminate]. cbn [bind] in E.
      destruct (mapM _ evs) as [r|] eqn:Er; [|discriminate]. cbn [bind] in E. injection E as <-. constructor; [exact Et|]. now apply IH. }
    rewrite no_brace_lengths.
    2:{ apply Forall_map. clear E. induction HF as [|v v' evs evs' H HF IH]; constructor; inversion Hb; subst.
        - now apply form_text_brace in H.
        - now apply IH. }
    cbn [bind]. destruct (mapM _ evs') as [fr|x] eqn:Em; cbn [bind]; [discriminate|]. intros [= <-].
    apply mapM_err in Em as (v' & Hi & Hv). apply row_err in Hv. clear Hb E.
    induction HF as [|v w evs evs' H HF IH]; [destruct Hi|]. destruct Hi as [->|Hi].
    + exists v. split; [now left|]. unfold row_of_text. rewrite H. exact Hv.
    + destruct (IH Hi) as (u & Hu & Eu). exists u. split; [now right|exact Eu].
  - intros [= <-]. apply mapM_err in E as (v & Hi & Hv). exists v. split; auto. unfold row_of_text.
    destruct (form_text f (ev_data v)); [discriminate|]. cbn [bind] in *. congruence.
Qed.
(** One bad payload is enough. *)
Lemma frame_bad fuel k evs v : In v evs -> ~ In "{"%char (ev_data v) -> Unreadable (fst (kind_of k)) (ev_data v) ->
  exists e, class_frame fuel k evs = Err e.
Proof.
  intros Hi Hb Hu. rewrite frame_pre. unfold pre_frame. set (f := fst (kind_of k)) in *.
  apply row_unreadable in Hu as [e He]. unfold row_of_text in He.
  destruct (mapM (fun e0 : event => do d <- form_text f (ev_data e0);; Ok (with_data e0 d)) evs) as [evs'|x] eqn:E; cbn [bind]; [|eauto].
  assert (HI : exists v', In v' evs' /\ form_text f (ev_data v) = Ok (ev_data v')).
  { revert evs' E. clear -Hi. induction evs as [|w evs IH]; [destruct Hi|]. cbn [mapM]. intros evs' E.
    destruct (form_text f (ev_data w)) as [t|] eqn:Et; [|discriminate]. cbn [bind] in E.
    destruct (mapM _ evs) as [r|] eqn:Er; [|discriminate]. cbn [bind] in E. injection E as <-. destruct Hi as [->|Hi].
    - eexists. split; [now left|exact Et].
    - destruct (IH Hi r eq_refl) as (v' & ? & ?). exists v'. split; [now right|auto]. }
  destruct HI as (v' & Hv' & Ev'). rewrite Ev' in He. cbn [bind] in He.
  pose proof (form_text_brace f _ _ Hb Ev') as Hb'. unfold create_dataframe, explode_all.
  destruct (trace_array_lengths [] (map ev_data evs')) as [|ln lens].
  - cbn [bind]. destruct (mapM_errs (fun e0 : event => do d <- row_dict (form_dict f) e0;; Ok (ev_time e0, d)) evs' v' Hv') as [x Hx].
    + exists e. now apply row_err.
    + rewrite Hx. cbn. eauto.
  - match goal with |- context [mapM ?g evs'] => destruct (mapM g evs') as [evs2|x] eqn:E2 end; cbn [bind]; [|eauto].
    assert (HI : exists v2, In v2 evs2 /\ ev_data v2 = ev_data v').
    { revert evs2 E2. clear -Hv' Hb'. induction evs' as [|w evs' IH]; [destruct Hv'|]. cbn [mapM]. intros evs2 E2.
      destruct (explode_array fuel (default_len (ln :: lens)) (ev_data w)) as [t|] eqn:Et; [|discriminate]. cbn [bind] in E2.
      destruct (mapM _ evs') as [r|] eqn:Er; [|discriminate]. cbn [bind] in E2. injection E2 as <-. destruct Hv' as [->|Hi].
      - eexists. split; [now left|]. cbn [ev_data]. destruct fuel as [|fu]; [discriminate|]. cbn [explode_array] in Et.
        unfold explode_step in Et. rewrite no_brace_explode in Et by exact Hb'. congruence.
      - destruct (IH Hi r eq_refl) as (v2 & ? & ?). exists v2. split; [now right|auto]. }
    destruct HI as (v2 & Hv2 & Ed).
    destruct (mapM_errs (fun e0 : event => do d <- row_dict (form_dict f) e0;; Ok (ev_time e0, d)) evs2 v2 Hv2) as [x Hx].
    + exists e. apply row_err. now rewrite Ed.
    + rewrite Hx. cbn. eauto.
Qed.

(** ** Traces *)
Lemma drop_no_brace d : ~ In "{"%char d -> drop_empty d = d.
Proof.
  intros Hb. unfold drop_empty. destruct (contains $"={}" d) eqn:E; auto. apply contains_spec in E as (a & b & E).
  exfalso. apply Hb. rewrite E. apply in_or_app. right. right. now left.
Qed.
Section Read.
  Context {content digest header csv : Type}.
  Variables (deq : digest -> digest -> bool) (md5 : content -> digest)
            (file : content -> list str) (head : content -> header)
            (enc : frame -> csv) (dec : csv -> option frame) (fuel : nat).
  Notation parse := (do_parse deq md5 (fun x => ftrace_body (file x)) head enc dec (class_frame fuel)).
  Notation table c := (map (fun d => (k_word (snd d), d)) (c_defs c)).
  Lemma parse_frames (c : config) (s : fsys) :
    NoDup (map (fun d => k_word (snd d)) (c_defs c)) -> c_nocache c = true \/ (f_cache s = None /\ c_defs c <> []) ->
    exists st, populate (table c) fzero (ftrace_body (file (f_trace s))) = Ok st /\
      match mapM (fun d => do f <- class_frame fuel (snd d) (arr (fst d) st) ;; Ok (fst d, f)) (c_defs c) with
      | Ok _ => exists tr, fst (parse c s) = Ok tr
      | Err e => fst (parse c s) = Err e
      end.
  Proof.
    intros Nw Hnc. set (ws := table c).
    destruct (pop_lines_total ws (ftrace_body (file (f_trace s))) (PSt fzero fzero 0 (map (fun e => (fst (snd e), [])) ws)) eq_refl)
      as (st & Hst & _).
    exists st. split; [exact Hst|]. unfold do_parse.
    assert (El : (if c_nocache c then Ok (None, []) else load deq md5 s) = Ok (None, [])).
    { destruct Hnc as [-> |[E _]]; auto. destruct (c_nocache c); auto. unfold load. now rewrite E. }
    rewrite El.
    assert (Eb : negb (c_nocache c) && forallb (fun d => is_cached (digest:=digest) (header:=header) dec None (snd d)) (c_defs c) = false).
    { destruct Hnc as [-> |[_ E]]; auto. destruct (c_defs c); [congruence|]. now rewrite andb_false_r. }
    rewrite Eb. rewrite (word_table_ok _ (c_defs c) []) by (cbn; now rewrite map_map).
    rewrite filter_all by (intros x _; now destruct (dget eqs (fst x) (c_defs c))).
    replace ([] ++ map Select.entry (c_defs c)) with ws by (apply map_ext; now intros [a k]).
    cbn [bind]. unfold populate. rewrite Hst. cbn [bind cached_frame].
    match goal with |- context [match mapM ?f (c_defs c) with _ => _ end] =>
      match goal with |- context [bind (mapM ?g (c_defs c)) _] => change g with f end end.
    destruct (mapM _ (c_defs c)) as [fs|e]; cbn [bind fst]; eauto.
  Qed.
  Lemma prints_event (c : config) lines st a : populate (table c) fzero lines = Ok st ->
    (forall d, Prints (table c) lines a d -> ~ In "{"%char d) ->
    forall d, Prints (table c) lines a d <-> exists v, In v (arr a st) /\ ev_data v = d.
  Proof.
    intros Hst Hb d. split.
    - intros (line & f & Hi & Hf & HD & ->). apply In_nth_error in Hi as [m Hm].
      destruct (event_recorded _ _ _ _ Hst m line f a Hm Hf HD) as (v & Hv & Hl). exists v. split; auto.
      destruct (event_origin _ _ _ _ Hst a v Hv) as (raw & f' & _ & Hr & Hf' & _ & _ & _ & _ & Hd).
      rewrite Hl, Nat2Z.id in Hr. assert (raw = line) by congruence. subst raw. assert (f' = f) by congruence. subst f'.
      rewrite Hd. apply drop_no_brace. apply Hb. exists line, f. apply nth_error_In in Hm. auto.
    - intros (v & Hv & <-). destruct (event_origin _ _ _ _ Hst a v Hv) as (raw & f' & _ & Hr & Hf' & HD & _ & _ & _ & Hd).
      apply nth_error_In in Hr. exists raw, f'. split; auto. split; auto. split; auto. rewrite Hd. apply drop_no_brace. apply Hb.
      exists raw, f'. auto.
  Qed.
  Theorem parse_fails (c : config) (s : fsys) :
    NoDup (map (fun d => k_word (snd d)) (c_defs c)) -> c_nocache c = true \/ (f_cache s = None /\ c_defs c <> []) ->
    (forall a d, Prints (table c) (ftrace_body (file (f_trace s))) a d -> ~ In "{"%char d) ->
    ((exists e, fst (parse c s) = Err e) <->
     exists a k d, In (a, k) (c_defs c) /\ Prints (table c) (ftrace_body (file (f_trace s))) a d /\ Unreadable (fst (kind_of k)) d) /\
    (forall e, fst (parse c s) = Err e -> e = EParse \/ e = EValue).
  Proof.
    intros Nw Hnc Hb. destruct (parse_frames c s Nw Hnc) as (st & Hst & HP).
    assert (HA : forall a, Forall (fun e => ~ In "{"%char (ev_data e)) (arr a st)).
    { intros a. apply Forall_forall. intros v Hv. apply (Hb a). apply (prints_event c _ st a Hst (Hb a)). eauto. }
    assert (HE : forall e, fst (parse c s) = Err e -> exists a k v, In (a, k) (c_defs c) /\ In v (arr a st) /\
                 row_of_text (fst (kind_of k)) (ev_data v) = Err e).
    { intros e He. destruct (mapM _ (c_defs c)) as [fs|x] eqn:E.
      - destruct HP as [tr HP]. congruence.
      - assert (x = e) by congruence. subst x. apply mapM_err in E as ([a k] & Hi & Hx). cbn [fst snd] in Hx.
        destruct (class_frame fuel k (arr a st)) as [fr|y] eqn:Ec; [discriminate|]. cbn [bind] in Hx. injection Hx as ->.
        apply frame_errs in Ec as (v & Hv & Hr); [|apply HA]. exists a, k, v. auto. }
    split.
    - split.
      + intros [e He]. destruct (HE e He) as (a & k & v & Hi & Hv & Hr). exists a, k, (ev_data v). split; auto. split.
        * apply (prints_event c _ st a Hst (Hb a)). eauto.
        * apply row_unreadable. eauto.
      + intros (a & k & d & Hi & Hp & Hu). pose proof (Hb a d Hp) as Hn. apply (prints_event c _ st a Hst (Hb a)) in Hp as (v & Hv & <-).
        destruct (mapM _ (c_defs c)) as [fs|x] eqn:E; [|eauto]. exfalso.
        match type of E with mapM ?g _ = _ => destruct (mapM_errs g (c_defs c) (a, k) Hi) as [y Hy] end; [|congruence].
        cbn [fst snd]. destruct (frame_bad fuel k (arr a st) v Hv Hn Hu) as [z Hz]. rewrite Hz. cbn. eauto.
    - intros e He. destruct (HE e He) as (a & k & v & _ & _ & Hr). now apply row_errs in Hr.
  Qed.
  (** Whatever else is in the report. *)
  Theorem parse_lost (c : config) (s : fsys) a k line f :
    NoDup (map (fun d => k_word (snd d)) (c_defs c)) -> c_nocache c = true \/ (f_cache s = None /\ c_defs c <> []) ->
    In (a, k) (c_defs c) -> In line (ftrace_body (file (f_trace s))) -> parse_fields line = Ok (Some f) -> Dispatch (table c) line a ->
    ~ In "{"%char (f_data f) -> Unreadable (fst (kind_of k)) (f_data f) -> exists e, fst (parse c s) = Err e.
  Proof.
    intros Nw Hnc Hi Hl Hf HD Hb Hu. destruct (parse_frames c s Nw Hnc) as (st & Hst & HP).
    apply In_nth_error in Hl as [m Hm]. destruct (event_recorded _ _ _ _ Hst m line f a Hm Hf HD) as (v & Hv & Hn).
    destruct (event_origin _ _ _ _ Hst a v Hv) as (raw & f' & _ & Hr & Hf' & _ & _ & _ & _ & Hd).
    rewrite Hn, Nat2Z.id in Hr. assert (raw = line) by congruence. subst raw. assert (f' = f) by congruence. subst f'.
    rewrite drop_no_brace in Hd by exact Hb.
    destruct (mapM _ (c_defs c)) as [fs|x] eqn:E; [|eauto]. exfalso.
    match type of E with mapM ?g _ = _ => destruct (mapM_errs g (c_defs c) (a, k) Hi) as [y Hy] end; [|congruence].
    cbn [fst snd]. rewrite <- Hd in Hb, Hu. destruct (frame_bad fuel k (arr a st) v Hv Hb Hu) as [z Hz]. rewrite Hz. cbn. eauto.
  Qed.
End Read.
