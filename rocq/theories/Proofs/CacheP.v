(** The cache: invariants over histories of constructions. *)
From Coq Require Import List Ascii String ZArith NArith Bool Lia.
From Verif Require Import Lib.PyStr Lib.PyStrFacts Lib.F64 Lib.F64Facts Model.Base Model.Line Model.Registry Model.Populate Model.Window
  Model.Cache Spec.Trace Spec.Select Spec.History Proofs.LineTotalP Proofs.PopulateP Proofs.RegistryP.
Import ListNotations.
Local Open Scope list_scope.

(** ** What one class gets out of a trace when it does not share lines *)
Fixpoint own (w : str) (prev : float) (i : Z) (body : list str) : list event :=
  match body with
  | [] => []
  | l :: rest =>
      match parse_fields l with
      | Ok (Some f) =>
          let t := next_time prev (f_time f) in
          (if contains w l then [Ev t (f_comm f) (f_pid f) (f_cpu f) i (drop_empty (f_data f))] else [])
          ++ own w t (i + 1) rest
      | _ => own w prev (i + 1) rest
      end
  end.
Fixpoint end_of (prev : float) (body : list str) : float :=
  match body with
  | [] => prev
  | l :: rest => match parse_fields l with
                 | Ok (Some f) => end_of (next_time prev (f_time f)) rest
                 | _ => end_of prev rest
                 end
  end.
Fixpoint first_of (prev : float) (body : list str) : option float :=
  match body with
  | [] => None
  | l :: rest => match parse_fields l with
                 | Ok (Some f) => Some (next_time prev (f_time f))
                 | _ => first_of prev rest
                 end
  end.
Lemma first_truthy body : forall prev t, nn prev = true -> first_of prev body = Some t -> ftruthy t = true.
Proof.
  induction body as [|l body IH]; intros prev t Hn; cbn [first_of]; [discriminate|].
  destruct (parse_total l) as (o & -> & Ho). destruct o as [f|]; [|now apply IH].
  intros [= <-]. apply next_time_truthy; auto. now apply Ho.
Qed.
Lemma pop_times ws : forall body st st', nn (p_time st) = true -> pop_lines ws st body = Ok st' ->
  p_time st' = end_of (p_time st) body /\
  p_base st' = (if ftruthy (p_base st) then p_base st else
                match first_of (p_time st) body with Some t => t | None => p_base st end).
Proof.
  induction body as [|l body IH]; intros st st' Hn H; cbn [pop_lines end_of first_of] in *.
  - injection H as <-. split; auto. now destruct (ftruthy _).
  - unfold pop_line in H. destruct (parse_total l) as (o & E & Ho). rewrite E in *. cbn [bind] in H. destruct o as [f|].
    + cbn [bind] in H. apply IH in H; [|cbn; apply next_time_nn; auto; now apply Ho]. cbn [p_time p_base] in H.
      destruct H as [-> ->]. split; auto. destruct (ftruthy (p_base st)) eqn:Eb; [now rewrite Eb|].
      rewrite (next_time_truthy _ _ Hn); auto. now apply Ho.
    + cbn [bind] in H. apply IH in H; [|exact Hn]. exact H.
Qed.
Lemma pop_own ws attr w : forall body st st',
  (forall l, In l body -> (get_trace_class l ws = Some attr <-> contains w l = true)) ->
  pop_lines ws st body = Ok st' ->
  arr attr st' = arr attr st ++ own w (p_time st) (p_lines st) body.
Proof.
  induction body as [|l body IH]; intros st st' Hw H; cbn [pop_lines own] in *.
  - injection H as <-. now rewrite app_nil_r.
  - unfold pop_line in H. destruct (parse_total l) as (o & E & Ho). rewrite E in *. cbn [bind] in H. destruct o as [f|].
    + cbn [bind] in H. apply IH in H; [|intros; apply Hw; now right]. cbn [p_time p_lines] in H. rewrite H. clear H IH.
      rewrite app_assoc. f_equal. specialize (Hw l (or_introl eq_refl)).
      destruct (get_trace_class l ws) as [a|] eqn:Eg.
      * rewrite arr_append. destruct (eqs attr a) eqn:Ea.
        -- apply eqs_eq in Ea as <-. rewrite (proj1 Hw eq_refl). reflexivity.
        -- destruct (contains w l) eqn:Ec; [|now rewrite app_nil_r].
           exfalso. destruct Hw as [_ Hw]. injection (Hw eq_refl) as ->. assert (eqs attr attr = true) by now apply eqs_eq. congruence.
      * destruct (contains w l) eqn:Ec; [|now rewrite app_nil_r]. destruct Hw as [_ Hw]. discriminate (Hw eq_refl).
    + cbn [bind] in H. apply IH in H; [|intros; apply Hw; now right]. exact H.
Qed.

(** ** Dispatch when at most one word occurs *)
Lemma class_sound line : forall ws found a, get_class_loop found line ws = Some a ->
  found = Some a \/ exists w k, In (w, (a, k)) ws /\ contains w line = true.
Proof.
  induction ws as [|[w [b k]] ws IH]; intros found a H; cbn [get_class_loop] in H; [now left|].
  destruct (contains w line) eqn:E.
  - destruct (k_fallback k).
    + apply IH in H as [H|(w' & k' & H1 & H2)]; [injection H as ->; right; exists w, k; split; auto; now left|].
      right. exists w', k'. split; auto. now right.
    + injection H as ->. right. exists w, k. split; auto. now left.
  - apply IH in H as [H|(w' & k' & H1 & H2)]; auto. right. exists w', k'. split; auto. now right.
Qed.
Lemma class_complete line : forall ws found, (exists w a k, In (w, (a, k)) ws /\ contains w line = true) \/ found <> None ->
  get_class_loop found line ws <> None.
Proof.
  induction ws as [|[w [b k]] ws IH]; intros found H; cbn [get_class_loop].
  - destruct H as [(w & a & k & [] & _)|H]; auto.
  - destruct (contains w line) eqn:E.
    + destruct (k_fallback k); [|discriminate]. apply IH. right. discriminate.
    + apply IH. destruct H as [(w' & a & k' & [H1|H1] & H2)|H]; auto; [|left; eauto 10].
      injection H1 as -> -> ->. congruence.
Qed.
Lemma class_iff line ws w attr k : In (w, (attr, k)) ws -> NoDup (map (fun e => fst (snd e)) ws) ->
  (forall w' a' k', In (w', (a', k')) ws -> contains w line = true -> contains w' line = true -> a' = attr) ->
  (get_trace_class line ws = Some attr <-> contains w line = true).
Proof.
  intros Hin Hnd Hone. unfold get_trace_class. split.
  - intros H. apply class_sound in H as [H|(w' & k' & H1 & H2)]; [discriminate|].
    assert (E : (w', (attr, k')) = (w, (attr, k))); [|now injection E as -> ->].
    clear - Hin Hnd H1. induction ws as [|e ws IH]; [destruct Hin|]. cbn in Hnd. inversion Hnd as [|? ? N1 N2]; subst.
    destruct Hin as [Hin|Hin], H1 as [H1|H1]; auto; [congruence| |].
    + subst e. exfalso. apply N1. apply (in_map (fun e => fst (snd e))) in H1. exact H1.
    + subst e. exfalso. apply N1. apply (in_map (fun e => fst (snd e))) in Hin. exact Hin.
  - intros H. destruct (get_class_loop None line ws) as [a|] eqn:E.
    + apply class_sound in E as [E|(w' & k' & H1 & H2)]; [discriminate|]. f_equal. eauto.
    + exfalso. apply (class_complete line ws None); auto. left. exists w, attr, k. auto.
Qed.

Lemma NoDup_map_filter {X Y} (g : X -> Y) (p : X -> bool) l : NoDup (map g l) -> NoDup (map g (filter p l)).
Proof.
  induction l as [|x l IH]; cbn; intros H; [constructor|]. inversion H as [|? ? Q1 Q2]; subst. destruct (p x); cbn; auto.
  constructor; auto. intros Hi. apply in_map_iff in Hi as (y & Ey & Hy). apply filter_In in Hy as [Hy _].
  apply Q1. rewrite <- Ey. now apply in_map.
Qed.
Lemma own_recorded k body : exists us,
  Assigned fzero (map (fun x => f_time (snd x)) (parsed 0 body)) us /\
  Recorded [(k_word k, ([], k))] [] (parsed 0 body) us (own (k_word k) fzero 0 body).
Proof.
  set (ws := [(k_word k, ([] : str, k))]). set (st := PSt fzero fzero 0 []).
  destruct (pop_lines_total ws body st eq_refl) as (st' & E & _).
  destruct (pop_lines_spec ws body st st' eq_refl E) as (us & HA & _ & _ & _ & HR & _).
  destruct (HR []) as (es & HRe & Ha). exists us. split; [exact HA|].
  assert (Ho := pop_own ws [] (k_word k) body st st'). rewrite Ho in Ha; auto.
  - cbn in Ha. rewrite Ha. exact HRe.
  - intros l _. unfold ws, get_trace_class. cbn [get_class_loop].
    destruct (contains (k_word k) l), (k_fallback k); split; congruence.
Qed.

Section Cache.
  Context {content digest header csv : Type}.
  Variables (deq : digest -> digest -> bool) (md5 : content -> digest)
            (body : content -> list str) (head : content -> header)
            (enc : frame -> csv) (dec : csv -> option frame)
            (mk : klass -> list event -> res frame).
  Variables (K : klass -> Prop) (T : content -> Prop).
  Notation fsys := (@fsys content digest header csv).
  Notation cdir := (@cdir digest header csv).
  Notation op := (@op digest header csv).
  Notation meta := (@meta digest header).
  Notation do_parse := (do_parse deq md5 body head enc dec mk).
  Notation construct := (construct deq md5 body head enc dec mk).

  Definition F (k : klass) (c : content) : res frame := mk k (own (k_word k) fzero 0 (body c)).
  Definition B (c : content) : float := match first_of fzero (body c) with Some t => t | None => fzero end.
  Definition E (c : content) : float := end_of fzero (body c).
  Definition M (c : content) : meta := Meta (md5 c) (B c) (E c) (Some (head c)).
  Definition W (cf : config) (c : content) : window :=
    if ftruthy (B c) then calc_max_window (c_win cf) (c_abs cf) (B c) else (fzero, None).
  Definition frames (defs : classes) (c : content) : res (list (str * frame)) :=
    mapM (fun d => do f <- F (snd d) c ;; Ok (fst d, f)) defs.
  Definition fresh (cf : config) (c : content) : res trace :=
    do fs <- frames (c_defs cf) c ;;
    Ok (Tr (finish cf (B c) (W cf c) fs) (B c) (E c) (Some (head c))).

  Definition good_dir (c : content) (d : cdir) : Prop :=
    NoDup (map fst (d_tables d)) /\
    forall n t, In (n, t) (d_tables d) -> exists k f, K k /\ n = k_pyname k /\ F k c = Ok f /\ t = enc f.
  Definition inv (s : fsys) : Prop :=
    T (f_trace s) /\
    match f_cache s with
    | None => True
    | Some d => exists c, T c /\ d_meta d = Some (MOk (M c)) /\ good_dir c d
    end.
  Definition crash_inv (s : fsys) : Prop :=
    T (f_trace s) /\
    match f_cache s with
    | None => True
    | Some d => exists c, T c /\ (d_meta d = Some (MOk (M c)) \/ d_meta d = None \/ d_meta d = Some MBad) /\ good_dir c d
    end.

  Hypothesis Hdeq : forall a b, deq a b = true <-> a = b.
  Hypothesis Hamb : unambiguous body K T.
  Hypothesis Hnames : names_unique K.
  Hypothesis Hmd5 : forall c1 c2, T c1 -> T c2 -> md5 c1 = md5 c2 -> c1 = c2.
  Hypothesis Htab : tables_faithful body enc dec mk K T.
  Hypothesis Hempty : forall k f, K k -> mk k [] = Ok f -> f = [].

  (** What [load] can return on a directory of the right form. *)
  Definition good_load (c : content) (l : option (meta * cdir)) : Prop :=
    match l with None => True | Some (m, d) => m = M c /\ good_dir c d end.
  Lemma own_events k c : EventsOf body k c (own (k_word k) fzero 0 (body c)).
  Proof. destruct (own_recorded k (body c)) as (us & A & R). exists us. auto. Qed.
  Lemma cached_good c l k f : T c -> good_load c l -> K k -> cached_frame dec l k = Some f -> F k c = Ok f.
  Proof.
    intros HT Hl Hk H. destruct l as [[m d]|]; [|discriminate]. cbn in Hl. destruct Hl as [_ [_ Hd]]. cbn in H.
    destruct (dget eqs (k_pyname k) (d_tables d)) as [t|] eqn:Et; [|discriminate].
    apply (dget_In eqs eqs_eq) in Et. destruct (Hd _ _ Et) as (k' & f' & Hk' & Hn & HF & ->).
    apply Hnames in Hn; auto. subst k'. apply (Htab _ _ _ _ _ Hk HT (own_events k c) HF) in H. now subst f.
  Qed.

  Lemma B_false c : ftruthy (B c) = false -> forall w, own w fzero 0 (body c) = [].
  Proof.
    unfold B. destruct (first_of fzero (body c)) as [t|] eqn:Ef.
    - intros Ht. apply first_truthy in Ef; [congruence|reflexivity].
    - intros _ w. revert Ef. generalize fzero at 1 2. generalize 0%Z. induction (body c) as [|l b IH]; intros i p; auto.
      cbn [first_of own]. destruct (parse_fields l) as [[f|]|]; [discriminate|apply IH|apply IH].
  Qed.

  Section Run.
    Variables (cf : config) (c : content) (l : option (meta * cdir)).
    Hypotheses (Hc : T c) (Hl : good_load c l) (Hsel : selection K (c_defs cf)).
    Let defs := c_defs cf.
    Let cached := fun attr => match dget eqs attr defs with Some k => is_cached dec l k | None => false end.
    Let base0 := match l with Some (m, _) => m_base m | None => fzero end.
    Let ws := map entry (filter (fun e => negb (cached (fst e))) defs).
    Lemma cached_attr d : In d defs -> cached (fst d) = is_cached dec l (snd d).
    Proof.
      intros Hd. unfold cached. destruct Hsel as (_ & Hn & _). rewrite (In_dget eqs eqs_eq _ (snd d)); auto.
      now destruct d.
    Qed.
    Lemma run_words : word_table cached [] defs = Ok ws.
    Proof. apply (word_table_ok cached defs []). cbn. rewrite map_map. apply Hsel. Qed.
    Lemma ws_in w a k : In (w, (a, k)) ws -> w = k_word k /\ In (a, k) defs /\ K k.
    Proof.
      intros H. apply in_map_iff in H as ([a' k'] & He & Hi). apply filter_In in Hi as [Hi _].
      unfold entry in He. cbn in He. injection He as <- <- <-. split; auto. split; auto.
      destruct Hsel as (_ & _ & _ & HK). rewrite Forall_forall in HK. apply (HK (a', k')). exact Hi.
    Qed.
    Lemma run_own st d : populate ws base0 (body c) = Ok st -> In d defs -> is_cached dec l (snd d) = false ->
      arr (fst d) st = own (k_word (snd d)) fzero 0 (body c).
    Proof.
      intros Hp Hd Hnc. unfold populate in Hp.
      assert (Hin : In (k_word (snd d), (fst d, snd d)) ws).
      { apply in_map_iff. exists d. split; [now destruct d|]. apply filter_In. split; auto. rewrite cached_attr by auto. now rewrite Hnc. }
      assert (Hnd : NoDup (map (fun e => fst (snd e)) ws)).
      { unfold ws. rewrite map_map. apply (NoDup_map_filter fst). apply Hsel. }
      apply (pop_own ws (fst d) (k_word (snd d))) in Hp.
      - cbn [p_time p_lines] in Hp. rewrite Hp.
        assert (Z : arr (fst d) (PSt fzero base0 0 (map (fun e => (fst (snd e), [])) ws)) = []).
        { unfold arr. cbn [p_events]. clear. induction ws as [|e es IH]; auto. cbn. destruct (eqs _ _); auto. }
        now rewrite Z.
      - intros line Hline. apply (class_iff line ws _ _ (snd d)); auto. intros w' a' k' Hi H1 H2.
        apply ws_in in Hi as (-> & Hi & Hk'). apply ws_in in Hin as (_ & _ & Hk).
        assert (k' = snd d) by (eapply Hamb; eauto). subst k'.
        destruct Hsel as (_ & _ & Hw & _). clear - Hw Hi Hd.
        assert (K : forall ds, NoDup (map (fun d => k_word (snd d)) ds) -> In (a', snd d) ds -> In d ds -> a' = fst d).
        { clear. induction ds as [|x ds IH]; intros Hn H1 H2; [destruct H1|]. cbn in Hn. inversion Hn as [|? ? N1 N2]; subst.
          destruct H1 as [->|H1], H2 as [<-|H2]; auto.
          - exfalso. apply N1. apply (in_map (fun d => k_word (snd d))) in H2. exact H2.
          - exfalso. apply N1. apply (in_map (fun d => k_word (snd d))) in H1. exact H1. }
        now apply (K defs).
    Qed.
    Lemma run_base : ftruthy base0 = true -> base0 = B c.
    Proof. unfold base0. destruct l as [[m d]|]; [|discriminate]. destruct Hl as [-> _]. reflexivity. Qed.
    Lemma run_times st : populate ws base0 (body c) = Ok st -> p_base st = B c /\ p_end st = E c.
    Proof.
      intros Hp. unfold populate in Hp. apply pop_times in Hp; [|reflexivity]. cbn [p_time p_base] in Hp. destruct Hp as [H1 H2].
      split; [|exact H1]. rewrite H2. destruct (ftruthy base0) eqn:Eb; [now apply run_base|].
      assert (Z : base0 = fzero \/ base0 = B c).
      { unfold base0. destruct l as [[m d]|]; auto. destruct Hl as [-> _]. now right. }
      destruct (first_of fzero (body c)) as [t|] eqn:Ef; [unfold B; now rewrite Ef|].
      destruct Z as [Z|Z]; rewrite Z; auto. unfold B. now rewrite Ef.
    Qed.
    Lemma run_frames st : populate ws base0 (body c) = Ok st ->
      mapM (fun d => match cached_frame dec l (snd d) with
                     | Some f => Ok (fst d, f)
                     | None => do f <- mk (snd d) (match dget eqs (fst d) (p_events st) with Some es => es | None => [] end) ;; Ok (fst d, f)
                     end) defs = frames defs c.
    Proof.
      intros Hp. unfold frames.
      assert (G : forall ds, incl ds defs ->
        mapM (fun d => match cached_frame dec l (snd d) with
                     | Some f => Ok (fst d, f)
                     | None => do f <- mk (snd d) (match dget eqs (fst d) (p_events st) with Some es => es | None => [] end) ;; Ok (fst d, f)
                     end) ds = mapM (fun d => do f <- F (snd d) c ;; Ok (fst d, f)) ds); [|apply G; apply incl_refl].
      induction ds as [|d ds IH]; intros Hi; auto. cbn [mapM]. rewrite IH by (intros x Hx; apply Hi; now right).
      f_equal. assert (Hd : In d defs) by (apply Hi; now left).
      assert (Hk : K (snd d)) by (destruct Hsel as (_ & _ & _ & HK); rewrite Forall_forall in HK; auto).
      destruct (cached_frame dec l (snd d)) as [f|] eqn:Ec.
      - now rewrite (cached_good c l (snd d) f Hc Hl Hk Ec).
      - change (match dget eqs (fst d) (p_events st) with Some es => es | None => [] end) with (arr (fst d) st).
        rewrite (run_own st d Hp Hd); auto. unfold is_cached. now rewrite Ec.
    Qed.
    Lemma frames_empty fs : ftruthy (B c) = false -> frames defs c = Ok fs -> Forall (fun x => snd x = []) fs.
    Proof.
      intros Hb. unfold frames. destruct Hsel as (_ & _ & _ & HK). fold defs in HK. revert fs.
      induction HK as [|d ds Hk _ IH]; intros fs H; cbn [mapM] in H; [injection H as <-; constructor|].
      unfold F in H at 1. rewrite B_false in H by auto. destruct (mk (snd d) []) as [f|] eqn:Em; [|discriminate]. cbn [bind] in H.
      destruct (mapM _ ds) as [fs'|]; [|discriminate]. cbn [bind] in H. injection H as <-. constructor; auto. cbn. eauto.
    Qed.
    Lemma finish_empty base w w' fs : Forall (fun x => snd x = []) fs -> finish cf base w fs = finish cf base w' fs.
    Proof.
      intros H.
      assert (G : map (windowify w) (map snd fs) = map (windowify w') (map snd fs)).
      { induction H as [|x fs Hx _ IH]; auto. cbn [map]. now rewrite IH, Hx. }
      unfold finish, apply_user. cbv zeta. destruct (c_norm cf); f_equal; [f_equal|]; exact G.
    Qed.
    Lemma all_cached : forallb (fun d => is_cached dec l (snd d)) defs = true ->
      frames defs c = Ok (map (fun d => (fst d, match cached_frame dec l (snd d) with Some f => f | None => [] end)) defs).
    Proof.
      intros H. unfold frames. destruct Hsel as (_ & _ & _ & HK). fold defs in HK. revert H.
      induction HK as [|d ds Hk _ IH]; intros H; auto. cbn [forallb] in H. apply andb_true_iff in H as [H1 H2].
      cbn [mapM map]. rewrite IH by auto. unfold is_cached in H1. destruct (cached_frame dec l (snd d)) as [f|] eqn:Ec; [|discriminate].
      now rewrite (cached_good c l (snd d) f Hc Hl Hk Ec).
    Qed.
  End Run.

  Lemma frames_pairs defs c fs : frames defs c = Ok fs ->
    forall d x, In (d, x) (combine defs fs) -> F (snd d) c = Ok (snd x) /\ In d defs.
  Proof.
    unfold frames. revert fs. induction defs as [|d0 ds IH]; intros fs H d x Hi; [destruct Hi|].
    cbn [mapM] in H. destruct (F (snd d0) c) as [f|] eqn:Ef; [|discriminate]. cbn [bind] in H.
    destruct (mapM _ ds) as [fs'|] eqn:Em; [|discriminate]. cbn [bind] in H. injection H as <-.
    cbn [combine] in Hi. destruct Hi as [Hi|Hi].
    - injection Hi as <- <-. split; [exact Ef|now left].
    - destruct (IH fs' eq_refl d x Hi). split; auto. now right.
  Qed.
  (** The steps taken by a successful parse. *)
  Definition good_tables (c : content) (ts : list (str * csv)) : Prop :=
    forall n t, In (n, t) ts -> exists k f, K k /\ n = k_pyname k /\ F k c = Ok f /\ t = enc f.
  Definition start_ops (l : option (meta * cdir)) (any_cached : bool) (c : content) : list op :=
    if any_cached then [] else
    (match l with Some _ => [ORmTree] | None => [] end) ++ [OMkDir; OOpenMeta; OWriteMeta (M c)].

  Definition loaded (cf : config) (s : fsys) : res (option (meta * cdir) * list op) :=
    if c_nocache cf then Ok (None, []) else load deq md5 s.

  Lemma parse_ok cf s l rm : loaded cf s = Ok (l, rm) -> T (f_trace s) -> good_load (f_trace s) l -> selection K (c_defs cf) ->
    fst (do_parse cf s) = fresh cf (f_trace s) /\
    (snd (do_parse cf s) = rm \/
     exists ts any, c_nocache cf = false /\ good_tables (f_trace s) ts /\
       (l = None -> any = false) /\
       snd (do_parse cf s) = rm ++ start_ops l any (f_trace s) ++ map (fun t => OTable (fst t) (snd t)) ts).
  Proof.
    intros Hl HT Hg Hs. unfold do_parse. fold (loaded cf s). rewrite Hl. set (c := f_trace s) in *.
    destruct (negb (c_nocache cf) && forallb (fun d => is_cached dec l (snd d)) (c_defs cf)) eqn:Ea.
    - apply andb_true_iff in Ea as [_ Ea]. pose proof (all_cached cf c l HT Hg Hs Ea) as Hf.
      destruct l as [[m d]|].
      + destruct Hg as [-> Hd]. cbn [fst snd]. split; [|now left]. unfold fresh. rewrite Hf. cbn [bind m_base m_end m_head M].
        f_equal. f_equal. unfold W. destruct (ftruthy (B c)) eqn:Eb; auto.
        apply finish_empty. eapply (frames_empty cf c None); eauto.
      + exfalso. destruct Hs as (Hne & _). destruct (c_defs cf) as [|d ds]; [congruence|]. cbn in Ea. discriminate.
    - rewrite (run_words cf l Hs). cbn [bind].
      set (base0 := match l with Some (m, _) => m_base m | None => fzero end).
      set (ws := map entry _).
      destruct (populate_total ws base0 (body c)) as (st & Hp). rewrite Hp. cbn [bind].
      rewrite (run_frames cf c l HT Hg Hs st Hp).
      destruct (run_times cf c l Hg st Hp) as [Tb Te].
      unfold fresh. destruct (frames (c_defs cf) c) as [fs|e] eqn:Ef; cbn [bind fst snd]; [|split; [auto|now left]].
      rewrite Tb, Te. split.
      + f_equal. f_equal.
        assert (Hb : ftruthy base0 = true -> base0 = B c) by (apply run_base; auto).
        unfold W. destruct (ftruthy base0) eqn:Eb.
        * specialize (Hb eq_refl). rewrite <- Hb, Eb. unfold base0 in *. destruct l as [[m d]|]; [reflexivity|discriminate].
        * destruct (ftruthy (B c)) eqn:EB; auto. apply finish_empty. eapply (frames_empty cf c None); eauto.
      + destruct (c_nocache cf) eqn:En; [left; now rewrite app_nil_r|right].
        eexists _, _. split; [reflexivity|]. split; [|split; [|unfold update_ops, start_ops; rewrite <- app_assoc || idtac; f_equal]].
        3: { f_equal. destruct l; reflexivity. }
        * intros n t Hi. apply in_map_iff in Hi as ([d x] & Hx & Hi). cbn [fst snd] in Hx. injection Hx as <- <-.
          apply filter_In in Hi as [Hi _]. destruct (frames_pairs _ _ _ Ef _ _ Hi) as [HF Hd].
          destruct Hs as (_ & _ & _ & HK). rewrite Forall_forall in HK. exists (snd d), (snd x). auto.
        * intros ->. apply not_true_is_false. intros H. apply existsb_exists in H as (d & _ & H). discriminate.
  Qed.

  Lemma load_inv cf s l rm : crash_inv s -> loaded cf s = Ok (l, rm) ->
    good_load (f_trace s) l /\
    ((l = None /\ rm = [] /\ (c_nocache cf = true \/ f_cache s = None)) \/
     (l = None /\ rm = [ORmTree]) \/
     (exists d, f_cache s = Some d /\ l = Some (M (f_trace s), d) /\ rm = [] /\ good_dir (f_trace s) d)).
  Proof.
    intros [HT Hc]. unfold loaded. destruct (c_nocache cf).
    - intros [= <- <-]. cbn. auto 10.
    - unfold load. destruct (f_cache s) as [d|] eqn:Ed.
      + destruct Hc as (c & Tc & Hm & Hd). destruct Hm as [Hm|[Hm|Hm]]; rewrite Hm; try discriminate. cbn [m_md5 m_head M].
        destruct (deq (md5 c) (md5 (f_trace s))) eqn:Eq.
        * apply Hdeq in Eq. apply Hmd5 in Eq; auto. subst c. intros [= <- <-]. cbn. split; auto. right. right. exists d. auto.
        * intros [= <- <-]. cbn. auto 10.
      + intros [= <- <-]. cbn. auto 10.
  Qed.

  (** ** Crash states *)
  Lemma good_dset c d n k f : good_dir c d -> K k -> n = k_pyname k -> F k c = Ok f ->
    good_dir c (CDir (d_meta d) (dset eqs n (enc f) (d_tables d))).
  Proof.
    intros [Hn Hd] Hk -> HF. split; [now apply (dset_NoDup eqs eqs_eq)|]. cbn [d_tables]. intros m t Hi.
    assert (G := In_dget eqs eqs_eq m t _ (dset_NoDup eqs eqs_eq _ (enc f) _ Hn) Hi).
    rewrite (dget_dset eqs eqs_eq) in G. destruct (eqs m (k_pyname k)) eqn:Em.
    - apply eqs_eq in Em as ->. injection G as <-. exists k, f. auto.
    - apply (dget_In eqs eqs_eq) in G. auto.
  Qed.
  Lemma tables_crash c ts : good_tables c ts -> T c -> forall s s', f_trace s = c -> crash_inv s ->
    (forall d, f_cache s = Some d -> d_meta d = Some (MOk (M c)) /\ good_dir c d) ->
    interrupted (map (fun t => OTable (fst t) (snd t)) ts) s s' ->
    crash_inv s' /\ f_trace s' = c /\ (forall d, f_cache s' = Some d -> d_meta d = Some (MOk (M c)) /\ good_dir c d).
  Proof.
    intros Hts HT. induction ts as [|[n t] ts IH]; intros s s' Hc Hi Hd H; cbn [map] in H.
    - inversion H; subst. auto.
    - inversion H as [|? ? ? ? H1|]; subst; auto. destruct (Hts n t (or_introl eq_refl)) as (k & f & Hk & -> & HF & ->).
      apply IH in H1; auto.
      + intros n' t' Ht. apply Hts. now right.
      + cbn [exec1 fst snd]. unfold on_dir. split; [apply Hi|]. cbn [f_cache option_map]. destruct (f_cache s) as [d|] eqn:Ed; cbn; auto.
        destruct (Hd d eq_refl) as [Hm Hg]. exists (f_trace s). split; auto. split; [left; exact Hm|]. eapply good_dset; eauto.
      + cbn [exec1 fst snd]. unfold on_dir. cbn [f_cache]. destruct (f_cache s) as [d|] eqn:Ed; cbn; [|discriminate].
        intros d' [= <-]. destruct (Hd d eq_refl) as [Hm Hg]. cbn [d_meta]. split; auto. eapply good_dset; eauto.
  Qed.
  Lemma partly_inv s d d' : crash_inv s -> f_cache s = Some d -> partly_removed d d' -> crash_inv (Fs (f_trace s) (Some d')).
  Proof.
    intros [HT Hc] Ed (Pm & Pn & Pt). rewrite Ed in Hc. destruct Hc as (c & Tc & Hm & _ & Hg). split; auto. cbn. exists c. split; auto. split.
    - destruct Pm as [-> | ->]; auto.
    - split; auto.
  Qed.
  Lemma inv_none c : T c -> crash_inv (Fs c None).
  Proof. intros HT. split; auto. exact I. Qed.
  Lemma inv_dir c m : T c -> (m = Some (MOk (M c)) \/ m = None \/ m = Some MBad) -> crash_inv (Fs c (Some (CDir m []))).
  Proof. intros HT Hm. split; auto. cbn. exists c. split; auto. split; auto. split; [constructor|intros n t []]. Qed.
  Lemma start_crash c ts s s' : good_tables c ts -> T c -> f_trace s = c -> crash_inv s ->
    interrupted ([OMkDir; OOpenMeta; OWriteMeta (M c)] ++ map (fun t => OTable (fst t) (snd t)) ts) s s' -> crash_inv s'.
  Proof.
    intros Hts HT Hc Hi H. cbn [app] in H.
    inversion H as [|? ? ? ? H1|]; subst; auto. cbn [exec1] in H1.
    inversion H1 as [|? ? ? ? H2|]; subst; [apply inv_dir; auto|]. cbn in H2.
    inversion H2 as [|? ? ? ? H3|]; subst; [apply inv_dir; auto|]. cbn in H3.
    apply (tables_crash (f_trace s) ts) in H3; auto; [tauto|apply inv_dir; auto|].
    cbn. intros d [= <-]. cbn. split; auto. split; [constructor|intros n t []].
  Qed.
  Lemma after_rm os s s' : crash_inv s -> interrupted (ORmTree :: os) s s' ->
    crash_inv s' \/ interrupted os (Fs (f_trace s) None) s'.
  Proof.
    intros Hi H. inversion H as [|? ? ? ? H1|? ? d d' Hd Hp]; subst; auto. left. eapply partly_inv; eauto.
  Qed.
  Theorem crash_step cf s s' : crash_inv s -> selection K (c_defs cf) ->
    interrupted (snd (do_parse cf s)) s s' -> crash_inv s'.
  Proof.
    intros Hi Hs H. destruct (loaded cf s) as [[l rm]|e] eqn:El.
    - destruct (load_inv cf s l rm Hi El) as [Hg Hcase].
      assert (HT : T (f_trace s)) by apply Hi.
      destruct (parse_ok cf s l rm El HT Hg Hs) as [_ [Ho|(ts & any & Hnc & Hts & Hany & Ho)]]; rewrite Ho in H.
      + destruct Hcase as [(-> & -> & _)|[(-> & ->)|(d & Hd & -> & -> & _)]].
        * inversion H; subst; auto.
        * apply after_rm in H as [H|H]; auto. inversion H; subst. now apply inv_none.
        * inversion H; subst; auto.
      + destruct Hcase as [(-> & -> & Hn)|[(-> & ->)|(d & Hd & -> & -> & Hgd)]].
        * rewrite (Hany eq_refl) in H. cbn [app start_ops] in H. apply (start_crash (f_trace s) ts s s'); auto.
        * rewrite (Hany eq_refl) in H. cbn [app start_ops] in H. apply after_rm in H as [H|H]; auto.
          apply (start_crash (f_trace s) ts (Fs (f_trace s) None) s'); auto. now apply inv_none.
        * destruct any; cbn [app start_ops] in H.
          -- apply (tables_crash (f_trace s) ts Hts HT s) in H; auto; [tauto|]. rewrite Hd. intros d' [= <-]. split; auto.
             destruct Hi as [_ Hi]. rewrite Hd in Hi. destruct Hi as (c & Tc & Hm & Hgc).
             unfold loaded in El. rewrite Hnc in El. unfold load in El. rewrite Hd in El.
             destruct Hm as [Hm|[Hm|Hm]]; rewrite Hm in El; try discriminate. cbn [m_md5 m_head M] in El.
             destruct (deq (md5 c) (md5 (f_trace s))); [|discriminate].
             rewrite Hm. do 2 f_equal. congruence.
          -- apply after_rm in H as [H|H]; auto. apply (start_crash (f_trace s) ts (Fs (f_trace s) None) s'); auto. now apply inv_none.
    - unfold do_parse in H. fold (loaded cf s) in H. rewrite El in H. inversion H; subst; auto.
  Qed.
  Lemma exec_interrupted (os : list op) : forall s : fsys, interrupted os s (exec s os).
  Proof. induction os as [|o os IH]; intros s; [constructor|]. apply int_step. apply IH. Qed.
  Lemma reach_crash crashes s : Reach deq md5 body head enc dec mk K T crashes s -> crash_inv s.
  Proof.
    induction 1 as [c Hc|s cf H IH Hs|s c H IH Hc|s cf s' Hb H IH Hs Hi].
    - now apply inv_none.
    - unfold construct. destruct (do_parse cf s) as [r os] eqn:Eo. cbn [snd].
      apply (crash_step cf s); auto. rewrite Eo. cbn [snd]. apply exec_interrupted.
    - destruct IH as [_ IH]. split; auto.
    - eapply crash_step; eauto.
  Qed.

  (** ** Without crashes the metadata is always complete *)
  Definition complete (s : fsys) : Prop := match f_cache s with None => True | Some d => exists m, d_meta d = Some (MOk m) end.
  Lemma complete_tables ts : forall s, complete s -> complete (exec s (map (fun t : str * csv => OTable (fst t) (snd t)) ts)).
  Proof.
    unfold exec. induction ts as [|[n t] ts IH]; intros s Hs; auto. cbn [map fold_left]. apply IH.
    unfold complete in *. cbn [exec1 fst snd]. unfold on_dir. cbn [f_cache]. destruct (f_cache s) as [d|]; cbn; auto.
  Qed.
  Lemma complete_step cf s : crash_inv s -> complete s -> selection K (c_defs cf) -> complete (snd (construct cf s)).
  Proof.
    intros Hi Hc Hs. unfold construct. destruct (do_parse cf s) as [r os] eqn:Eo. cbn [snd].
    assert (Ho : snd (do_parse cf s) = os) by now rewrite Eo. clear Eo.
    destruct (loaded cf s) as [[l rm]|e] eqn:El.
    - destruct (load_inv cf s l rm Hi El) as [Hg Hcase]. assert (HT : T (f_trace s)) by apply Hi.
      assert (Crm : complete (exec s rm)).
      { destruct Hcase as [(-> & -> & _)|[(-> & ->)|(d & Hd & -> & -> & _)]]; auto. }
      destruct (parse_ok cf s l rm El HT Hg Hs) as [_ [Ho'|(ts & any & Hnc & Hts & Hany & Ho')]]; rewrite Ho' in Ho; subst os; auto.
      unfold exec. rewrite fold_left_app. fold (exec s rm). rewrite fold_left_app. apply complete_tables.
      unfold start_ops. destruct any; [exact Crm|]. rewrite fold_left_app. cbn [fold_left]. unfold complete.
      cbn. exists (M (f_trace s)). reflexivity.
    - unfold do_parse in Ho. fold (loaded cf s) in Ho. rewrite El in Ho. subst os. exact Hc.
  Qed.
  Lemma reach_complete s : Reach deq md5 body head enc dec mk K T false s -> complete s.
  Proof.
    intros H. assert (Hr := reach_crash _ _ H). revert Hr.
    induction H as [c Hc|s cf H IH Hs|s c H IH Hc|s cf s' Hb H IH Hs Hi]; intros Hr; try discriminate.
    - exact I.
    - apply complete_step; auto; [now apply (reach_crash false)|]. apply IH. now apply (reach_crash false).
    - apply IH. now apply (reach_crash false).
  Qed.

  (** ** The theorems *)
  Lemma construct_fst cf s : fst (construct cf s) = fst (do_parse cf s).
  Proof. unfold construct. now destruct (do_parse cf s). Qed.
  Theorem no_cache cf s : T (f_trace s) -> selection K (c_defs cf) -> fst (construct (uncached cf) s) = fresh cf (f_trace s).
  Proof.
    intros HT Hs. rewrite construct_fst. destruct (parse_ok (uncached cf) s None []) as [-> _]; auto. exact I.
  Qed.
  Theorem after_crashes s cf : Reach deq md5 body head enc dec mk K T true s -> selection K (c_defs cf) -> c_nocache cf = false ->
    (match f_cache s with Some d => match d_meta d with Some (MOk _) => False | _ => True end | None => False end ->
       exists e, fst (construct cf s) = Err e /\ (e = EIO \/ e = EJson)) /\
    (match f_cache s with Some d => exists m, d_meta d = Some (MOk m) | None => True end ->
       fst (construct cf s) = fst (construct (uncached cf) s)).
  Proof.
    intros Hr Hs Hn. apply reach_crash in Hr as Hi. rewrite no_cache; auto; [|apply Hi]. rewrite construct_fst. split.
    - intros Hbad. unfold do_parse. fold (loaded cf s). unfold loaded. rewrite Hn. unfold load. destruct Hi as [_ Hi].
      destruct (f_cache s) as [d|]; [|destruct Hbad]. destruct Hi as (c & _ & Hm & _).
      destruct Hm as [Hm|[Hm|Hm]]; rewrite Hm in *; [destruct Hbad| |]; eexists; cbn; eauto.
    - intros Hok. destruct (loaded cf s) as [[l rm]|e] eqn:El.
      + destruct (load_inv cf s l rm Hi El) as [Hg _]. destruct (parse_ok cf s l rm El) as [-> _]; auto. apply Hi.
      + exfalso. unfold loaded in El. rewrite Hn in El. unfold load in El. destruct Hi as [_ Hi].
        destruct (f_cache s) as [d|]; [|discriminate]. destruct Hi as (c & _ & Hm & _). destruct Hok as (m & Hok).
        destruct Hm as [Hm|[Hm|Hm]]; try congruence. rewrite Hm in El. cbn [m_md5 m_head M] in El.
        now destruct (deq (md5 c) (md5 (f_trace s))).
  Qed.
  Theorem transparent s cf : Reach deq md5 body head enc dec mk K T false s -> selection K (c_defs cf) ->
    fst (construct cf s) = fst (construct (uncached cf) s).
  Proof.
    intros Hr Hs. apply reach_complete in Hr as Hc. apply reach_crash in Hr as Hi.
    rewrite no_cache; auto; [|apply Hi]. rewrite construct_fst. destruct (loaded cf s) as [[l rm]|e] eqn:El.
    - destruct (load_inv cf s l rm Hi El) as [Hg _]. destruct (parse_ok cf s l rm El) as [-> _]; auto. apply Hi.
    - exfalso. unfold loaded in El. destruct (c_nocache cf); [discriminate|]. unfold load in El. destruct Hi as [_ Hi].
      unfold complete in Hc. destruct (f_cache s) as [d|]; [|discriminate]. destruct Hi as (c & _ & Hm & _). destruct Hc as (m & Hok).
      destruct Hm as [Hm|[Hm|Hm]]; try congruence. rewrite Hm in El. cbn [m_md5 m_head M] in El.
      now destruct (deq (md5 c) (md5 (f_trace s))).
  Qed.
End Cache.
