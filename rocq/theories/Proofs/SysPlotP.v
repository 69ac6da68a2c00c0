(** From a systrace page to the bars of its switches. *)
From Coq Require Import List Ascii String ZArith NArith QArith Bool Sorted Lia.
From Flocq Require Import Core BinarySingleNaN.
From Verif Require Import Lib.PyStr Lib.PyStrFacts Lib.F64 Lib.F64Facts Lib.F64Ord Model.Base Model.Line Model.Registry Model.Populate Model.Window Model.Cache
  Model.Events Model.Classes Model.Residency Model.EventPlot Model.EventBars Model.PlotTrace Model.PlotReport Model.Systrace Model.SysReport Model.SysPlot
  Spec.Lines Spec.Payload Spec.Arrays Spec.Parts Spec.Trace Spec.Interval Spec.Written Spec.Events Spec.Classes Spec.Residency Spec.EventPlot
  Spec.EventBars Spec.PlotTrace Spec.PlotReport Spec.SysReport
  Proofs.FrameP Proofs.LineP Proofs.PopulateP Proofs.WrittenP Proofs.WrittenQ Proofs.ClassesQ Proofs.PlotTraceP Proofs.PlotReportP Proofs.SystraceP Proofs.SysReportP.
Import ListNotations.
Local Open Scope nat_scope.
Local Open Scope list_scope.

Lemma shown_rows k L shift ss fr : k_pyname k = $"SchedSwitch" -> Forall2 (event_shown k L shift) ss fr -> Forall2 (row_shows Same L shift) ss fr.
Proof.
  intros Ek H. eapply Forall2_impl; [|exact H]. intros m r (A & _ & B). rewrite Ek in B. unfold kind_of in B. rewrite Ek in B.
  destruct B as [B C]; [discriminate|]. split; [exact A|]. split; auto.
Qed.
Lemma marks_cpus shift ss : Forall (fun m => text_ok Switches (m_text m)) ss ->
  map (@s_cpu Q) (flat_map (printed_switch shift) ss) = map cpu_of ss.
Proof.
  induction 1 as [|m ss Hm _ IH]; [reflexivity|]. cbn [flat_map map]. rewrite map_app, IH. unfold printed_switch.
  destruct (m_text m); try contradiction. reflexivity.
Qed.
Lemma texts_nonempty a items us : filter (has_attr a) (marked 0 items us) <> [] -> texts_of a items <> [].
Proof.
  generalize 0%Z. revert us. induction items as [|it items IH]; intros us z H; [now destruct us|].
  destruct it as [l|L|L b t]; cbn [marked texts_of flat_map app] in *; [now apply (IH us (z + 1)%Z)| |].
  - destruct us as [|u us]; [now destruct H|]. now apply (IH us (z + 1)%Z).
  - destruct us as [|u us]; [now destruct H|]. cbn [filter] in H. unfold has_attr at 1 in H. cbn [m_attr] in H.
    destruct (eqs a b); [discriminate|]. now apply (IH us (z + 1)%Z).
Qed.

Section Whole.
  Context {content digest header csv : Type}.
  Variables (deq : digest -> digest -> bool) (md5 : content -> digest)
            (file : content -> list str) (head : content -> header)
            (enc : frame -> csv) (dec : csv -> option frame) (fuel : nat).
  Notation parse := (sys_parse deq md5 file head enc dec fuel).
  Notation construct := (sys_construct deq md5 file head enc dec fuel).
  Variables (files : str -> @fsys content digest header csv) (ftrace : str -> res ptrace).
  Notation opened c := (open_page ftrace (fun p => construct c (files p))).

  Theorem page_bars (c : config) p items k :
    NoDup (map fst (c_defs c)) -> NoDup (map (fun d => k_word (snd d)) (c_defs c)) ->
    c_nocache c = true \/ (f_cache (files p) = None /\ c_defs c <> []) ->
    Page (map entry_str items) (file (f_trace (files p))) ->
    begins items -> Forall (entry_ok (c_defs c)) items ->
    (forall a k, In (a, k) (c_defs c) -> titles_ok (snd (kind_of k)) (texts_of a items) /\
       forall q, In q (parts_in (texts_of a items)) -> (arrays q < fuel)%nat) ->
    In ($"sched_switch", k) (c_defs c) -> k_pyname k = $"SchedSwitch" -> (exists b, p = b ++ $"html") ->
    exists tr ts us, fst (parse c (files p)) = Ok tr /\ Forall2 printed_time (entry_lines items) ts /\ Assigned fzero ts us /\
      t_base tr = hd fzero us /\ t_end tr = last us fzero /\
      (windows_ok (c_win c) (c_abs c) (t_base tr) -> Forall (fun u => finite u) us ->
       forall en ps r0 rows init rn,
       printed_switches $"sched_switch" (fun t => if c_norm c then fsub t (t_base tr) else t)
         (in_both (c_win c) (c_abs c) (t_base tr)) items us = r0 :: rows -> r0 :: rows = init ++ [rn] ->
       Regular (execnames_of en) (pids_of ps) (r0 :: rows) ->
       exists g n, plot_trace true (opened c) (SPath p) en ps = Ok (g, (Residency.s_time r0, Residency.s_time rn)) /\
         (exists r, In r (r0 :: rows) /\ n = (s_cpu r + 1)%Z) /\ (forall r, In r (r0 :: rows) -> (s_cpu r < n)%Z) /\
         Labels [] $"CPU :" n (g_lanes g) /\
         forall st x y, Rising x -> exists paths, draw st x y g = Ok paths /\
           AllRuns (execnames_of en) (pids_of ps) (r0 :: rows) x y paths /\ OnlyRuns (execnames_of en) (pids_of ps) (r0 :: rows) x y paths) /\
      Forall (fun u => nn u = true /\ fle (hd fzero us) u = true) us.
  Proof.
    intros H1 H2 H3 H4 H5 H6 H7 Hk Ek (b & Hp).
    destruct (page_all deq md5 file head enc dec fuel c (files p) items k H1 H2 H3 H4 H5 H6 H7 Hk Ek) as (tr & ts & us & E & HT & HA & HB & HE & _ & HF).
    exists tr, ts, us. do 5 (split; [assumption|]).
    assert (Hnn : Forall (fun t => nn t = true) ts).
    { clear -HT. induction HT as [|L t l l' Hp _ IH]; constructor; auto. exact (printed_nn _ _ Hp). }
    assert (Hso := Assigned_fle fzero ts us eq_refl Hnn HA).
    assert (Hnu : Forall (fun u => nn u = true) us).
    { destruct (Assigned_sorted _ _ _ (eq_refl : nn fzero = true) Hnn HA) as (S1 & _). eapply Forall_impl; [|exact S1]. cbv beta. tauto. }
    split.
    - intros Hw Hf en ps r0 rows init rn Er Ei HR. destruct (HF Hw) as ((fr & Hd & Hfr) & Ht & Hcon). cbv zeta in *.
      unfold printed_switches in Er. set (ss := filter _ _) in *.
      assert (Ekk : kind_of k = (Switches, Same)) by (unfold kind_of; now rewrite Ek). rewrite Ekk in Ht. cbn [fst] in Ht.
      assert (Hne : texts_of $"sched_switch" items <> []).
      { apply (texts_nonempty _ _ us). intros X. assert (Y : ss = []); [|rewrite Y in Er; discriminate Er].
        destruct ss as [|m l] eqn:Em; [reflexivity|]. exfalso.
        assert (In m (m :: l)) as Hm by now left. rewrite <- Em in Hm. unfold ss in Hm. apply filter_In in Hm as [M1 M2]. apply andb_true_iff in M2 as [M2 _].
        assert (Hm : In m (filter (has_attr $"sched_switch") (marked 0 items us))) by now apply filter_In. rewrite X in Hm. destruct Hm. }
      specialize (Hcon Hne).
      set (shift := fun t => if c_norm c then fsub t (t_base tr) else t) in *.
      assert (HI : InTime (r0 :: rows)).
      { rewrite <- Er. apply switches_sorted. apply sorted_filter.
        apply (marked_sorted (fun x y => (fQ (shift x) <= fQ (shift y))%Q)). unfold shift.
        rewrite HB. now apply shift_mono. }
      assert (Hm := rows_switches _ _ _ _ Ht (shown_rows _ _ _ _ _ Ek Hfr)). rewrite Er in Hm.
      assert (Hcp := marks_cpus shift ss Ht). rewrite Er in Hcp. rewrite <- Hcp in Hcon. cbn [map] in Hcon.
      destruct (maxz_spec (map (@s_cpu Q) rows) (s_cpu r0)) as [A B]. change (s_cpu r0 :: map (@s_cpu Q) rows) with (map (@s_cpu Q) (r0 :: rows)) in A, B.
      set (n := (1 + maxz (s_cpu r0) (map (@s_cpu Q) rows))%Z) in *.
      assert (N1 : exists r, In r (r0 :: rows) /\ n = (s_cpu r + 1)%Z).
      { apply in_map_iff in A as (r & Ar & Hr). exists r. split; auto. unfold n. lia. }
      assert (N2 : forall r, In r (r0 :: rows) -> (s_cpu r < n)%Z).
      { intros r Hr. specialize (B _ (in_map (@s_cpu Q) _ _ Hr)). unfold n. lia. }
      assert (N0 : n <> 0%Z).
      { assert (In (s_cpu r0) (map cpu_of ss)) as Hc0 by (rewrite <- Hcp; left; reflexivity).
        apply in_map_iff in Hc0 as (m & Em & _). unfold cpu_of in Em. specialize (N2 r0 (or_introl eq_refl)). lia. }
      assert (Hkd : PlotTrace.kind_of p = KSysTrace).
      { destruct (kind_ok p) as [[_ K]|[K _]]; auto. exfalso. apply K. now exists b. }
      destruct (plot_trace_ok (opened c) (SPath p) (PTrace (Some (r0 :: rows)) (CNum n)) en ps r0 rows init rn n) as (g & G1 & G2 & G3); auto.
      + rewrite Hkd. unfold open_page. rewrite Hcon. cbn [bind]. unfold sys_ptrace. cbn [fst snd]. rewrite Hd, Hm. reflexivity.
      + exists g, n. auto.
    - destruct us as [|u us]; [constructor|]. cbn [hd]. inversion Hso; subst. inversion Hnu; subst. constructor; [split; auto; now apply fle_refl|].
      rewrite Forall_forall in *. intros x I. split; auto.
  Qed.

  (** plotter/__init__.py:77: the trace is constructed with the parameters nobody gave *)
  Theorem page_bars_all (c : config) p items k :
    NoDup (map fst (c_defs c)) -> NoDup (map (fun d => k_word (snd d)) (c_defs c)) ->
    c_nocache c = true \/ (f_cache (files p) = None /\ c_defs c <> []) ->
    c_norm c = true -> c_win c = (fzero, None) -> c_abs c = (fzero, None) ->
    Page (map entry_str items) (file (f_trace (files p))) ->
    begins items -> Forall (entry_ok (c_defs c)) items ->
    (forall a k, In (a, k) (c_defs c) -> titles_ok (snd (kind_of k)) (texts_of a items) /\
       forall q, In q (parts_in (texts_of a items)) -> (arrays q < fuel)%nat) ->
    In ($"sched_switch", k) (c_defs c) -> k_pyname k = $"SchedSwitch" -> (exists b, p = b ++ $"html") ->
    exists ts us, Forall2 printed_time (entry_lines items) ts /\ Assigned fzero ts us /\
      (Forall (fun u => finite u) us ->
       forall en ps r0 rows init rn,
       printed_switches $"sched_switch" (fun t => fsub t (hd fzero us)) (fun _ => true) items us = r0 :: rows -> r0 :: rows = init ++ [rn] ->
       Regular (execnames_of en) (pids_of ps) (r0 :: rows) ->
       exists g n, plot_trace true (opened c) (SPath p) en ps = Ok (g, (Residency.s_time r0, Residency.s_time rn)) /\
         (exists r, In r (r0 :: rows) /\ n = (s_cpu r + 1)%Z) /\ (forall r, In r (r0 :: rows) -> (s_cpu r < n)%Z) /\
         Labels [] $"CPU :" n (g_lanes g) /\
         forall st x y, Rising x -> exists paths, draw st x y g = Ok paths /\
           AllRuns (execnames_of en) (pids_of ps) (r0 :: rows) x y paths /\ OnlyRuns (execnames_of en) (pids_of ps) (r0 :: rows) x y paths).
  Proof.
    intros H1 H2 H3 Hno Hwi Hab H4 H5 H6 H7 Hk Hn Hp.
    destruct (page_bars c p items k) as (tr & ts & us & E & HT & HA & HB & HE & HF & HU); auto.
    exists ts, us. do 2 (split; [assumption|]). intros Hf en ps r0 rows init rn Er Ei HR.
    destruct (default_windows us HU Hf) as [W K].
    rewrite Hwi, Hab, HB, Hno in HF. apply (HF W Hf en ps r0 rows init rn); auto. rewrite <- Er. now apply all_switches.
  Qed.

  (** Nothing to plot. *)
  Theorem page_no_bars (c : config) p items k ip en ps :
    NoDup (map fst (c_defs c)) -> NoDup (map (fun d => k_word (snd d)) (c_defs c)) ->
    c_nocache c = true \/ (f_cache (files p) = None /\ c_defs c <> []) ->
    Page (map entry_str items) (file (f_trace (files p))) ->
    begins items -> Forall (entry_ok (c_defs c)) items ->
    (forall a k, In (a, k) (c_defs c) -> titles_ok (snd (kind_of k)) (texts_of a items) /\
       forall q, In q (parts_in (texts_of a items)) -> (arrays q < fuel)%nat) ->
    In ($"sched_switch", k) (c_defs c) -> k_pyname k = $"SchedSwitch" -> (exists b, p = b ++ $"html") ->
    texts_of $"sched_switch" items = [] ->
    plot_trace ip (opened c) (SPath p) en ps = Err (if ip then EKey else ERuntime).
  Proof.
    intros H1 H2 H3 H4 H5 H6 H7 Hk Ek (b & Hp) He.
    destruct (page_all deq md5 file head enc dec fuel c (files p) items k H1 H2 H3 H4 H5 H6 H7 Hk Ek) as (tr & ts & us & _ & _ & _ & _ & _ & X & _).
    unfold plot_trace. destruct ip; [|reflexivity]. cbn [negb].
    destruct (kind_ok p) as [[_ K]|[K _]]; [|exfalso; apply K; now exists b]. rewrite K. unfold open_page. now rewrite (X He).
  Qed.
End Whole.
