(** From a printed report to the bars of its switches. *)
From Coq Require Import List Ascii String ZArith NArith QArith Qreals Reals Bool Sorted Lra Lia.
From Flocq Require Import Core BinarySingleNaN.
From Verif Require Import Lib.PyStr Lib.PyStrFacts Lib.F64 Lib.F64Facts Lib.F64Ord Model.Base Model.Line Model.Registry Model.Populate Model.Window Model.Cache
  Model.Files Model.Events Model.Classes Model.Residency Model.EventPlot Model.EventBars Model.PlotTrace Model.PlotReport
  Spec.Lines Spec.Payload Spec.Arrays Spec.Parts Spec.Trace Spec.Interval Spec.Written Spec.Events Spec.Classes Spec.Files Spec.Residency Spec.EventPlot
  Spec.EventBars Spec.PlotTrace Spec.PlotReport
  Proofs.LineP Proofs.PopulateP Proofs.FilesP Proofs.WrittenP Proofs.WrittenQ Proofs.ClassesQ Proofs.PlotTraceP.
Import ListNotations.
Local Open Scope nat_scope.
Local Open Scope list_scope.

(** ** Times *)
Lemma bpow_neg e : (e < 0)%Z -> bpow radix2 e = (/ IZR (2 ^ (- e)))%R.
Proof.
  intros H. replace e with (- (- e))%Z by lia. rewrite bpow_opp. f_equal. replace (- - e)%Z with e by lia.
  change (2 ^ - e)%Z with (Zpower radix2 (- e)). rewrite IZR_Zpower; [reflexivity|lia].
Qed.
Lemma fQ_value x : Q2R (fQ x) = B2R x.
Proof.
  destruct x as [s|s| |s m e H]; try (unfold Q2R; cbn; lra).
  cbn [fQ B2R]. unfold F2R. cbn [Fnum Fexp].
  assert (E : (if s then Zneg m else Zpos m) = cond_Zopp s (Zpos m)) by now destruct s. rewrite E. clear E. set (z := cond_Zopp s (Zpos m)).
  destruct (0 <=? e)%Z eqn:L.
  - apply Z.leb_le in L. unfold Q2R, inject_Z. cbn [Qnum Qden]. rewrite Rinv_1, Rmult_1_r, mult_IZR. f_equal.
    change (2 ^ e)%Z with (Zpower radix2 e). now rewrite IZR_Zpower.
  - apply Z.leb_gt in L. rewrite bpow_neg by lia. unfold Q2R. cbn [Qnum Qden]. f_equal. f_equal. f_equal.
    rewrite Z2Pos.id; [reflexivity|]. apply Z.pow_pos_nonneg; lia.
Qed.
Lemma fQ_mono x y : nn x = true -> nn y = true -> finite y -> fle x y = true -> (fQ x <= fQ y)%Q.
Proof. intros Nx Ny Fy H. apply fle_spec in H; auto. destruct H as [_ L]. apply Rle_Qle. now rewrite !fQ_value. Qed.

Lemma nearest_nn t r : (0 <= r)%R -> nearest t r -> nn t = true.
Proof.
  intros Hr [A B]. destruct (Rlt_or_le (round_double r) (bpow radix2 1024)) as [L|L].
  - destruct (A L) as [F E]. apply nn_of_pos; auto. rewrite E. unfold round_double.
    rewrite <- (round_0 radix2 (FLT_exp (-1074) 53) (Znearest (fun z => negb (Z.even z)))). apply round_le; auto with typeclass_instances.
  - now rewrite (B L).
Qed.
Lemma printed_nn l t : printed_time l t -> nn t = true.
Proof.
  unfold printed_time. destruct (l_us l) as [u|].
  - apply nearest_nn. apply Rmult_le_pos; [apply IZR_le; lia|]. apply Rlt_le, Rinv_0_lt_compat, IZR_lt. apply Z.pow_pos_nonneg; lia.
  - intros (t0 & N & A & B). assert (nn t0 = true) as N0 by (revert N; apply nearest_nn, IZR_le; lia).
    destruct (is_finite t0) eqn:F; [|now rewrite B]. apply (nearest_nn _ _) with (2 := A eq_refl).
    apply nn_pos in N0. lra.
Qed.

(** ** Rows *)
Lemma marked_texts defs items a k : In (a, k) defs -> forall i us, Forall (entry_ok defs) items ->
  forall m, In m (marked i items us) -> eqs a (m_attr m) = true -> text_ok (fst (kind_of k)) (m_text m).
Proof.
  intros I. induction items as [|[l|L|L b t] items IH]; intros i us F m; cbn [marked].
  - intros [].
  - inversion F; subst. now apply IH.
  - destruct us; [intros []|]. inversion F; subst. now apply IH.
  - destruct us; [intros []|]. inversion F as [|? ? E F']; subst. intros [<-|J]; [|exact (IH _ _ F' m J)].
    cbn [m_attr m_text]. intros Ea. apply eqs_eq in Ea as <-. apply (proj2 (proj2 (proj2 E))). exact I.
Qed.
Lemma row_switch L shift m r : text_ok Switches (m_text m) -> row_shows Same L shift m r ->
  exists s, printed_switch shift m = [s] /\ switch_of r = Ok s.
Proof.
  unfold printed_switch. destruct (m_text m) as [|p st n| | | | | | |] eqn:T; try (intros []; fail). intros _ (Et & Hc & Hm). eexists. split; [reflexivity|].
  rewrite T in Hc, Hm. cbn [text_cells] in Hc, Hm. unfold switch_of.
  assert (forall key v, In (key, is v) [($"prev_comm", is (CStr (name_text (sw_comm p)))); ($"prev_pid", is (CInt (sw_pid p)));
       ($"prev_prio", is (CInt (sw_prio p))); ($"prev_state", col_cell st []);
       ($"next_comm", is (CStr (name_text (sw_comm n)))); ($"next_pid", is (CInt (sw_pid n)));
       ($"next_prio", is (CInt (sw_prio n)))] -> dlookup key (snd r) = Some v) as G.
  { intros key v I. destruct (Hc key (is v) I) as (v' & E & Hl). unfold is in E. subst v'. exact Hl. }
  rewrite (G $"prev_pid" (CInt (sw_pid p))) by (right; left; reflexivity).
  rewrite (G $"next_pid" (CInt (sw_pid n))) by (do 5 right; left; reflexivity).
  rewrite (G $"next_comm" (CStr (name_text (sw_comm n)))) by (do 4 right; left; reflexivity).
  rewrite (Hm $"__cpu"). 2:{ cbn. intros H. repeat (destruct H as [H|H]; [discriminate H|]). exact H. }
  cbn. now rewrite Et.
Qed.
Lemma rows_switches L shift ms fr : Forall (fun m => text_ok Switches (m_text m)) ms -> Forall2 (row_shows Same L shift) ms fr ->
  mapM switch_of fr = Ok (flat_map (printed_switch shift) ms).
Proof.
  intros F H. induction H as [|m r ms fr Hr _ IH]; [reflexivity|]. inversion F; subst.
  destruct (row_switch _ _ _ _ H1 Hr) as (s & E1 & E2). cbn [mapM flat_map]. rewrite E1, E2. cbn [bind]. rewrite IH by auto. reflexivity.
Qed.

(** ** Order *)
Lemma switches_sorted shift ms : StronglySorted (fun x y => (fQ (shift (m_time x)) <= fQ (shift (m_time y)))%Q) ms ->
  InTime (flat_map (printed_switch shift) ms).
Proof.
  unfold InTime. induction 1 as [|m ms _ IH F]; [constructor|]. cbn [flat_map].
  assert (forall s, In s (flat_map (printed_switch shift) ms) -> exists x, In x ms /\ Residency.s_time s = fQ (shift (m_time x))) as G.
  { intros s I. apply in_flat_map in I as (x & Ix & Is). exists x. split; auto. unfold printed_switch in Is.
    destruct (m_text x); cbn in Is; try contradiction. destruct Is as [<-|[]]. reflexivity. }
  unfold printed_switch at 1. destruct (m_text m); cbn [app]; auto. cbn [map]. constructor; auto.
  cbn [Residency.s_time]. apply Forall_forall. intros q I. apply in_map_iff in I as (s & <- & I). destruct (G s I) as (x & Ix & ->).
  rewrite Forall_forall in F. now apply F.
Qed.
Lemma sorted_impl {A} (R S : A -> A -> Prop) l : (forall x y, In x l -> In y l -> R x y -> S x y) -> StronglySorted R l -> StronglySorted S l.
Proof.
  intros H. induction 1 as [|x l _ IH F]; constructor.
  - apply IH. intros y z Iy Iz. apply H; now right.
  - rewrite Forall_forall in *. intros y I. apply H; [now left|now right|auto].
Qed.
Lemma shift_mono (b : bool) us : StronglySorted (fun x y => fle x y = true) us -> Forall (fun u => nn u = true) us -> Forall (fun u => finite u) us ->
  StronglySorted (fun x y => (fQ (if b then fsub x (hd fzero us) else x) <= fQ (if b then fsub y (hd fzero us) else y))%Q) us.
Proof.
  intros S N F. rewrite Forall_forall in N, F.
  assert (forall x, In x us -> fle (hd fzero us) x = true) as B.
  { destruct us as [|u us]; [intros x []|]. intros x [->|I]; cbn [hd]; [apply fle_refl, N; now left|].
    inversion S; subst. rewrite Forall_forall in H2. now apply H2. }
  apply (sorted_impl (fun x y => fle x y = true)); auto. intros x y Ix Iy L. destruct b; [|apply fQ_mono; auto].
  assert (In (hd fzero us) us) as Ib by (destruct us; [destruct Ix|now left]).
  set (h := hd fzero us) in *.
  destruct (fsub_nn x h) as [Nx Fx]; auto. destruct (fsub_nn y h) as [Ny Fy]; auto. apply fQ_mono; auto.
  apply fsub_widen; auto.
Qed.

(** ** The whole way *)
Section Whole.
  Context {content digest csv : Type}.
  Variables (deq : digest -> digest -> bool) (md5 : content -> digest) (file : content -> list str)
            (enc : frame -> csv) (dec : csv -> option frame) (fuel : nat).
  Notation parse := (do_parse deq md5 (fun x => ftrace_body (file x)) (fun x => trace_metadata (file x)) enc dec (class_frame fuel)).

  Lemma report_ptrace (c : config) (s : fsys) hdr items k :
    NoDup (map fst (c_defs c)) -> NoDup (map (fun d => k_word (snd d)) (c_defs c)) ->
    c_nocache c = true \/ (f_cache s = None /\ c_defs c <> []) ->
    file (f_trace s) = hdr ++ map entry_str items ->
    Forall junk_ok hdr -> begins items -> Forall (entry_ok (c_defs c)) items ->
    (forall a k, In (a, k) (c_defs c) -> titles_ok (snd (kind_of k)) (texts_of a items) /\
       forall q, In q (parts_in (texts_of a items)) -> (arrays q < fuel)%nat) ->
    In ($"sched_switch", k) (c_defs c) -> k_pyname k = $"SchedSwitch" ->
    exists tr ts us, fst (parse c s) = Ok tr /\ Forall2 printed_time (entry_lines items) ts /\ Assigned fzero ts us /\
      t_base tr = hd fzero us /\ t_end tr = last us fzero /\
      (windows_ok (c_win c) (c_abs c) (t_base tr) -> Forall (fun u => finite u) us ->
       let rows := printed_switches $"sched_switch" (fun t => if c_norm c then fsub t (t_base tr) else t)
                     (in_both (c_win c) (c_abs c) (t_base tr)) items us in
       ptrace_of tr = Ok (PTrace (Some rows) (ftrace_cpus (trace_metadata (file (f_trace s))))) /\ InTime rows) /\
      Forall (fun u => nn u = true /\ fle (hd fzero us) u = true) us.
  Proof.
    intros H1 H2 H3 H4 H5 H6 H7 H8 Hk Hn.
    destruct (entries_back deq md5 file (fun x => trace_metadata (file x)) enc dec fuel c s hdr items H1 H2 H3 H4 H5 H6 H7 H8)
      as (tr & ts & us & E & HT & HA & HB & HE & HH & _ & HF).
    exists tr, ts, us. do 5 (split; [assumption|]).
    assert (Hnn : Forall (fun t => nn t = true) ts).
    { clear -HT. induction HT as [|L t l l' Hp _ IH]; constructor; auto. exact (printed_nn _ _ Hp). }
    assert (Hso := Assigned_fle fzero ts us eq_refl Hnn HA).
    assert (Hnu : Forall (fun u => nn u = true) us).
    { destruct (Assigned_sorted _ _ _ (eq_refl : nn fzero = true) Hnn HA) as (S1 & _). eapply Forall_impl; [|exact S1]. cbv beta. tauto. }
    split.
    - intros Hw Hf rows. destruct (HF Hw _ _ Hk) as (fr & Hd & HR).
      assert (Ek : kind_of k = (Switches, Same)) by (unfold kind_of; now rewrite Hn). rewrite Ek in HR. cbn [snd] in HR.
      split.
      + unfold ptrace_of. rewrite Hd. erewrite rows_switches; [|clear HR|exact HR].
        * cbn [bind]. rewrite HH. reflexivity.
        * apply Forall_forall. intros m I. apply filter_In in I as [I J]. apply andb_true_iff in J as [J _].
          replace Switches with (fst (kind_of k)) by now rewrite Ek. exact (marked_texts _ _ _ _ Hk _ _ H7 m I J).
      + apply switches_sorted. apply sorted_filter.
        apply (marked_sorted (fun x y => (fQ (if c_norm c then fsub x (t_base tr) else x) <= fQ (if c_norm c then fsub y (t_base tr) else y))%Q)).
        rewrite HB. now apply shift_mono.
    - destruct us as [|u us]; [constructor|]. cbn [hd]. inversion Hso; subst. inversion Hnu; subst. constructor; [split; auto; now apply fle_refl|].
      rewrite Forall_forall in *. intros x I. split; auto.
  Qed.

  Variables (files : str -> @fsys content digest (list (str * str)) csv) (other : str -> res ptrace).
  Notation opened c := (open_report (fun p => fst (parse c (files p))) other).

  Lemma report_bars (c : config) p hdr items k v :
    NoDup (map fst (c_defs c)) -> NoDup (map (fun d => k_word (snd d)) (c_defs c)) ->
    c_nocache c = true \/ (f_cache (files p) = None /\ c_defs c <> []) ->
    file (f_trace (files p)) = hdr ++ map entry_str items ->
    Forall junk_ok hdr -> begins items -> Forall (entry_ok (c_defs c)) items ->
    (forall a k, In (a, k) (c_defs c) -> titles_ok (snd (kind_of k)) (texts_of a items) /\
       forall q, In q (parts_in (texts_of a items)) -> (arrays q < fuel)%nat) ->
    In ($"sched_switch", k) (c_defs c) -> k_pyname k = $"SchedSwitch" ->
    HeaderValue (hdr ++ map entry_str items) $"cpus" v -> dec_val v <> 0%N -> ~ (exists b, p = b ++ $"html") ->
    exists tr ts us, fst (parse c (files p)) = Ok tr /\ Forall2 printed_time (entry_lines items) ts /\ Assigned fzero ts us /\
      t_base tr = hd fzero us /\ t_end tr = last us fzero /\
      (windows_ok (c_win c) (c_abs c) (t_base tr) -> Forall (fun u => finite u) us ->
       forall en ps r0 rows init rn,
       printed_switches $"sched_switch" (fun t => if c_norm c then fsub t (t_base tr) else t)
         (in_both (c_win c) (c_abs c) (t_base tr)) items us = r0 :: rows -> r0 :: rows = init ++ [rn] ->
       Regular (execnames_of en) (pids_of ps) (r0 :: rows) ->
       exists g, plot_trace true (opened c) (SPath p) en ps = Ok (g, (Residency.s_time r0, Residency.s_time rn)) /\
         Labels [] $"CPU :" (Z.of_N (dec_val v)) (g_lanes g) /\
         forall st x y, Rising x -> exists paths, draw st x y g = Ok paths /\
           AllRuns (execnames_of en) (pids_of ps) (r0 :: rows) x y paths /\ OnlyRuns (execnames_of en) (pids_of ps) (r0 :: rows) x y paths) /\
      Forall (fun u => nn u = true /\ fle (hd fzero us) u = true) us.
  Proof.
    intros H1 H2 H3 H4 H5 H6 H7 H8 Hk Hn Hv Hz Hp.
    destruct (report_ptrace c (files p) hdr items k) as (tr & ts & us & E & HT & HA & HB & HE & HF & HU); auto.
    exists tr, ts, us. do 5 (split; [assumption|]). split; [|exact HU].
    intros Hw Hf en ps r0 rows init rn Er Ei HR. destruct (HF Hw Hf) as [HP HI]. cbv zeta in HP, HI. rewrite Er in HP, HI.
    assert (Hkd : PlotTrace.kind_of p = KFTrace).
    { destruct (kind_ok p) as [[(b & Eb) _]|[_ K]]; auto. exfalso. apply Hp. now exists b. }
    assert (Hd : digits v). { destruct Hv as (h & pre & l & post & _ & _ & (sp1 & sp2 & rest & _ & _ & _ & D & _) & _). exact D. }
    apply (plot_trace_ok (opened c) (SPath p) (PTrace (Some (r0 :: rows)) (ftrace_cpus (trace_metadata (file (f_trace (files p)))))) en ps r0 rows init rn); auto.
    - rewrite Hkd. unfold open_report. now rewrite E.
    - cbn [pt_cpus]. unfold ftrace_cpus. rewrite H4. rewrite (proj2 (metadata_spec _ $"cpus" v (or_intror eq_refl)) Hv).
      cbn [cpus_int]. now rewrite py_int10_digits.
    - lia.
  Qed.

  Lemma default_windows us : Forall (fun u => nn u = true /\ fle (hd fzero us) u = true) us -> Forall (fun u => finite u) us ->
    windows_ok (fzero, None) (fzero, None) (hd fzero us) /\ Forall (fun u => in_both (fzero, None) (fzero, None) (hd fzero us) u = true) us.
  Proof.
    intros H F. set (b := hd fzero us) in *.
    assert (Hb : finite b /\ nn b = true).
    { unfold b. destruct us; [now split|]. cbn [hd]. inversion F; inversion H; subst. split; tauto. }
    destruct Hb as [Fb Nb].
    assert (Hz : nn (fadd fzero b) = true /\ finite (fadd fzero b) /\ B2R (fadd fzero b) = B2R b).
    { destruct b as [[]|s| |s m e Hm]; try discriminate; cbn; auto. }
    destruct Hz as (Nz & Fz & Ez).
    split.
    - unfold windows_ok. cbn [fst snd moved]. split; [now apply num_nn|]. split; [reflexivity|]. do 2 (split; [exact I|]). left. auto.
    - rewrite Forall_forall in *. intros u I. destruct (H u I) as [Nu Lu]. unfold in_both, inside. cbn [fst snd moved]. rewrite !andb_true_r.
      apply andb_true_iff. split; apply fle_spec; auto; intros _.
      + split; auto. rewrite Ez. apply fle_spec in Lu; auto. apply Lu.
      + split; auto. cbn. now apply nn_pos.
  Qed.
  Lemma all_switches shift keep items us : Forall (fun u => keep u = true) us ->
    printed_switches $"sched_switch" shift keep items us = printed_switches $"sched_switch" shift (fun _ => true) items us.
  Proof.
    intros F. unfold printed_switches. f_equal. apply filter_ext_in. intros m I.
    assert (K := marked_forall (fun t => keep t = true) items 0%Z us F). rewrite Forall_forall in K. now rewrite (K m I).
  Qed.
  (** 76-80: the trace is constructed with the parameters nobody gave *)
  Lemma report_bars_all (c : config) p hdr items k v :
    NoDup (map fst (c_defs c)) -> NoDup (map (fun d => k_word (snd d)) (c_defs c)) ->
    c_nocache c = true \/ (f_cache (files p) = None /\ c_defs c <> []) ->
    c_norm c = true -> c_win c = (fzero, None) -> c_abs c = (fzero, None) ->
    file (f_trace (files p)) = hdr ++ map entry_str items ->
    Forall junk_ok hdr -> begins items -> Forall (entry_ok (c_defs c)) items ->
    (forall a k, In (a, k) (c_defs c) -> titles_ok (snd (kind_of k)) (texts_of a items) /\
       forall q, In q (parts_in (texts_of a items)) -> (arrays q < fuel)%nat) ->
    In ($"sched_switch", k) (c_defs c) -> k_pyname k = $"SchedSwitch" ->
    HeaderValue (hdr ++ map entry_str items) $"cpus" v -> dec_val v <> 0%N -> ~ (exists b, p = b ++ $"html") ->
    exists ts us, Forall2 printed_time (entry_lines items) ts /\ Assigned fzero ts us /\
      (Forall (fun u => finite u) us ->
       forall en ps r0 rows init rn,
       printed_switches $"sched_switch" (fun t => fsub t (hd fzero us)) (fun _ => true) items us = r0 :: rows -> r0 :: rows = init ++ [rn] ->
       Regular (execnames_of en) (pids_of ps) (r0 :: rows) ->
       exists g, plot_trace true (opened c) (SPath p) en ps = Ok (g, (Residency.s_time r0, Residency.s_time rn)) /\
         Labels [] $"CPU :" (Z.of_N (dec_val v)) (g_lanes g) /\
         forall st x y, Rising x -> exists paths, draw st x y g = Ok paths /\
           AllRuns (execnames_of en) (pids_of ps) (r0 :: rows) x y paths /\ OnlyRuns (execnames_of en) (pids_of ps) (r0 :: rows) x y paths).
  Proof.
    intros H1 H2 H3 Hno Hwi Hab H4 H5 H6 H7 H8 Hk Hn Hv Hz Hp.
    destruct (report_bars c p hdr items k v) as (tr & ts & us & E & HT & HA & HB & HE & HF & HU); auto.
    exists ts, us. do 2 (split; [assumption|]). intros Hf en ps r0 rows init rn Er Ei HR.
    destruct (default_windows us HU Hf) as [W K].
    rewrite Hwi, Hab, HB, Hno in HF. apply (HF W Hf en ps r0 rows init rn); auto. rewrite <- Er. now apply all_switches.
  Qed.
End Whole.
