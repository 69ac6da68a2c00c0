From Coq Require Import List Ascii String ZArith QArith Bool Sorted Lia Lqa.
From Verif Require Import Lib.PyStr Lib.PyStrFacts Model.Base Model.Residency Model.Systrace Model.EventPlot Model.EventBars Model.EventInfo Model.PlotTrace
  Spec.Residency Spec.EventPlot Spec.EventBars Spec.EventInfo Spec.PlotTrace Proofs.ResidencyP Proofs.EventPlotP Proofs.EventBarsP Proofs.EventInfoP.
Import ListNotations.
Local Open Scope nat_scope.
Local Open Scope list_scope.

Section Names.
  Context {T : Type}.
  Lemma out_NoDup (r : switch T) st st' : switch_out r st = Ok st' -> NoDup (map fst (r_data st)) -> NoDup (map fst (r_data st')).
  Proof.
    unfold switch_out. destruct (dget Z.eqb (s_prev r) (r_pmap st)) as [n|]; [|now intros [= <-]].
    destruct (rev _) as [|[[s ?] c] l]; [discriminate|]. intros [= <-]. cbn [r_data]. apply (dset_NoDup eqs eqs_eq).
  Qed.
  Lemma lost_NoDup (r : switch T) st st' : switch_lost r st = Ok st' -> NoDup (map fst (r_data st)) -> NoDup (map fst (r_data st')).
  Proof.
    unfold switch_lost. destruct (dget Z.eqb (s_next r) (r_pmap st)) as [n|]; [|now intros [= <-]].
    destruct (rev _) as [|? l]; [discriminate|]. intros [= <-]. cbn [r_data]. apply (dset_NoDup eqs eqs_eq).
  Qed.
  Lemma in_NoDup en ps (e : T) r st st' : switch_in en ps e r st = Ok st' -> NoDup (map fst (r_data st)) -> NoDup (map fst (r_data st')).
  Proof.
    unfold switch_in. destruct (Z.eqb (s_next r) 0); [now intros [= <-]|]. destruct (s_comm r) as [|comm|]; try discriminate.
    destruct (is_prefix _ _); [now intros [= <-]|]. destruct (match en with [] => false | _ => _ end); [now intros [= <-]|].
    destruct (match ps with [] => false | _ => _ end); [now intros [= <-]|]. cbv zeta. intros [= <-]. cbn [r_data]. apply (dset_NoDup eqs eqs_eq).
  Qed.
  Lemma walk_NoDup en ps (e : T) rows : forall st st', walk en ps e rows st = Ok st' -> NoDup (map fst (r_data st)) -> NoDup (map fst (r_data st')).
  Proof.
    induction rows as [|r rows IH]; intros st st' H ND; cbn [walk] in H; [now injection H as <-|].
    destruct (switch_out r st) as [s1|] eqn:E1; [|discriminate]. cbn [bind] in H.
    destruct (switch_lost r s1) as [s2|] eqn:E2; [|discriminate]. cbn [bind] in H.
    destruct (switch_in en ps e r s2) as [s3|] eqn:E3; [|discriminate]. cbn [bind] in H.
    eapply IH; [exact H|]. eapply in_NoDup; [exact E3|]. eapply lost_NoDup; [exact E2|]. eapply out_NoDup; eauto.
  Qed.
  Lemma data_NoDup en ps (rows : list (switch T)) d procs sp : event_data en ps rows = Ok (d, procs, sp) -> NoDup (map fst d).
  Proof.
    unfold event_data. destruct rows as [|r0 rows]; [discriminate|]. destruct (rev (r0 :: rows)) as [|rn ?]; [discriminate|].
    destruct (walk _ _ _ _ _) as [st|] eqn:W; [|discriminate]. cbn [bind]. intros [= <- <- <-]. eapply walk_NoDup; [exact W|constructor].
  Qed.
End Names.

Lemma events_names d : map fst (events_of d) = map fst d.
Proof. unfold events_of. rewrite map_map. now apply map_ext. Qed.
Lemma Disjoint_filter f (l : list (Q * Q * Z)) :
  Forall (fun v => (fst (fst v) <= snd (fst v))%Q) l -> StronglySorted (fun v v' => (snd (fst v) <= fst (fst v'))%Q) l ->
  Disjoint (intervals f (map (fun v => Event (fst (fst v)) (snd (fst v)) (LZ (snd v))) l)).
Proof.
  intros F S. induction S as [|v l S IH H]; [exact I|]. inversion F as [|? ? Fv Fl]; subst. specialize (IH Fl). unfold intervals in *. cbn [map filter e_lane].
  destruct (f (LZ (snd v))); [|exact IH]. cbn [map e_start e_end Disjoint fst snd]. split; [exact Fv|]. split; [|exact IH].
  clear -H. induction H as [|w l Hw H IH]; [exact I|]. cbn [map filter e_lane]. destruct (f (LZ (snd w))); [exact Hw|exact IH].
Qed.
Lemma sorted_leb rows : InTime rows -> StronglySorted (fun a b => Qle_bool a b = true) (map s_time rows).
Proof.
  unfold InTime. induction 1 as [|a l S IH F]; constructor; [assumption|]. eapply Forall_impl; [|exact F]. intros b. apply Qle_bool_iff.
Qed.
Lemma events_Ordered en ps rows d procs sp : InTime rows -> Regular en ps rows -> event_data en ps rows = Ok (d, procs, sp) -> Ordered (events_of d).
Proof.
  intros S R E n evs l I. apply in_map_iff in I as ([n' vs] & Eq & I). injection Eq as <- <-. cbn [fst snd].
  pose proof (data_NoDup _ _ _ _ _ _ E) as ND. apply (In_dget eqs eqs_eq) in I; [|assumption].
  destruct (event_data_order Qle_bool (fun t => proj2 (Qle_bool_iff t t) (Qle_refl t)) en ps rows d procs sp (sorted_leb rows S) R E n' vs I) as (F & O).
  apply Disjoint_filter.
  - eapply Forall_impl; [|exact F]. intros v. apply Qle_bool_iff.
  - clear -O. induction O as [|v l S IH F]; constructor; [assumption|]. eapply Forall_impl; [|exact F]. intros w. apply Qle_bool_iff.
Qed.

Lemma chosen_names s : Chosen [] s (execnames_of s).
Proof. destruct s as [|[|c e]|l]; cbn; auto. right. split; [discriminate|reflexivity]. Qed.
Lemma chosen_pids s : Chosen 0%Z s (pids_of s).
Proof. destruct s as [|p|l]; cbn; auto. destruct (Z.eqb_spec p 0); cbn; auto. Qed.

(** The whole *)
Lemma plot_trace_ok open src t en ps r0 rows init rn n :
  match src with SPath p => open (kind_of p) p | STrace t => Ok t end = Ok t -> pt_switches t = Some (r0 :: rows) -> r0 :: rows = init ++ [rn] ->
  InTime (r0 :: rows) -> Regular (execnames_of en) (pids_of ps) (r0 :: rows) -> cpus_int (pt_cpus t) = Ok n -> n <> 0%Z ->
  exists g, plot_trace true open src en ps = Ok (g, (s_time r0, s_time rn)) /\ Labels [] $"CPU :" n (g_lanes g) /\
    forall st x y, Rising x -> exists paths, draw st x y g = Ok paths /\
      AllRuns (execnames_of en) (pids_of ps) (r0 :: rows) x y paths /\ OnlyRuns (execnames_of en) (pids_of ps) (r0 :: rows) x y paths.
Proof.
  intros Eo Es El Ti Re Ec Nn.
  destruct (event_data_ok (execnames_of en) (pids_of ps) r0 rows rn init El Re) as (d & procs & Ed & Hd & _ & _).
  pose proof (data_NoDup _ _ _ _ _ _ Ed) as ND.
  assert (exists g, event_plot (events_of d) [] $"CPU :" n = Ok g) as (g & Eg).
  { unfold event_plot, get_lanes. destruct (Z.eqb_spec n 0); [contradiction|]. cbn [bind]. now eexists. }
  exists g. split.
  { unfold plot_trace. cbn [negb]. rewrite Eo. cbn [bind]. rewrite Es. cbn [bind]. rewrite Ed. cbn [bind fst snd]. rewrite Ec. cbn [bind]. rewrite Eg. reflexivity. }
  split.
  { pose proof Eg as Eg'. unfold event_plot, get_lanes in Eg'. destruct (Z.eqb_spec n 0); [contradiction|]. cbn [bind fst snd] in Eg'. injection Eg' as <-.
    cbn [g_lanes Labels]. rewrite map_length, seq_length. split; [reflexivity|]. intros i Hi.
    assert (nth_error (seq 0 (Z.to_nat n)) i = Some i) as Si.
    { rewrite (nth_error_nth' _ 0); [|now rewrite seq_length]. now rewrite seq_nth. }
    erewrite map_nth_error; [|exact Si]. reflexivity. }
  intros st x y Rx.
  destruct (draw_ok (events_of d) [] $"CPU :" n g st x y Eg) as (paths & Ep & A & O); [now rewrite events_names|eapply events_Ordered; eauto|assumption|].
  exists paths. split; [exact Ep|]. split.
  - intros m i s e cpu Rs Nb. destruct (Hd m) as (L & EL & _ & HL). apply HL in Rs.
    destruct (dget eqs m d) as [l|] eqn:G.
    + apply (dget_In eqs eqs_eq) in G. subst l.
      refine (A m (map (fun v => Event (fst (fst v)) (snd (fst v)) (LZ (snd v))) (map snd L)) (Event s e (LZ cpu)) (LZ cpu) _ _ eq_refl Nb).
      * unfold events_of. apply in_map_iff. exists (m, map snd L). split; [reflexivity|assumption].
      * apply in_map_iff. exists (s, e, cpu). split; [reflexivity|]. apply in_map_iff. now exists (i, (s, e, cpu)).
    + destruct L; [destruct Rs|discriminate EL].
  - intros m p sk Ip Is. destruct (O m p Ip) as (_ & O'). destruct (O' sk Is) as (evs & e & id & I & Ie & Li & Ey & B).
    cbn [LaneId] in Li. subst id. apply in_map_iff in I as ([m' vs] & Eq & I). injection Eq as -> <-.
    apply in_map_iff in Ie as ([[s t1] cpu] & <- & Iv). cbn [e_lane fst snd] in *. apply (In_dget eqs eqs_eq) in I; [|assumption].
    destruct (Hd m) as (L & EL & _ & HL). rewrite I in EL. subst vs. apply in_map_iff in Iv as ([i v] & Ev & Iv). cbn [snd] in Ev. subst v.
    apply HL in Iv. exists i, s, t1, cpu. split; [assumption|]. split; [assumption|]. unfold span in B. cbn [e_start e_end fst snd] in B.
    destruct B as [B|(B1 & B2 & _)]; [now left|right; now split].
Qed.

(** All rows are in the chart if no cpu has a number as large as the number of cpus *)
Lemma plot_inside en ps rows x paths n : OnlyRuns en ps rows x (y_main (Z.to_nat n)) paths -> (forall r, In r rows -> 0 <= s_cpu r < n)%Z ->
  forall m p sk q h, In (m, p) paths -> In sk p -> s_y sk = Some q -> Covers q (stroke_width (y_main (Z.to_nat n))) h -> (0 <= h <= main_height (Z.to_nat n))%Q.
Proof.
  intros O C m p sk q h Ip Is Eq Co. destruct (O m p sk Ip Is) as (i & s & e & cpu & (b & r & a & -> & _ & _ & _ & _ & Ec & _) & Ey & _).
  cbn [snd] in Ec. subst cpu. specialize (C r (in_elt _ _ _)). eapply rows_inside with (z := s_cpu r); [lia|lia|rewrite <- Ey; exact Eq|exact Co].
Qed.

(** Failures *)
Lemma plot_trace_fails open src en ps :
  plot_trace false open src en ps = Err ERuntime /\
  (forall p e, src = SPath p -> open (kind_of p) p = Err e -> plot_trace true open src en ps = Err e) /\
  (forall t, match src with SPath p => open (kind_of p) p | STrace t => Ok t end = Ok t ->
     (pt_switches t = None -> plot_trace true open src en ps = Err EAttribute) /\
     (pt_switches t = Some [] -> plot_trace true open src en ps = Err EIndex) /\
     (forall rows r e, pt_switches t = Some rows -> event_data (execnames_of en) (pids_of ps) rows = Ok r -> cpus_int (pt_cpus t) = Err e -> plot_trace true open src en ps = Err e) /\
     (forall rows r, pt_switches t = Some rows -> event_data (execnames_of en) (pids_of ps) rows = Ok r -> cpus_int (pt_cpus t) = Ok 0%Z -> plot_trace true open src en ps = Err ERuntime)).
Proof.
  split; [reflexivity|]. split; [intros p e -> E; unfold plot_trace; cbn [negb]; now rewrite E|]. intros t Et. unfold plot_trace. cbn [negb]. rewrite Et. cbn [bind].
  split; [now intros ->|]. split; [now intros ->|]. split.
  - intros rows r e -> E C. cbn [bind]. rewrite E. cbn [bind]. now rewrite C.
  - intros rows r -> E C. cbn [bind]. rewrite E. cbn [bind]. rewrite C. reflexivity.
Qed.
Lemma kind_ok p : (exists b, p = b ++ $"html") /\ kind_of p = KSysTrace \/ ~ (exists b, p = b ++ $"html") /\ kind_of p = KFTrace.
Proof.
  unfold kind_of. destruct (is_suffix $"html" p) eqn:E.
  - left. split; [|reflexivity]. unfold is_suffix in E. apply is_prefix_spec in E as (b & E). exists (rev b). rewrite <- (rev_involutive p), E, rev_app_distr. now rewrite rev_involutive.
  - right. split; [|reflexivity]. intros (b & ->). unfold is_suffix in E. rewrite rev_app_distr in E.
    assert (is_prefix (rev $"html") (rev $"html" ++ rev b) = true) as C by (apply is_prefix_spec; now eexists). congruence.
Qed.
Lemma maxz_ge l : forall z, (z <= maxz z l /\ forall c, In c l -> c <= maxz z l)%Z.
Proof.
  induction l as [|a l IH]; intros z; cbn [maxz]; [split; [lia|intros c []]|]. destruct (IH (Z.max z a)) as (A & B).
  split; [lia|]. intros c [<-|I]; [lia|auto].
Qed.
Lemma systrace_inside (rows : list (switch Q)) n : systrace_cpus (Some (map s_cpu rows)) = Ok (Some n) -> (forall r, In r rows -> 0 <= s_cpu r)%Z ->
  cpus_int (systrace_attr (Some n)) = Ok n /\ n <> 0%Z /\ forall r, In r rows -> (0 <= s_cpu r < n)%Z.
Proof.
  intros E P. split; [reflexivity|]. destruct rows as [|r rows]; [discriminate|]. assert (n = 1 + maxz (s_cpu r) (map s_cpu rows))%Z as -> by (unfold systrace_cpus in E; cbn [map] in E; congruence).
  destruct (maxz_ge (map s_cpu rows) (s_cpu r)) as (A & B). pose proof (P r (or_introl eq_refl)). split; [lia|].
  intros r' [<-|I]; [lia|]. specialize (P r' (or_intror I)). specialize (B (s_cpu r') (in_map _ _ _ I)). lia.
Qed.
