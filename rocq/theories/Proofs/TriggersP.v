(** Triggers and aggregators over a printed report. *)
From Coq Require Import List Ascii String ZArith NArith QArith Qcanon Reals Qreals Bool Sorted Lia.
From Flocq Require Import BinarySingleNaN.
From Verif Require Import Lib.PyStr Lib.PyStrFacts Lib.TotalOrder Lib.F64 Lib.F64Facts Lib.F64Ord Model.Base Model.Line Model.Registry Model.Populate
  Model.Window Model.Cache Model.Files Model.Events Model.Classes Model.Power Model.Tasks Model.Topology Model.Stats Model.Grammar Model.Accessor Model.PlotReport Model.Solve Model.Triggers
  Spec.Lines Spec.Payload Spec.Arrays Spec.Parts Spec.Trace Spec.Interval Spec.Written Spec.Events Spec.Classes Spec.Power Spec.Topology Spec.Stats Spec.Grammar Spec.Accessor Spec.Solve Spec.Triggers
  Proofs.PayloadP Proofs.FrameP Proofs.PopulateP Proofs.WrittenP Proofs.WrittenQ Proofs.ClassesQ Proofs.PlotReportP
  Proofs.TopologyP Proofs.StatsP Proofs.AlignP Proofs.SolveP Proofs.SolveQ.
Import ListNotations.
Local Open Scope nat_scope.
Local Open Scope list_scope.

Lemma cell_eqb_iff a b : cell_eqb a b = true <-> a = b.
Proof.
  destruct a, b; cbn; split; try discriminate; try reflexivity.
  - intros H. f_equal. now apply Z.eqb_eq.
  - intros [= ->]. apply Z.eqb_refl.
  - intros H. f_equal. now apply eqs_eq.
  - intros [= ->]. apply eqs_refl.
Qed.

Lemma groups_in {A} name (calls : list (str * list (list A))) gs : Groups name calls (Some gs) -> forall g, In g gs -> exists c, In c calls /\ In g (snd c).
Proof.
  intros H. remember (Some gs) as o eqn:E. revert gs E. induction H as [|n vals calls o Hn _ IH|vals calls _ _|vals calls gs' _ IH]; intros gs E g Ig.
  - discriminate E.
  - destruct (IH gs E g Ig) as (c & Ic & Hc). exists c. split; auto. now right.
  - injection E as <-. exists (name, vals). split; [now left|exact Ig].
  - injection E as <-. apply in_app_iff in Ig as [Ig|Ig]; [exists (name, vals); split; [now left|exact Ig]|].
    destruct (IH gs' eq_refl g Ig) as (c & Ic & Hc). exists c. split; auto. now right.
Qed.
(** The nodes of a level are among all nodes. *)
Lemma level_nodes {A} (aeq : A -> A -> bool) (enum : list A -> list A) : (forall a b, aeq a b = true <-> a = b) -> enumerates enum ->
  forall clusters calls name groups g n, get_level enum (built aeq enum clusters calls) name = Ok groups -> In g groups -> In n g -> In n (flatten enum (built aeq enum clusters calls)).
Proof.
  intros Ha He clusters calls name groups g n HL Ig I_n. destruct (all_spec aeq enum Ha He clusters calls) as (HA & _ & HN & _).
  destruct (list_eq_dec ascii_dec name $"all") as [->|Nn]; [rewrite HA in HL; injection HL as <-; now destruct Ig as [<-|[]]|].
  destruct (levels_spec aeq enum Ha He clusters) as (singles & (ns & Hs & _ & Hns) & HS).
  destruct (groups_total name (initial clusters singles ++ calls)) as (o & Go). rewrite (proj1 (HS calls name o Nn Go)) in HL.
  destruct o as [gs|]; [injection HL as ->|discriminate HL]. destruct (groups_in _ _ _ Go g Ig) as (c & Ic & Hc). apply HN.
  apply in_app_iff in Ic as [Ic|Ic]; [|exists g; split; auto; right; now exists c].
  assert (K : In g clusters \/ In g singles).
  { unfold initial in Ic. destruct clusters; [destruct Ic|]. destruct Ic as [<-|[<-|[]]]; auto. }
  destruct K as [K|K]; [exists g; auto|]. rewrite Hs in K. apply in_map_iff in K as (a & <- & Ia). destruct I_n as [<-|[]].
  apply Hns, in_concat in Ia as (g' & Ig' & Ia). exists g'. auto.
Qed.

Section Rows.
  Context {V : Type} (c : Spec.Classes.columns) (L : str -> nat) (shift : F64.float -> F64.float) (ms : list mark) (fr : frame).
  Hypothesis F : Forall2 (row_shows c L shift) ms fr.
  Notation erow := (fun r : F64.float * dict => (time (fst r), snd r)).
  Lemma cols_has col : In col (f_cols (eframe_of fr)) <-> Has c L ms col.
  Proof. exact (frame_has c L shift ms fr col F). Qed.
  Lemma value_cell m r col v : row_shows c L shift m r -> (has_value (snd r) col v <-> CellIn c L m col v).
  Proof.
    intros H. rewrite (row_cell _ _ _ _ _ _ _ H). unfold has_value, dlookup. split; [tauto|]. intros E. split; auto.
    intros ->. apply (cell_not_none c L m col). now apply (row_cell _ _ _ _ _ _ _ H).
  Qed.
  Lemma lets_iff m r kf : row_shows c L shift m r -> (passes (f_cols (eframe_of fr)) (snd r) kf <-> Lets c L ms m kf).
  Proof.
    intros H. destruct kf as [k [p|v|vs]]; unfold passes, Lets; cbn [fst snd].
    - unfold cell_at. fold (dlookup k (snd r)). split.
      + destruct (dlookup k (snd r)) as [v|] eqn:E; intros Hp.
        * left. exists v. split; auto. now apply (row_cell _ _ _ _ _ _ _ H).
        * right. split; auto. intros v Hv. apply (row_cell _ _ _ _ _ _ _ H) in Hv. congruence.
      + intros [(v & Hv & Hp)|[N Hp]].
        * apply (row_cell _ _ _ _ _ _ _ H) in Hv. now rewrite Hv.
        * destruct (dlookup k (snd r)) as [v|] eqn:E; auto. apply (row_cell _ _ _ _ _ _ _ H) in E. now apply N in E.
    - rewrite cols_has. split; intros G K; apply (value_cell _ _ _ _ H); auto.
    - rewrite cols_has. split.
      + intros G K v I. specialize (G K). rewrite Forall_forall in G. apply (value_cell _ _ _ _ H). auto.
      + intros G K. apply Forall_forall. intros v I. apply (value_cell _ _ _ _ H). auto.
  Qed.
  Lemma fires_iff (g : rtrigger V) node m r : row_shows c L shift m r ->
    (fires (f_cols (eframe_of fr)) (r_pivot g) node (r_filters g) (erow r) <-> Fires c L ms g node m).
  Proof.
    intros H. unfold fires, Fires. cbn [snd]. rewrite (value_cell _ _ _ _ H), Forall_forall. split; intros [A B]; (split; [exact A|]); intros kf I; apply (lets_iff m r kf H); auto.
  Qed.
  Lemma picked_marks (P : Qc * list (str * cell) -> Prop) (Q : mark -> Prop) : (forall m r, row_shows c L shift m r -> (P (erow r) <-> Q m)) ->
    forall sel, Picked P (map erow fr) sel -> exists sel', Picked Q ms sel' /\ map fst sel = map (fun m => time (shift (m_time m))) sel'.
  Proof.
    intros H. assert (F0 := F). revert F0. clear F. intros F0. induction F0 as [|m r ms fr Hr _ IH]; intros sel O; cbn [map] in O; inversion O as [|? ? s Hk O1|? ? s Hk O1]; subst.
    - exists []. split; constructor.
    - destruct (IH _ O1) as (s' & O' & E). exists (m :: s'). split; [apply P_take; auto; now apply (H m r)|]. cbn [map fst]. f_equal; auto. exact (f_equal time (proj1 Hr)).
    - destruct (IH _ O1) as (s' & O' & E). exists s'. split; auto. apply P_skip; auto. intros K. apply Hk. now apply (H m r).
  Qed.
  Lemma rows_generate (g : rtrigger V) node : Usable c L ms g ->
    exists sel, Picked (Fires c L ms g node) ms sel /\
      generate (Trig (eframe_of fr) (r_filters g) (VNum (r_value g)) (r_pivot g)) node = Ok (RSeries (map (fun m => (time (shift (m_time m)), r_value g)) sel)).
  Proof.
    intros [U1 U2]. destruct (generate_rows (Trig (eframe_of fr) (r_filters g) (VNum (r_value g)) (r_pivot g)) node (r_value g) eq_refl) as (sel & E & P); cbn [g_frame g_pivot g_filters].
    - now apply cols_has.
    - intros k p I. apply cols_has. now apply (U2 k p).
    - cbn [g_frame g_pivot g_filters] in P. destruct (picked_marks _ _ (fires_iff g node) _ P) as (sel' & P' & E').
      exists sel'. split; auto. rewrite E. do 2 f_equal. transitivity (map (fun t => (t, r_value g)) (map fst sel)); [now rewrite map_map|].
      rewrite E'. now rewrite map_map.
  Qed.
  Lemma rows_fail (g : rtrigger V) node : ~ Usable c L ms g -> generate (Trig (eframe_of fr) (r_filters g) (VNum (r_value g)) (r_pivot g)) node = Err EKey.
  Proof.
    intros N. set (t := Trig (eframe_of fr) (r_filters g) (VNum (r_value g)) (r_pivot g)).
    destruct (in_dec (list_eq_dec ascii_dec) (r_pivot g) (f_cols (eframe_of fr))) as [I|I]; [|now apply generate_no_pivot].
    assert (D : (exists k p, In (k, FFun p) (r_filters g) /\ ~ In k (f_cols (eframe_of fr))) \/ (forall k p, In (k, FFun p) (r_filters g) -> In k (f_cols (eframe_of fr)))).
    { clear. induction (r_filters g) as [|[k f] l [(k' & p & J & K)|H]]; [right; intros ? ? []|left; exists k', p; split; auto; now right|].
      destruct f as [p|v|vs]; [|right; intros k' p' [E|J]; [discriminate E|now apply (H k' p')]|right; intros k' p' [E|J]; [discriminate E|now apply (H k' p')]].
      destruct (in_dec (list_eq_dec ascii_dec) k (f_cols (eframe_of fr))) as [J|J]; [right|left; exists k, p; split; auto; now left].
      intros k' p' [E|J']; [now injection E as <- _|now apply (H k' p')]. }
    destruct D as [(k & p & J & K)|D]; [exact (generate_no_column t node k p J K)|]. exfalso. apply N. split; [now apply cols_has|].
    intros k p J. apply cols_has. now apply (D k p).
  Qed.
End Rows.

Lemma picked_In {A} (P : A -> Prop) l l' : Picked P l l' -> forall x, In x l' <-> In x l /\ P x.
Proof.
  induction 1 as [|a l l' Ha _ IH|a l l' Ha _ IH]; intros x; cbn [In]; [tauto| |].
  - rewrite IH. split; [intros [->|?]; tauto|tauto].
  - rewrite IH. split; [tauto|]. intros [[->|?] ?]; [contradiction|tauto].
Qed.
Lemma picked_nodup {A B} (P : A -> Prop) (f : A -> B) l l' : Picked P l l' -> NoDup (map f l) -> NoDup (map f l').
Proof.
  induction 1 as [|a l l' Ha H IH|a l l' Ha H IH]; cbn [map]; auto; intros N; inversion N as [|? ? N1 N2]; subst; auto. constructor; auto.
  intros I. apply N1. apply in_map_iff in I as (x & E & I). apply (picked_In _ _ _ H) in I as [I _]. rewrite <- E. now apply in_map.
Qed.

Lemma strictly l : StronglySorted (lt time_leb) l -> StronglySorted (fun x y => (x < y)%Qc) l.
Proof. induction 1 as [|a l _ IH H]; constructor; auto. eapply Forall_impl; [|exact H]. cbv beta. intros b Hb. apply Qcnot_le_lt. intros K. apply time_leb_iff in K. unfold lt, ltb in Hb. now rewrite K in Hb. Qed.

Section Trace.
  Context {V : Type} (defs : list (str * klass)) (frames : list (str * frame)) (shift : F64.float -> F64.float) (marks : str -> list mark) (len : str -> str -> nat).
  Hypothesis ND : NoDup (map fst defs).
  Hypothesis FST : map fst frames = map fst defs.
  Hypothesis ROWS : forall a k, In (a, k) defs -> exists fr, dget eqs a frames = Some fr /\ Forall2 (row_shows (snd (kind_of k)) (len a) shift) (marks a) fr.
  Notation when := (fun m => time (shift (m_time m))).
  Notation Shot := (@Shot V defs marks len).
  Lemma trace_generate (g : rtrigger V) node k : In (r_event g, k) defs ->
    (Usable (snd (kind_of k)) (len (r_event g)) (marks (r_event g)) g ->
     exists sel, Picked (Fires (snd (kind_of k)) (len (r_event g)) (marks (r_event g)) g node) (marks (r_event g)) sel /\
       r_generate frames g node = Ok (map (fun m => (when m, r_value g)) sel)) /\
    (~ Usable (snd (kind_of k)) (len (r_event g)) (marks (r_event g)) g -> r_generate frames g node = Err EKey).
  Proof.
    intros I. destruct (ROWS _ _ I) as (fr & G & F). unfold r_generate. rewrite G. split.
    - intros U. destruct (rows_generate _ _ _ _ _ F g node U) as (sel & P & E). exists sel. split; auto. now rewrite E.
    - intros N. now rewrite (rows_fail _ _ _ _ _ F g node N).
  Qed.
  Lemma trace_index (gs : list (rtrigger V)) : (forall g, In g gs -> In (r_event g) (map fst defs)) ->
    exists idx, r_index frames gs = Ok idx /\ StronglySorted (lt time_leb) idx /\
      forall t, In t idx <-> exists g m, In g gs /\ In m (marks (r_event g)) /\ when m = t.
  Proof.
    intros H. unfold r_index.
    assert (K : exists l, mapM (fun g : rtrigger V => match dget eqs (r_event g) frames with Some f => Ok (map (fun r => time (fst r)) f) | None => Err EAttribute end) gs = Ok l /\
      forall t, (exists i, In i l /\ In t i) <-> exists g m, In g gs /\ In m (marks (r_event g)) /\ when m = t).
    { induction gs as [|g gs IH]; [exists []; split; [reflexivity|]; intros t; split; [intros (i & [] & _)|intros (g & m & [] & _)]|].
      destruct IH as (l & E & Hl); [intros g' I; apply H; now right|]. cbn [mapM].
      assert (I := H g (or_introl eq_refl)). apply in_map_iff in I as ([a k] & Ea & I). cbn [fst] in Ea. subst a. destruct (ROWS _ _ I) as (fr & G & F).
      rewrite G. cbn [bind]. rewrite E. cbn [bind]. eexists. split; [reflexivity|].
      assert (Et : map (fun r : F64.float * dict => time (fst r)) fr = map when (marks (r_event g))).
      { clear - F. induction F as [|m r ms fr (E & _) _ IH]; [reflexivity|]. cbn [map]. f_equal; auto. exact (f_equal time E). }
      intros t. split.
      - intros (i & [<-|J] & Ht).
        + rewrite Et in Ht. apply in_map_iff in Ht as (m & Em & Im). exists g, m. split; [now left|]. auto.
        + destruct (proj1 (Hl t)) as (g' & m & Ig & Im & Em); [eauto|]. exists g', m. split; [now right|]. auto.
      - intros (g' & m & [<-|Ig] & Im & Em).
        + exists (map (fun r : F64.float * dict => time (fst r)) fr). split; [now left|]. rewrite Et. rewrite <- Em. now apply (in_map when).
        + destruct (proj2 (Hl t)) as (i & Ii & It); [eauto|]. exists i. split; auto. now right. }
    destruct K as (l & E & Hl). rewrite E. cbn [bind]. eexists. split; [reflexivity|]. destruct (unify_ok time_leb time_order l) as [S1 S2].
    split; auto. intros t. now rewrite S2.
  Qed.
  Hypothesis DISTINCT : forall a, In a (map fst defs) -> Distinct shift (marks a).
  Lemma same_kind a k k' : In (a, k) defs -> In (a, k') defs -> k = k'.
  Proof. intros H1 H2. assert (E1 := In_dget eqs eqs_eq _ _ _ ND H1). assert (E2 := In_dget eqs eqs_eq _ _ _ ND H2). congruence. Qed.
  Lemma trace_base (zero : V) (gs : list (rtrigger V)) (nodes : list cell) : gs <> [] -> NoDup nodes ->
    (forall g, In g gs -> exists k, In (r_event g, k) defs /\ Usable (snd (kind_of k)) (len (r_event g)) (marks (r_event g)) g) ->
    exists idx st, r_index frames gs = Ok idx /\ Times shift marks gs idx /\ r_base frames zero gs nodes = Ok st /\
      forall n, In n nodes -> exists s, dget cell_eqb n st = Some s /\ Shown defs shift marks len zero gs n idx s.
  Proof.
    intros Hg Hn HU. destruct (trace_index gs) as (idx & Ei & Si & Hi).
    { intros g I. destruct (HU g I) as (k & K & _). now apply (in_map fst) in K. }
    exists idx. unfold r_base. rewrite Ei. cbn [bind].
    assert (HS : exists sers, Forall2 (fun g s => forall n, In n nodes -> r_generate frames g n = Ok (s n)) gs sers /\
      Forall2 (fun g s => forall n, exists sel, (forall m, In m sel <-> In m (marks (r_event g)) /\ Shot g n m) /\ NoDup (map when sel) /\ s n = map (fun m => (when m, r_value g)) sel) gs sers).
    { clear Hg Hi Ei Si. induction gs as [|g gs IH]; [exists []; split; constructor|]. destruct IH as (sers & S1 & S2); [intros g' I; apply HU; now right|].
      destruct (HU g (or_introl eq_refl)) as (k & K & U).
      exists ((fun n => match r_generate frames g n with Ok s => s | Err _ => [] end) :: sers). split; constructor; auto.
      - intros n _. destruct (proj1 (trace_generate g n k K) U) as (sel & _ & E). now rewrite E.
      - intros n. destruct (proj1 (trace_generate g n k K) U) as (sel & P & E). exists sel. rewrite E. split; [|split; [|reflexivity]].
        + intros m. rewrite (picked_In _ _ _ P). split; intros [A B]; (split; [exact A|]); [now exists k|].
          destruct B as (k' & K' & B). now rewrite (same_kind _ _ _ K K').
        + apply (picked_nodup _ _ _ _ P). apply DISTINCT. now apply (in_map fst) in K. }
    destruct HS as (sers & S1 & S2).
    destruct (base_last time_leb time_order cell_eqb zero cell_eqb_iff idx sers (map (r_generate frames) gs) nodes) as (st & Es & Hst).
    - now apply (sorted_nodup time_leb time_order).
    - exact Hn.
    - destruct gs; [now elim Hg|discriminate].
    - clear - S1. induction S1; cbn [map]; constructor; auto.
    - intros s n Is In_n. clear S1 Ei Si HU Hg.
      assert (K : exists g sel, In g gs /\ (forall m, In m sel <-> In m (marks (r_event g)) /\ Shot g n m) /\ NoDup (map when sel) /\ s n = map (fun m => (when m, r_value g)) sel).
      { clear - S2 Is. induction S2 as [|g s' gs sers H _ IH]; [destruct Is|]. destruct Is as [<-|Is].
        - destruct (H n) as (sel & A). exists g, sel. split; [now left|exact A].
        - destruct (IH Is) as (g' & sel & A & B). exists g', sel. split; [now right|exact B]. }
      destruct K as (g & sel & Ig & Hsel & Nd & ->). rewrite map_map. cbn [fst]. split; auto.
      intros t It. apply in_map_iff in It as (m & <- & Im). apply Hi. exists g, m. split; auto. split; auto. now apply Hsel.
    - exists st. split; [reflexivity|]. split; [split; [now apply strictly|exact Hi]|]. split; [exact Es|]. intros n I_n. destruct (Hst n I_n) as (s & G & Fs & Hs). exists s. split; auto. split; auto.
      intros t v It. apply Hs in It. clear - It S2.
      assert (NoShot : forall g s, (exists sel, (forall m, In m sel <-> In m (marks (r_event g)) /\ Shot g n m) /\ NoDup (map when sel) /\ s = map (fun m => (when m, r_value g)) sel) ->
        ~ In t (map fst s) -> forall m, In m (marks (r_event g)) -> Shot g n m -> when m <> t).
      { intros g s' (sel & A & _ & ->) N m Im Hm E. apply N. rewrite map_map. cbn [fst]. rewrite <- E. apply (in_map (fun m => time (shift (m_time m)))). now apply A. }
      destruct It as [(pre & s & post & E & Is & HF)|[-> HF]].
      + left. revert pre E. induction S2 as [|g s' gs sers H S2' IH]; intros pre E; [destruct pre; discriminate E|]. destruct pre as [|x pre]; cbn [map app] in E; injection E as E1 E2.
        * subst s post. destruct (H n) as (sel & A & _ & B). rewrite B in Is. apply in_map_iff in Is as (m & Em & Im). injection Em as Em1 Em2.
          exists [], g, gs, m. split; [reflexivity|]. split; auto. apply A in Im as [Im1 Im2]. split; auto. split; auto. split; auto.
          intros g' m' Ig Im' Hs'. clear - S2' HF Ig Im' Hs' NoShot. induction S2' as [|g0 s0 gs sers H0 _ IH]; [destruct Ig|]. cbn [map] in HF. inversion HF as [|? ? F1 F2]; subst.
          destruct Ig as [<-|Ig]; [|now apply IH]. exact (NoShot g0 (s0 n) (H0 n) F1 m' Im' Hs').
        * destruct (IH pre E2) as (pre' & g' & post' & m & -> & B). exists (g :: pre'), g', post', m. split; [reflexivity|exact B].
      + right. split; [reflexivity|]. induction S2 as [|g0 s0 gs sers H0 _ IH]; [intros ? ? []|]. cbn [map] in HF. inversion HF as [|? ? F1 F2]; subst.
        intros g m [<-|Ig] Im Hs; [exact (NoShot g0 (s0 n) (H0 n) F1 m Im Hs)|now apply (IH F2 g m)].
  Qed.
  Lemma trace_aggregate {R} (enum : list cell -> list cell) (zero : V) (gs : list (rtrigger V)) clusters calls (f : list (Qc * V) -> R) add name groups :
    enumerates enum -> gs <> [] ->
    (forall g, In g gs -> exists k, In (r_event g, k) defs /\ Usable (snd (kind_of k)) (len (r_event g)) (marks (r_event g)) g) ->
    let topo := built cell_eqb enum clusters calls in
    get_level enum topo name = Ok groups -> (forall g, In g groups -> g <> []) ->
    exists idx ser rs, Times shift marks gs idx /\
      (forall g n, In g groups -> In n g -> Shown defs shift marks len zero gs n idx (ser n)) /\
      r_aggregate frames enum zero gs topo f add name = Ok rs /\
      Forall2 (fun g r => exists n rest, g = n :: rest /\ r = fold_left add (map (fun m => f (ser m)) rest) (f (ser n))) groups rs.
  Proof.
    intros He Hg HU topo HL Hne. destruct (all_spec cell_eqb enum cell_eqb_iff He clusters calls) as (_ & Nd & _).
    destruct (trace_base zero gs (flatten enum topo) Hg Nd HU) as (idx & st & Ei & Ti & Es & Hs).
    assert (HI : forall g n, In g groups -> In n g -> In n (flatten enum topo)) by (intros g n Ig I_n; exact (level_nodes cell_eqb enum cell_eqb_iff He clusters calls name groups g n HL Ig I_n)).
    set (ser := fun n => match dget cell_eqb n st with Some s => s | None => [] end).
    destruct (aggregate_fun_ok cell_eqb f add st ser groups Hne) as (rs & Er & Hr).
    { intros g n Ig I_n. destruct (Hs n (HI g n Ig I_n)) as (s & G & _). unfold ser. now rewrite G. }
    exists idx, ser, rs. split; [exact Ti|]. split; [|split; [|exact Hr]].
    - intros g n Ig I_n. destruct (Hs n (HI g n Ig I_n)) as (s & G & Sh). unfold ser. now rewrite G.
    - unfold r_aggregate. rewrite Ei. cbn [bind]. rewrite HL. cbn [bind]. rewrite Es. cbn [bind]. now rewrite Er.
  Qed.
End Trace.
