(** Expressions over a printed report. *)
From Coq Require Import List Ascii String ZArith NArith QArith Qcanon Bool Sorted Lia.
From Verif Require Import Lib.PyStr Lib.PyStrFacts Lib.TotalOrder Lib.F64 Lib.F64Facts Lib.F64Ord Model.Base Model.Line Model.Registry Model.Populate
  Model.Window Model.Cache Model.Files Model.Events Model.Classes Model.Power Model.Stats Model.Grammar Model.Accessor Model.PlotReport Model.Solve
  Spec.Lines Spec.Payload Spec.Arrays Spec.Parts Spec.Trace Spec.Interval Spec.Written Spec.Events Spec.Classes Spec.Power Spec.Grammar Spec.Accessor Spec.Solve
  Proofs.PayloadP Proofs.FrameP Proofs.PopulateP Proofs.WrittenP Proofs.WrittenQ Proofs.ClassesQ Proofs.PlotReportP
  Proofs.AccessorS Proofs.AccessorP Proofs.AccessorQ Proofs.AccessorR.
Import ListNotations.
Local Open Scope nat_scope.
Local Open Scope list_scope.

(** ** Orders *)
Lemma time_order : total_order time_leb.
Proof.
  unfold time_leb. split.
  - intros a b. rewrite !Qle_bool_iff. destruct (Qlt_le_dec a b); [left; now apply Qlt_le_weak|now right].
  - intros a b. rewrite !Qle_bool_iff. intros H1 H2. apply Qc_is_canon. now apply Qle_antisym.
  - intros a b c. rewrite !Qle_bool_iff. apply Qle_trans.
Qed.
Lemma time_leb_iff a b : time_leb a b = true <-> (a <= b)%Qc.
Proof. unfold time_leb, Qcle. apply Qle_bool_iff. Qed.
Lemma text_order : total_order text_leb.
Proof.
  split.
  - induction a as [|x a IH]; intros [|y b]; cbn; auto. destruct (IH b) as [H|H];
      destruct (N.ltb_spec (N_of_ascii x) (N_of_ascii y)), (N.ltb_spec (N_of_ascii y) (N_of_ascii x)), (N.eqb_spec (N_of_ascii x) (N_of_ascii y)),
        (N.eqb_spec (N_of_ascii y) (N_of_ascii x)); try lia; cbn; rewrite ?H; auto.
  - induction a as [|x a IH]; intros [|y b]; cbn; auto; try discriminate.
    destruct (N.ltb_spec (N_of_ascii x) (N_of_ascii y)), (N.ltb_spec (N_of_ascii y) (N_of_ascii x)), (N.eqb_spec (N_of_ascii x) (N_of_ascii y)),
        (N.eqb_spec (N_of_ascii y) (N_of_ascii x)); try lia; cbn; try discriminate. intros H1 H2. f_equal; auto.
    rewrite <- (ascii_N_embedding x), <- (ascii_N_embedding y). congruence.
  - induction a as [|x a IH]; intros [|y b] [|z c]; cbn; auto; try discriminate.
    rewrite !orb_true_iff, !andb_true_iff, !N.ltb_lt, !N.eqb_eq. intros [H1|[H1 H2]] [H3|[H3 H4]]; try (left; lia). right. split; [lia|eauto].
Qed.
Lemma text_leb_iff : forall a b, text_leb a b = true <-> (exists r, b = a ++ r) \/
  exists p x y a' b', a = p ++ x :: a' /\ b = p ++ y :: b' /\ (N_of_ascii x < N_of_ascii y)%N.
Proof.
  induction a as [|x a IH]; intros b; cbn [text_leb].
  - split; [intros _; left; now exists b|reflexivity].
  - destruct b as [|y b].
    + split; [discriminate|]. intros [(r & E)|(p & u & v & a' & b' & _ & E & _)]; [discriminate E|destruct p; discriminate E].
    + rewrite orb_true_iff, andb_true_iff, N.ltb_lt, N.eqb_eq, IH. split.
      * intros [H|(E & [(r & ->)|(p & u & v & a' & b' & -> & -> & H)])].
        -- right. exists [], x, y, a, b. auto.
        -- left. exists r. cbn [app]. f_equal. rewrite <- (ascii_N_embedding x), <- (ascii_N_embedding y). congruence.
        -- right. exists (x :: p), u, v, a', b'. split; [reflexivity|]. split; auto. cbn [app]. f_equal. rewrite <- (ascii_N_embedding x), <- (ascii_N_embedding y). congruence.
      * intros [(r & E)|(p & u & v & a' & b' & E1 & E2 & H)].
        -- injection E as -> ->. right. split; auto. left. now exists r.
        -- destruct p as [|z p]; cbn [app] in *.
           ++ injection E1 as -> ->. injection E2 as -> ->. now left.
           ++ injection E1 as -> ->. injection E2 as -> ->. right. split; auto. right. exists p, u, v, a', b'. auto.
Qed.
Lemma cell_order : total_order cell_leb.
Proof.
  split.
  - intros [x|x|] [y|y|]; cbn; auto; [rewrite !Z.leb_le; lia|apply (to_total _ text_order)].
  - intros [x|x|] [y|y|]; cbn; try discriminate; auto; [rewrite !Z.leb_le; intros; f_equal; lia|intros; f_equal; now apply (to_antisym _ text_order)].
  - intros [x|x|] [y|y|] [z|z|]; cbn; try discriminate; auto; [rewrite !Z.leb_le; lia|apply (to_trans _ text_order)].
Qed.

(** ** Cells *)
Lemma digit_no_space c d : digit_val c = Some d -> is_space c = false.
Proof. ascii_enum c. Qed.
Lemma digs_no_space b s n : digs b s n -> no_space s.
Proof.
  induction 1 as [c d H _|s n c d _ IH H _|s n c d _ IH H _].
  - constructor; [now apply digit_no_space in H|constructor].
  - apply Forall_app. split; auto. constructor; [now apply digit_no_space in H|constructor].
  - apply Forall_app. split; auto. constructor; [reflexivity|]. constructor; [now apply digit_no_space in H|constructor].
Qed.
Lemma ulit_no_space s n : ulit s n -> no_space s.
Proof.
  assert (G : forall x u s, (x = "x" \/ x = "X" \/ x = "o" \/ x = "O" \/ x = "b" \/ x = "B")%char -> u = [] \/ u = ["_"%char] -> no_space s -> no_space ("0"%char :: x :: u ++ s)).
  { intros x u s' Hx Hu Hs. constructor; [reflexivity|]. constructor.
    - decompose [or] Hx; subst; reflexivity.
    - destruct Hu as [-> | ->]; auto. constructor; [reflexivity|auto]. }
  destruct 1 as [x u s n Hx Hu H|x u s n Hx Hu H|x u s n Hx Hu H|c s n Hc H|s H]; try (apply digs_no_space in H); try (apply G; tauto); auto.
Qed.
Lemma literal_no_space s z : int_literal s z -> no_space s.
Proof. destruct 1 as [s n H|s n H|s n H]; apply ulit_no_space in H; auto; constructor; auto. Qed.
Lemma col_cell_fun val more c c' : col_cell val more c -> col_cell val more c' -> c = c'.
Proof.
  intros [(z & H & ->)|[N ->]] [(z' & H' & ->)|[N' ->]]; auto.
  - f_equal. apply (literal_unique val); auto. now apply literal_no_space in H.
  - now apply N' in H.
  - now apply N in H'.
Qed.
Definition exact_cell (P : cell -> Prop) : Prop := (forall u u', P u -> P u' -> u = u') /\ ~ P CNone.
Lemma is_exact c : c <> CNone -> exact_cell (is c).
Proof. unfold is. split; [congruence|]. now intros <-. Qed.
Lemma col_exact val more : exact_cell (col_cell val more).
Proof. split; [intros u u'; apply col_cell_fun|]. intros [(z & _ & E)|[_ E]]; discriminate. Qed.
Lemma text_cells_exact L t key P : In (key, P) (text_cells L t) -> exact_cell P.
Proof.
  assert (K : forall l : list (str * (cell -> Prop)), Forall (fun x => exact_cell (snd x)) l -> In (key, P) l -> exact_cell P).
  { intros l F I. rewrite Forall_forall in F. exact (F _ I). }
  apply K. assert (M : forall (A : Type) (f : A -> str) (g : A -> cell -> Prop) l, (forall a, exact_cell (g a)) -> Forall (fun x => exact_cell (snd x)) (map (fun a => (f a, g a)) l)).
  { intros A f g l H. apply Forall_forall. intros x I. apply in_map_iff in I as (a & <- & _). apply H. }
  destruct t; cbn [text_cells]; try (repeat (apply Forall_cons; [cbn [snd]; try (apply is_exact; discriminate); apply col_exact|]); apply Forall_nil).
  - apply M. intros a. apply col_exact.
  - apply Forall_app. split; [apply M; intros a; apply col_exact|]. constructor; [apply is_exact; discriminate|constructor].
  - apply M. intros a. apply is_exact. discriminate.
  - apply M. intros a. apply col_exact.
  - apply M. intros a. apply col_exact.
Qed.
Lemma shown_none c key v : shown c key v = CNone -> v = CNone.
Proof.
  unfold shown. destruct c; auto.
  - destruct v; auto. destruct (z =? 4294967295)%Z; discriminate.
  - destruct (eqs key $"cpus"); auto. cbv zeta. discriminate.
Qed.
Lemma row_cell c L shift m r col v : row_shows c L shift m r -> (CellIn c L m col v <-> dlookup col (snd r) = Some v).
Proof.
  intros (_ & H1 & H2). split.
  - intros [(key & P & u & I & <- & Hu & ->)|(N & u & Hu & ->)].
    + destruct (H1 _ _ I) as (v' & Hv & ->). now rewrite (proj1 (text_cells_exact _ _ _ _ I) u v').
    + rewrite (H2 _ N), Hu. reflexivity.
  - intros E. destruct (in_dec (list_eq_dec ascii_dec) col (map (fun x => column c (fst x)) (text_cells L (m_text m)))) as [I|N].
    + left. apply in_map_iff in I as ([key P] & Ek & I). cbn [fst] in Ek. destruct (H1 _ _ I) as (v' & Hv & Ev). exists key, P, v'. rewrite Ek, E in Ev. injection Ev as ->. auto.
    + right. split; auto. rewrite (H2 _ N) in E. destruct (meta_cell (mark_event m) col) as [u|]; [|discriminate]. exists u. injection E as <-. auto.
Qed.
Lemma cell_not_none c L m col : ~ CellIn c L m col CNone.
Proof.
  intros [(key & P & u & I & _ & Hu & E)|(_ & u & Hu & E)]; symmetry in E; apply shown_none in E as ->.
  - now apply (proj2 (text_cells_exact _ _ _ _ I)).
  - unfold meta_cell in Hu. destruct (eqs _ _); [discriminate|]. destruct (eqs _ _); [discriminate|]. destruct (eqs _ _); [discriminate|].
    destruct (eqs _ _); discriminate.
Qed.
Definition grow (r : F64.float * dict) : Qc * list (str * option cell) := (time (fst r), map (fun kc => (fst kc, cell_value (snd kc))) (snd r)).
Lemma grow_cell r col : gcell col (grow r) = match dlookup col (snd r) with Some v => cell_value v | None => None end.
Proof.
  unfold gcell, dlookup, grow. cbn [snd]. induction (snd r) as [|[k v] d IH]; [reflexivity|]. cbn [map dget fst snd]. destruct (eqs col k); auto.
Qed.
Lemma row_gcell c L shift m r col v : row_shows c L shift m r -> (gcell col (grow r) = Some v <-> CellIn c L m col v).
Proof.
  intros H. rewrite grow_cell. split.
  - destruct (dlookup col (snd r)) as [u|] eqn:E; [|discriminate]. apply (row_cell _ _ _ _ _ _ _ H) in E. destruct u; cbn; intros [= <-]; auto.
  - intros I. rewrite (proj1 (row_cell _ _ _ _ _ _ _ H) I). destruct v; auto. now apply cell_not_none in I.
Qed.
Lemma dlookup_In col d : In col (map fst d) <-> exists v, dlookup col d = Some v.
Proof.
  unfold dlookup. split.
  - intros I. destruct (dget eqs col d) eqn:E; eauto. apply (dget_None eqs eqs_eq) in E. now apply E in I.
  - intros (v & E). apply (dget_In eqs eqs_eq) in E. now apply (in_map fst) in E.
Qed.
Lemma frame_has c L shift ms fr col : Forall2 (row_shows c L shift) ms fr -> (In col (g_cols (gframe_of fr)) <-> Has c L ms col).
Proof.
  intros F. cbn [gframe_of g_cols]. induction F as [|m r ms fr Hr _ IH].
  - split; [intros []|intros (m & v & [] & _)].
  - cbn [flat_map]. rewrite in_app_iff, IH, dlookup_In. split.
    + intros [(v & E)|(m' & v & I & C)]; [exists m, v; split; [now left|now apply (row_cell _ _ _ _ _ _ _ Hr)]|exists m', v; split; auto; now right].
    + intros (m' & v & [<-|I] & C); [left; exists v; now apply (row_cell _ _ _ _ _ _ _ Hr) in C|right; exists m', v; auto].
Qed.

(** ** Rows *)
Section World.
  Context (defs : list (str * klass)) (frames : list (str * frame)) (pvars : str -> option kls) (attr : str -> res kls)
          (from to : option Qc) (filters : list (str * list cell)) (fill : bool).
  Notation w := (world_of defs frames pvars attr from to filters fill).
  Context (shift : F64.float -> F64.float) (marks : str -> list mark) (len : str -> str -> nat).
  Hypothesis ND : NoDup (map fst defs).
  Hypothesis FST : map fst frames = map fst defs.
  Hypothesis NAMED : forall a k, In (a, k) defs -> given_name k = a.
  Hypothesis ROWS : forall a k, In (a, k) defs -> exists fr, dget eqs a frames = Some fr /\ Forall2 (row_shows (snd (kind_of k)) (len a) shift) (marks a) fr.
  Hypothesis SORTED : forall a, StronglySorted (fun x y => (time (shift (m_time x)) <= time (shift (m_time y)))%Qc) (marks a).
  Hypothesis DISTINCT : forall a, In a (map fst defs) -> Distinct shift (marks a).
  Hypothesis WHOLE : forall a k, In (a, k) defs -> AllOrNone (snd (kind_of k)) (len a) (pivot_of k) (marks a).
  Hypothesis OURS : Ours defs pvars attr.

  Lemma strict ms : StronglySorted (fun x y => (time (shift (m_time x)) <= time (shift (m_time y)))%Qc) ms -> Distinct shift ms ->
    StronglySorted (lt time_leb) (map (fun m => time (shift (m_time m))) ms).
  Proof.
    unfold Distinct. induction 1 as [|m ms _ IH F]; cbn [map]; [constructor|]. inversion 1 as [|? ? N D]; subst. constructor; auto.
    apply Forall_forall. intros t I. assert (I' := I). apply in_map_iff in I as (x & <- & I). rewrite Forall_forall in F. apply F in I. unfold lt, ltb. apply negb_true_iff.
    destruct (time_leb _ _) eqn:E; auto. apply time_leb_iff in E. exfalso. apply N. now rewrite (Qcle_antisym _ _ I E).
  Qed.
  Lemma times_eq c L ms fr : Forall2 (row_shows c L shift) ms fr -> map fst (g_rows (gframe_of fr)) = map (fun m => time (shift (m_time m))) ms.
  Proof. cbn [gframe_of g_rows]. rewrite map_map. induction 1 as [|m r ms fr (E & _) _ IH]; [reflexivity|]. cbn [map]. f_equal; [exact (f_equal time E)|exact IH]. Qed.
  Lemma frame_In n f : w_frames w n = Some f -> exists k fr, In (n, k) defs /\ dget eqs n frames = Some fr /\ f = gframe_of fr /\
    Forall2 (row_shows (snd (kind_of k)) (len n) shift) (marks n) fr.
  Proof.
    cbn [world_of w_frames]. intros E. destruct (dget eqs n frames) as [fr|] eqn:G; [|discriminate]. injection E as <-.
    assert (I := dget_In eqs eqs_eq _ _ _ G). apply (in_map fst) in I. rewrite FST in I. apply in_map_iff in I as ([a k] & Ea & I). cbn [fst] in Ea. subst a.
    destruct (ROWS _ _ I) as (fr' & G' & F). rewrite G in G'. injection G' as <-. exists k, fr. auto.
  Qed.
  Lemma same_class a k k' : In (a, k) defs -> In (a, k') defs -> k = k'.
  Proof. intros H1 H2. assert (E1 := In_dget eqs eqs_eq _ _ _ ND H1). assert (E2 := In_dget eqs eqs_eq _ _ _ ND H2). congruence. Qed.
  Lemma world_proper : Proper time_leb w.
  Proof.
    split.
    - intros n f E. destruct (frame_In _ _ E) as (k & fr & I & _ & -> & F). rewrite (times_eq _ _ _ _ F). apply strict; auto. apply DISTINCT. now apply (in_map fst) in I.
    - intros ev k f p r Hk Hf Hp Hc Hr.
      destruct (frame_In _ _ Hf) as (k0 & fr & I & _ & -> & F).
      assert (Ek : k = class_of k0).
      { assert (G : exists a k', In (a, k') defs /\ k = class_of k').
        { destruct Hk as [Hk|[_ [Hk|[_ Hk]]]]; cbn [world_of w_pvars w_defs w_attr] in Hk.
          - apply (OURS ev); auto. exists (Accessor.k_name k). split; auto. now apply (in_map fst) in I.
          - destruct (dget eqs ev defs) as [k'|] eqn:E; [|discriminate]. injection Hk as <-. exists ev, k'. split; auto. now apply (dget_In eqs eqs_eq).
          - apply (OURS ev); auto. exists (Accessor.k_name k). split; auto. now apply (in_map fst) in I. }
        destruct G as (a & k' & Ia & ->). f_equal. apply (same_class a); auto. cbn [class_of Accessor.k_name] in I. now rewrite (NAMED _ _ Ia) in I. }
      subst k. cbn [class_of Accessor.k_pivot Accessor.k_name] in *.
      apply (frame_has _ _ _ _ _ _ F) in Hc.
      cbn [gframe_of g_rows] in Hr. apply in_map_iff in Hr as (r0 & <- & Ir).
      assert (G : exists m, In m (marks (given_name k0)) /\ row_shows (snd (kind_of k0)) (len (given_name k0)) shift m r0).
      { clear - F Ir. induction F as [|m x ms xs Hx _ IH]; [destruct Ir|]. destruct Ir as [<-|Ir]; [exists m; split; [now left|auto]|].
        destruct (IH Ir) as (m' & ? & ?). exists m'. split; auto. now right. }
      destruct G as (m & Im & Hm). destruct (WHOLE _ _ I p m Hp Hc Im) as (v & Hv).
      apply (row_gcell _ _ _ _ _ _ _ Hm) in Hv. intros E. change (gcell p (grow r0) = None) in E. rewrite Hv in E. discriminate.
  Qed.
  Lemma chosen_iff c L ms fr m r : Forall2 (row_shows c L shift) ms fr -> row_shows c L shift m r ->
    (Chosen time_leb w (g_cols (gframe_of fr)) (grow r) <-> Wanted c L shift ms from to filters m).
  Proof.
    intros F H. unfold Chosen, Wanted. cbn [world_of w_from w_to w_filters]. cbn [grow fst]. assert (Hr := H). destruct H as (E & _). rewrite E.
    split; intros (A & B & C); (split; [intros t Et; apply time_leb_iff; auto|split; [intros t Et; apply time_leb_iff; auto|]]).
    - intros col wanted I Hh. apply (frame_has _ _ _ _ _ _ F) in Hh. destruct (C _ _ I Hh) as (v & Hv & Iv). exists v. split; auto. now apply (row_gcell _ _ _ _ _ _ _ Hr).
    - intros col wanted I Hh. apply (frame_has _ _ _ _ _ _ F) in Hh. destruct (C _ _ I Hh) as (v & Hv & Iv). exists v. split; auto. now apply (row_gcell _ _ _ _ _ _ _ Hr).
  Qed.
  Lemma only_rows (P : mark -> Prop) (Q : Qc * list (str * option cell) -> Prop) (R : mark -> F64.float * dict -> Prop) ms fr sel :
    (forall m r, In m ms -> R m r -> (P m <-> Q (grow r))) -> Forall2 R ms fr -> Only P ms sel ->
    exists rs, Only Q (map grow fr) (map grow rs) /\ Forall2 R sel rs.
  Proof.
    intros H F. revert sel. induction F as [|m r ms fr Hr _ IH]; intros sel O; inversion O as [|? ? sel' Hk O1|? ? sel' Hk O1]; subst.
    - exists []. split; constructor.
    - destruct (IH (fun m r I => H m r (or_intror I)) _ O1) as (rs & O' & F'). exists (r :: rs). split; [|now constructor].
      cbn [map]. apply O_keep; auto. apply (H m r); auto. now left.
    - destruct (IH (fun m r I => H m r (or_intror I)) _ O1) as (rs & O' & F'). exists rs. split; auto.
      cbn [map]. apply O_drop; auto. intros K. apply Hk. apply (H m r); auto. now left.
  Qed.
  Lemma world_source a k col sel : In (a, k) defs -> pvars a = None ->
    Only (Wanted (snd (kind_of k)) (len a) shift (marks a) from to filters) (marks a) sel -> sel <> [] ->
    Has (snd (kind_of k)) (len a) (marks a) col -> (forall p, pivot_of k = Some p -> Has (snd (kind_of k)) (len a) (marks a) p) ->
    exists rows, Source time_leb w a col rows /\ Forall2 (RowOf (snd (kind_of k)) (len a) shift (pivot_of k) col) sel rows.
  Proof.
    intros I Hp O Hs Hc Hpv. destruct (ROWS _ _ I) as (fr & G & F).
    destruct (only_rows _ (Chosen time_leb w (g_cols (gframe_of fr))) _ _ _ _ (fun m r _ Hr => iff_sym (chosen_iff _ _ _ _ _ _ F Hr)) F O) as (rs & O' & F').
    eexists. split.
    - exists (class_of k), (gframe_of fr), (map grow rs). split; [|split; [|split; [|split; [|split; [|split]]]]].
      + right. cbn [world_of w_pvars w_defs]. split; auto. left. now rewrite (In_dget eqs eqs_eq _ _ _ ND I).
      + cbn [world_of w_frames class_of Accessor.k_name]. now rewrite (NAMED _ _ I), G.
      + now apply (frame_has _ _ _ _ _ _ F).
      + intros p Ep. apply (frame_has _ _ _ _ _ _ F). now apply Hpv.
      + exact O'.
      + destruct F'; [congruence|discriminate].
      + reflexivity.
    - cbn [class_of Accessor.k_pivot]. assert (S : forall m, In m sel -> In m (marks a)).
      { clear - O. induction O; cbn; intros x; [auto|intros [->|H']; auto|auto]. }
      clear O O' Hs. induction F' as [|m r sel rs Hr _ IH]; cbn [map]; constructor.
      + split; [cbn [fst grow]; now rewrite (proj1 Hr)|]. cbn [fst snd]. split.
        * destruct (pivot_of k) as [p|] eqn:Ep; auto. destruct (WHOLE _ _ I p m Ep (Hpv p eq_refl) (S m (or_introl eq_refl))) as (v & Hv).
          exists v. split; auto. now apply (row_gcell _ _ _ _ _ _ _ Hr).
        * intros v. apply (row_gcell _ _ _ _ _ _ _ Hr).
      + apply IH. intros m' I'. apply S. now right.
  Qed.

  (** ** Solving *)
  Context {W : Type} (lib : library Qc cell W).
  Lemma row_times c L pivot col sel rows : Forall2 (RowOf c L shift pivot col) sel rows ->
    map (fun m => time (shift (m_time m))) sel = map (fun r => fst (fst r)) rows.
  Proof. induction 1 as [|m r sel rows (E & _) _ IH]; [reflexivity|]. cbn [map]. f_equal; auto. Qed.
  Lemma only_sorted {A B} (P : A -> Prop) (f : A -> B) (R : B -> B -> Prop) l l' : Only P l l' -> StronglySorted R (map f l) -> StronglySorted R (map f l').
  Proof.
    assert (G : Only P l l' -> forall y, In y (map f l') -> In y (map f l)).
    { induction 1; cbn [map]; intros y; auto; [intros [<-|H']; [now left|right; auto]|intros H'; right; auto]. }
    clear G. induction 1 as [|a l l' Ha H IH|a l l' Ha H IH]; cbn [map]; auto; intros S; inversion S as [|? ? S1 F]; subst; auto. constructor; auto.
    rewrite Forall_forall in *. intros y I. apply F. clear - H I. induction H; cbn [map] in *; auto; [destruct I as [<-|I]; [now left|right; auto]|right; auto].
  Qed.
  Lemma world_solve a k col sel s : fill = true -> In (a, k) defs -> pvars a = None -> Text 6 (EAcc a col) s ->
    Only (Wanted (snd (kind_of k)) (len a) shift (marks a) from to filters) (marks a) sel -> sel <> [] ->
    Has (snd (kind_of k)) (len a) (marks a) col -> (forall p, pivot_of k = Some p -> Has (snd (kind_of k)) (len a) (marks a) p) ->
    exists rows cols, Forall2 (RowOf (snd (kind_of k)) (len a) shift (pivot_of k) col) sel rows /\
      fst (parser_solve time_leb cell_leb w lib empty_table s) = Ok (l_frame lib (map (fun m => time (shift (m_time m))) sel, cols)) /\
      keys_of (map fst cols) rows /\
      forall p cells, In (p, cells) cols -> Forall2 (fun t x => CellOf (fun x y => (x <= y)%Qc) rows p t x) (map (fun m => time (shift (m_time m))) sel) cells.
  Proof.
    intros Hf I Hp Ht O Hs Hc Hpv. destruct (world_source _ _ _ _ I Hp O Hs Hc Hpv) as (rows & Hsrc & HR).
    assert (PR := world_proper). assert (E0 : Ends []) by (split; [exact Logic.I|exact Logic.I]).
    assert (First time_leb w ([] ++ [(a, col)]) col rows) as HF.
    { exists [], a, []. split; [reflexivity|]. split; auto. }
    destruct (solve_session time_leb cell_leb time_order cell_order w PR lib [] [] (EAcc a col) s [] [] (Se_nil _ _) Ht E0 eq_refl)
      as (h' & HS & HH). cbv zeta in HH. rewrite !app_nil_r in HH. cbn [app] in HS. rewrite app_nil_r in HS.
    cbn [app accs] in HH.
    set (tab := after time_leb cell_leb w lib [s]) in *.
    assert (Hh : h' = [(a, col)] /\ (forall v, value (env_of lib tab) (EAcc a col) = Ok v ->
       fst (parser_solve time_leb cell_leb w lib (after time_leb cell_leb w lib []) s) = Ok v)).
    { destruct HH as [(-> & _ & H & _)|(ev & c & x & [[= <- <-]|[]] & N & _)]; [auto|]. exfalso.
      assert (h' = [(a, col)]) as ->; [|apply N; now exists rows].
      inversion HS as [|ss h0 s0 l h1 HS0 HA HT E1 E2]. apply (app_inj_tail ss [] s0 s) in E1 as [-> ->]. 
      assert (h0 = []) as -> by (inversion HS0 as [|ss' ? ? ? ? ? ? ? E3]; [reflexivity|now destruct ss']).
      assert (HA' := accessors_ok _ _ [] [] Ht E0 eq_refl). rewrite !app_nil_r in HA'. rewrite HA' in HA. injection HA as <-.
      cbn [accs] in HT. inversion HT as [|? ? ? ? ? R1 T1|]; subst; [|reflexivity]. now inversion T1. }
    destruct Hh as [-> Hv]. destruct (own time_leb cell_leb time_order cell_order w PR lib [s] [(a, col)] a col rows HS Hf (or_introl eq_refl)
      (fun ev' H => match H with or_introl E => eq_sym (f_equal fst E) | or_intror F => match F with end end) Hsrc) as [K1 K2].
    destruct (session_times time_leb cell_leb time_order cell_order w PR lib [s] [(a, col)] HS) as [T1 T2]. fold tab in K1, K2, T1, T2.
    assert (Ei : t_idx tab = map (fun m => time (shift (m_time m))) sel).
    { apply (sorted_ext time_leb time_order); auto.
      - apply (only_sorted _ _ _ _ _ O). apply strict; auto. apply DISTINCT. now apply (in_map fst) in I.
      - intros t. rewrite T2, (row_times _ _ _ _ _ _ HR). split.
        + intros (c & rows' & kk & v & F & Hin). assert (c = col /\ rows' = rows) as [-> ->].
          { destruct F as (pre & ev & post & E & S & _). destruct pre as [|x pre]; [|destruct pre; discriminate E]. injection E as <- <- <-. split; auto.
            apply (source_usable time_leb cell_leb time_order cell_order w PR) in S. apply (source_usable time_leb cell_leb time_order cell_order w PR) in Hsrc. congruence. }
          now apply (in_map (fun r => fst (fst r))) in Hin.
        + intros Hin. apply in_map_iff in Hin as ([[t' kk] v] & <- & Hin). exists col, rows, kk, v. split; auto. }
    exists rows, (columns tab col). split; auto. split; [|split; auto].
    - apply Hv. cbn [value]. rewrite acc_value. destruct (columns tab col) as [|x l] eqn:Ec; [|now rewrite Ei].
      exfalso. destruct rows as [|[[t kk] v] rows]; [inversion HR; now subst|]. destruct (proj2 (proj2 K1 kk)). exists t, v. now left.
    - intros p cells Hin. rewrite <- Ei. apply K2 in Hin. eapply Forall2_impl; [|exact Hin]. cbv beta. intros t x Hx.
      destruct x as [v|]; cbn in *.
      + destruct Hx as (pre & t' & post & E & L1 & L2). exists pre, t', post. split; auto. split; [now apply time_leb_iff|].
        intros t'' w' Hin'. rewrite <- time_leb_iff. now apply (L2 t'' w').
      + intros t' w' Hin'. rewrite <- time_leb_iff. now apply (Hx t' w').
  Qed.
  Lemma world_missing a k col sel s : In (a, k) defs -> pvars a = None -> Text 6 (EAcc a col) s ->
    Only (Wanted (snd (kind_of k)) (len a) shift (marks a) from to filters) (marks a) sel ->
    (sel = [] -> fst (parser_solve time_leb cell_leb w lib empty_table s) = Err EValue) /\
    (sel <> [] -> ~ Has (snd (kind_of k)) (len a) (marks a) col \/ (exists p, pivot_of k = Some p /\ ~ Has (snd (kind_of k)) (len a) (marks a) p) ->
     fst (parser_solve time_leb cell_leb w lib empty_table s) = Err EKey).
  Proof.
    intros I Hp Ht O. assert (PR := world_proper). assert (E0 : Ends []) by (split; exact Logic.I).
    assert (HA := accessors_ok _ _ [] [] Ht E0 eq_refl). rewrite !app_nil_r in HA. cbn [accs] in HA.
    destruct (ROWS _ _ I) as (fr & G & F).
    destruct (only_rows _ (Chosen time_leb w (g_cols (gframe_of fr))) _ _ _ _ (fun m r _ Hr => iff_sym (chosen_iff _ _ _ _ _ _ F Hr)) F O) as (rs & O' & F').
    assert (Hw : w_frames w a = Some (gframe_of fr)) by (cbn [world_of w_frames]; now rewrite G).
    assert (Hg : get_rows time_leb cell_leb w (gframe_of fr) = map grow rs).
    { apply (only_fun _ _ _ (get_rows_only time_leb cell_leb time_order cell_order w (gframe_of fr) (proj1 PR _ _ Hw)) _ O'). }
    assert (Hq : parser_solve time_leb cell_leb w lib empty_table s =
      match pre_process time_leb cell_leb w empty_table (a, col) with
      | Ok agg' => (solve (env_of lib agg') s, agg') | Err x => (Err x, empty_table) end).
    { unfold parser_solve. rewrite HA. cbn [load_all]. now destruct (pre_process _ _ _ _ _). }
    rewrite Hq. unfold pre_process. cbn [has_column empty_table t_cols existsb]. unfold resolve. cbn [world_of w_pvars w_defs].
    rewrite Hp, (In_dget eqs eqs_eq _ _ _ ND I). cbn [option_map bind]. unfold pivot_frame, get_data_frame. cbn [class_of Accessor.k_name].
    change (w_frames (World pvars _ attr _ from to filters fill)) with (w_frames w). rewrite (NAMED _ _ I), Hw. cbn [bind g_rows g_cols].
    change (World pvars _ attr _ from to filters fill) with w. rewrite Hg. split.
    - intros ->. inversion F'; subst. reflexivity.
    - intros Hs Hm. destruct rs as [|r rs]; [inversion F'; now subst|]. cbn [map]. cbn [class_of Accessor.k_pivot].
      assert (B : forall x, ~ Has (snd (kind_of k)) (len a) (marks a) x -> has_col x (g_cols (gframe_of fr)) = false).
      { intros x N. apply not_true_iff_false. intros E. apply N. apply (frame_has _ _ _ _ _ _ F). now apply AccessorP.has_col_In. }
      destruct Hm as [N|(p & Ep & N)].
      + destruct (pivot_of k) as [p|]; rewrite (B _ N); [destruct (has_col p _)|]; reflexivity.
      + rewrite Ep, (B _ N). reflexivity.
  Qed.
End World.
