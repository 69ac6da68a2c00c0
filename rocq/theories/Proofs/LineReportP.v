(** Interactive line plots of a written report. *)
From Coq Require Import List Ascii String ZArith NArith QArith Qcanon Bool Sorted Permutation Lia.
From Verif Require Import Lib.PyStr Lib.PyStrFacts Lib.TotalOrder Lib.F64 Model.Base Model.Line Model.Registry Model.Populate Model.Window Model.Cache Model.Files
  Model.Tasks Model.Stats Model.Accessor Model.Solve Model.Constraint Model.Dups Model.ILineGen Model.ILine Model.Signals Model.Events Model.Classes Model.ConstraintReport Model.LineReport
  Spec.Accessor Spec.Constraint Spec.Signals Spec.ILine
  Spec.Lines Spec.Payload Spec.Arrays Spec.Parts Spec.Trace Spec.Interval Spec.Written Spec.Events Spec.Classes Spec.Solve Spec.ConstraintReport Spec.LineReport
  Proofs.TasksP Proofs.AccessorP Proofs.ConstraintP Proofs.ManagerP Proofs.SolveP Proofs.SolveQ Proofs.SignalsP Proofs.ILineP Proofs.DupsP Proofs.ConstraintReportP.
Import ListNotations.
Local Open Scope nat_scope.
Local Open Scope list_scope.

(** ** Numbers *)
Definition num (c : option cell) : option Q := match c with Some (CInt z) => Some (inject_Z z) | _ => None end.
Definition plain (c : option cell) : Prop := match c with None => True | Some (CInt _) => True | _ => False end.
Definition nums (s : list (Qc * option cell)) : list (Qc * option Q) := map (fun x => (fst x, num (snd x))) s.
Lemma number_ok c : plain c -> number c = Ok (num c).
Proof. destruct c as [[z|s|]|]; cbn; tauto. Qed.
Lemma nums_ok s : Forall (fun x => plain (snd x)) s -> mapM (fun x : Qc * option cell => do q <- number (snd x) ;; Ok (fst x, q)) s = Ok (nums s).
Proof. induction 1 as [|x s Hx _ IH]; [reflexivity|]. cbn [mapM]. rewrite (number_ok _ Hx). cbn [bind]. rewrite IH. reflexivity. Qed.
Lemma numbers_all r : (forall v s, In (v, s) r -> v <> None /\ Forall (fun x => plain (snd x)) s) ->
  exists r', mapM numbers r = Ok r' /\ map (fun x => Some (fst x)) r' = map fst r /\ forall v s, In (v, s) r' <-> exists p, In (Some v, p) r /\ s = nums p.
Proof.
  induction r as [|[v p] r IH]; intros H; [exists []; split; [reflexivity|split; [reflexivity|]]; intros v s; split; [intros []|intros (p & [] & _)]|].
  destruct IH as (r' & E & K & M); [intros v' s' I; apply H; now right|]. destruct (H v p (or_introl eq_refl)) as [Hv Hp]. destruct v as [v|]; [|congruence].
  exists ((v, nums p) :: r'). cbn [mapM]. unfold numbers at 1. cbn [snd fst]. rewrite (nums_ok _ Hp). cbn [bind]. rewrite E. cbn [bind]. split; [reflexivity|]. split; [cbn [map fst]; congruence|].
  intros v' s. cbn [In]. rewrite M. split.
  - intros [[= <- <-]|(q & I & ->)]; eauto.
  - intros (q & [[= <- <-]|I] & ->); [now left|right; eauto].
Qed.

Lemma only_same {A} (P : A -> Prop) l l1 l2 : Only P l l1 -> Only P l l2 -> l1 = l2.
Proof.
  intros O. revert l2. induction O as [|a l l1 Ha _ IH|a l l1 Ha _ IH]; intros l2 O2; inversion O2 as [|? ? l3 Hk O3|? ? l3 Hk O3]; subst; auto; try tauto. f_equal. now apply IH.
Qed.
Lemma In_dec_has c L shift ms fr : Forall2 (row_shows c L shift) ms fr -> forall col, Has c L ms col \/ ~ Has c L ms col.
Proof.
  intros F col. destruct (in_dec (list_eq_dec ascii_dec) col (g_cols (gframe_of fr))) as [I|N]; [left|right; intros H; apply N]; now apply (has_iff c L shift ms fr F).
Qed.

Lemma F2_of_nth {A B} (R : A -> B -> Prop) l l' : List.length l = List.length l' -> (forall i x y, nth_error l i = Some x -> nth_error l' i = Some y -> R x y) -> Forall2 R l l'.
Proof.
  revert l'. induction l as [|x l IH]; intros [|y l'] E H; try discriminate; constructor; [now apply (H 0)|]. apply IH; [now injection E|]. intros i a b. apply (H (S i)).
Qed.

(** ** One constraint *)
Section One.
  Context (order : list (option cell) -> list (option cell)).
  Hypothesis ORDER : Enumerates order.
  Context (c : columns) (L : str -> nat) (shift : F64.float -> F64.float) (ms : list mark) (fr : Base.frame) (frames : list (str * Base.frame)) (a : str).
  Hypothesis HERE : dget eqs a frames = Some fr.
  Hypothesis PLAIN : no_colon_ends a.
  Hypothesis ROWS : Forall2 (row_shows c L shift) ms fr.
  Hypothesis SORTED : StronglySorted (fun x y => (time (shift (m_time x)) <= time (shift (m_time y)))%Qc) ms.
  Context (pivot : str) (filters : list (str * list cell)) (win : option (Qc * Qc)) (col : str).
  Hypothesis FILTERS : NoDup (map fst filters).
  Hypothesis NOT_DEFAULT : forall m, In m ms -> ~ CellIn c L m pivot (CStr PIVOT_VAL).
  Hypothesis INTS : forall m v, In m ms -> CellIn c L m col v -> exists z, v = CInt z.
  Notation curve := (Curve c L shift ms pivot win filters col).

  Lemma points_nums sel s : (forall m, In m sel -> In m ms) -> Forall2 (Point c L shift col) sel s ->
    Forall (fun x => plain (snd x)) s /\ Forall2 (NumPoint c L shift col) sel (nums s).
  Proof.
    intros Hs F. induction F as [|m [t x] sel s [E1 E2] _ IH]; [split; constructor|].
    destruct (IH (fun m I => Hs m (or_intror I))) as [A B]. cbn [fst snd] in *.
    assert (P : plain x). { destruct x as [v|]; [|exact I]. destruct (INTS m v (Hs m (or_introl eq_refl)) (proj1 (E2 v) eq_refl)) as (z & ->). exact I. }
    split; [constructor; [exact P|exact A]|]. cbn [nums map]. constructor; [|exact B]. split; [exact E1|]. cbn [fst snd].
    destruct x as [[z|u|]|]; try (destruct P); [left; exists z; split; [now apply E2|reflexivity]|right]. split; [|reflexivity]. intros v K. apply E2 in K. discriminate.
  Qed.
  Lemma nums_points sel s : (forall m, In m sel -> In m ms) -> Forall2 (NumPoint c L shift col) sel s ->
    exists p, Forall2 (Point c L shift col) sel p /\ s = nums p.
  Proof.
    intros Hs F. induction F as [|m [t x] sel s [E1 E2] _ IH]; [exists []; split; [constructor|reflexivity]|].
    destruct (IH (fun m I => Hs m (or_intror I))) as (p & A & ->). cbn [fst snd] in *.
    destruct E2 as [(z & K & ->)|[K ->]].
    - exists ((t, Some (CInt z)) :: p). split; [|reflexivity]. constructor; [|exact A]. split; [exact E1|]. cbn [snd]. intros v. split; [now intros [= <-]|].
      intros K'. destruct (INTS m v (Hs m (or_introl eq_refl)) K') as (z' & ->). 
      assert (E : exists r, row_shows c L shift m r).
      { destruct (F2_in_l _ _ _ _ ROWS (Hs m (or_introl eq_refl))) as (r & _ & Hr). eauto. }
      destruct E as (r & Hr). apply (row_cell _ _ _ _ _ _ _ Hr) in K. apply (row_cell _ _ _ _ _ _ _ Hr) in K'. congruence.
    - exists ((t, None) :: p). split; [|reflexivity]. constructor; [|exact A]. split; [exact E1|]. cbn [snd]. intros v. split; [discriminate|]. intros K'. now apply K in K'.
  Qed.
  Lemma series_curve (P : mark -> Prop) s : (exists p, Series c L shift P col ms p /\ s = nums p) <-> exists sel, Only P ms sel /\ Forall2 (NumPoint c L shift col) sel s.
  Proof.
    assert (Sub : forall sel, Only P ms sel -> forall m, In m sel -> In m ms) by (intros sel O m I; now apply (only_sub _ _ _ O)).
    split.
    - intros (p & (sel & O & F) & ->). exists sel. split; auto. exact (proj2 (points_nums _ _ (Sub _ O) F)).
    - intros (sel & O & F). destruct (nums_points _ _ (Sub _ O) F) as (p & F' & ->). exists p. split; [exists sel; auto|reflexivity].
  Qed.
  Lemma result_curves : exists r r', constraint_result order frames pivot col a filters win = Ok r /\ mapM numbers r = Ok r' /\
    NoDup (map fst r') /\ map (fun x => Some (fst x)) r' = map fst r /\ forall v s, In (v, s) r' <-> curve v s.
  Proof.
    destruct (list_eq_dec ascii_dec pivot PIVOT) as [Ep|Np].
    - destruct (result_default order c L shift ms fr frames a HERE PLAIN ROWS SORTED col filters win) as (r & p & E & S & R1 & R2). rewrite <- Ep in E.
      assert (Hp : Forall (fun x => plain (snd x)) p).
      { destruct S as (sel & O & F). apply (points_nums sel); auto. intros m I. now apply (only_sub _ _ _ O). }
      assert (Hc : forall v s, curve v s <-> s <> [] /\ Has c L ms col /\ v = CStr PIVOT_VAL /\ s = nums p).
      { intros v s. unfold Curve. split.
        - intros (H1 & H2 & sel & O & F). split; auto. split; auto.
          assert (v = CStr PIVOT_VAL).
          { destruct sel as [|m sel]; [inversion F; congruence|]. destruct (proj1 (only_sub _ _ _ O m) (or_introl eq_refl)) as (_ & _ & [[_ Hv]|[Hn _]]); [exact Hv|congruence]. }
          split; auto. subst v. apply (only_iff _ (Plotted c L shift win filters ms)) in O.
          2: { intros x _. unfold Picked. rewrite Ep. tauto. }
          destruct S as (sel' & O' & F'). assert (Es : sel' = sel) by (clear - O O'; exact (only_same _ _ _ _ O' O)). subst sel'.
          destruct (nums_points _ _ (fun m I => proj1 (proj1 (only_sub _ _ _ O m) I)) F) as (p' & G & ->). f_equal. clear - F' G. revert p' G.
          induction F' as [|m [t x] sel p [A B] _ IH]; intros p' G; inversion G as [|? [t' x'] ? p'' [A' B'] G']; subst; [reflexivity|]. f_equal; [|now apply IH].
          cbn [fst snd] in *. f_equal; [congruence|]. destruct x as [v|]; [apply B'; now apply B|]. destruct x' as [v|]; [symmetry; apply B; now apply B'|reflexivity].
        - intros (H1 & H2 & -> & ->). split; auto. split; auto. apply series_curve. exists p. split; [|reflexivity]. destruct S as (sel & O & F). exists sel. split; auto.
          apply (only_iff (Plotted c L shift win filters ms)); auto. intros x _. unfold Picked. rewrite Ep. tauto. }
      destruct (In_dec_has c L shift ms fr ROWS col) as [Hh|Hh].
      + rewrite (R1 Hh) in E. destruct p as [|x p].
        * exists [], []. split; [exact E|]. split; [reflexivity|]. split; [constructor|]. split; [reflexivity|]. intros v s. rewrite Hc. split; [intros []|]. intros (H1 & _ & _ & H4). now apply H1 in H4.
        * exists [(Some (CStr PIVOT_VAL), x :: p)], [(CStr PIVOT_VAL, nums (x :: p))]. split; [exact E|]. split.
          { cbn [mapM]. unfold numbers. cbn [snd fst]. rewrite (nums_ok _ Hp). reflexivity. }
          split; [constructor; [intros []|constructor]|]. split; [reflexivity|]. intros v s. rewrite Hc. cbn [In]. split.
          -- intros [[= <- <-]|[]]. split; [discriminate|]. auto.
          -- intros (_ & _ & -> & ->). now left.
      + rewrite (R2 Hh) in E. exists [], []. split; [exact E|]. split; [reflexivity|]. split; [constructor|]. split; [reflexivity|]. intros v s. rewrite Hc. split; [intros []|]. tauto.
    - destruct (result_series order ORDER c L shift ms fr frames a HERE PLAIN ROWS SORTED pivot col filters win Np FILTERS NOT_DEFAULT) as (r & E & ND & M).
      destruct (numbers_all r) as (r' & E' & K & M').
      { intros v s I. apply M in I as (u & -> & _ & _ & sel & O & F). split; [discriminate|]. apply (points_nums sel); auto. intros m J. now apply (only_sub _ _ _ O). }
      exists r, r'. split; [exact E|]. split; [exact E'|]. split; [|split; [exact K|]].
      + rewrite <- K in ND. clear - ND. induction r' as [|[v s] r' IH]; [constructor|]. cbn [map] in *. apply NoDup_cons_iff in ND as [N D]. constructor; [|now apply IH].
        intros I. apply N. apply in_map_iff in I as (x & <- & I). apply in_map_iff. eauto.
      + intros v s. rewrite M'. unfold Curve. split.
        * intros (p & I & ->). apply M in I as (u & [= <-] & H1 & H2 & H3). split; [destruct p; [congruence|discriminate]|]. split; auto. apply series_curve. exists p. split; [|reflexivity].
          destruct H3 as (sel & O & F). exists sel. split; auto. revert O. apply only_iff. intros m _. unfold Picked. tauto.
        * intros (H1 & H2 & H3). apply series_curve in H3 as (p & S & ->). exists p. split; [|reflexivity]. apply M. exists v. split; auto. split; [destruct p; [now elim H1|discriminate]|]. split; auto.
          destruct S as (sel & O & F). exists sel. split; auto. revert O. apply only_iff. intros m _. unfold Picked. tauto.
  Qed.
End One.

(** ** Frames of series without repeated times *)
Section Same.
  Context {T : Type} (leb : T -> T -> bool) (dedup : list T -> list T) (draw : option str).
  Lemma frame_same d f : Forall (fun x => dedup (map fst (snd x)) = map fst (snd x)) d -> FrameOf leb dedup draw d f -> FrameOf leb (fun l => l) draw d f.
  Proof.
    intros H. rewrite Forall_forall in H. destruct d as [|[k s] [|y d]]; cbn [FrameOf]; auto. set (l := (k, s) :: y :: d) in *. intros (A & B & C & D & E).
    split; [exact A|]. split; [exact B|]. split; [exact C|]. split.
    - intros t. rewrite D. split; intros (k' & s' & I & J); exists k', s'; (split; [exact I|]); specialize (H _ I); cbn [snd] in H; congruence.
    - intros j k' s' N. destruct (E j k' s' N) as (s'' & raw & col & R1 & R2). exists s'', raw, col. split; [|exact R2].
      assert (I := nth_error_In _ _ N). specialize (H _ I). cbn [snd] in H. destruct R1 as [R1 R3]. split; [congruence|exact R3].
  Qed.
  Lemma plot_same pairs t ft : Forall (fun x => dedup (map fst (snd x)) = map fst (snd x)) pairs -> PlotOf leb dedup draw pairs t ft -> PlotOf leb (fun l => l) draw pairs t ft.
  Proof.
    intros H (A & d & D & F). split; [exact A|]. exists d. split; [exact D|]. apply frame_same; [|exact F].
    rewrite Forall_forall in *. intros [k s] I. destruct D as (_ & D & _). apply D in I as (i & N & _). exact (H _ (nth_error_In _ _ N)).
  Qed.
End Same.
Lemma dedup_sorted l : StronglySorted (lt time_leb) l -> dedup_times l = l.
Proof.
  intros S. unfold dedup_times. apply handle_unique. induction S as [|x l _ IH F]; constructor; [|exact IH].
  eapply Forall_impl; [|exact F]. intros y Hy. cbn. destruct (Qc_eq_dec y x) as [->|N]; [|reflexivity].
  unfold lt, ltb in Hy. apply negb_true_iff in Hy. assert (K : time_leb x x = true) by (apply time_leb_iff; apply Qcle_refl). congruence.
Qed.

(** ** The whole plot *)
Section View.
  Context (order : list (option cell) -> list (option cell)).
  Hypothesis ORDER : Enumerates order.
  Context (name : str) (defs : list (str * klass)) (frames : list (str * Base.frame)) (marks : str -> list mark) (len : str -> str -> nat) (shift : F64.float -> F64.float).
  Hypothesis NAMED : forall a k, In (a, k) defs -> given_name k = a.
  Hypothesis TABLES : forall a k, In (a, k) defs -> exists fr, dget eqs a frames = Some fr /\ Forall2 (row_shows (snd (kind_of k)) (len a) shift) (marks a) fr.
  Hypothesis SORTED : forall a, StronglySorted (fun x y => (time (shift (m_time x)) <= time (shift (m_time y)))%Qc) (marks a).
  Context (sigs : list str) (xs : list (klass * str * option (list Z))).
  Hypothesis SIGNALS : Forall2 (Means [defs]) sigs xs.
  Context (pivot : str) (filters : list (str * list cell)) (win : option (Qc * Qc)).
  Hypothesis FILTERS : NoDup (map fst filters).
  Notation event x := (given_name (fst (fst x))).
  Notation cols x := (snd (kind_of (fst (fst x)))).
  Hypothesis DISTINCT : forall x, In x xs -> Distinct shift (marks (event x)).
  Hypothesis NOT_DEFAULT : forall x m, In x xs -> In m (marks (event x)) -> ~ CellIn (cols x) (len (event x)) m pivot (CStr PIVOT_VAL).
  Hypothesis INTS : forall x m v, In x xs -> In m (marks (event x)) -> CellIn (cols x) (len (event x)) m (snd (fst x)) v -> exists z, v = CInt z.
  Notation curve x := (Curve (cols x) (len (event x)) shift (marks (event x)) pivot win filters (snd (fst x))).

  Lemma signal_known x : In x xs -> exists a, In (a, fst (fst x)) defs /\ given_name (fst (fst x)) = a /\ Name a.
  Proof.
    intros I. destruct (F2_in_r _ _ _ _ SIGNALS I) as (s & _ & ev & t & Sg & _ & before & d & after & E & G & _).
    assert (d = defs) as ->.
    { destruct before as [|b [|b' before]]; cbn in E; [now injection E|discriminate|discriminate]. }
    apply (PyStrFacts.dget_In eqs eqs_eq) in G. exists ev. split; [exact G|]. split; [now apply NAMED|]. inversion Sg; subst; assumption.
  Qed.
  Lemma name_plain a : Name a -> no_colon_ends a.
  Proof.
    intros [_ N] r. split; intros ->; apply N; [now left|apply in_or_app; right; now left].
  Qed.
  Lemma signal_result x : In x xs -> exists r r', constraint_result order frames pivot (snd (fst x)) (event x) filters win = Ok r /\ mapM numbers r = Ok r' /\
    NoDup (map fst r') /\ map (fun x => Some (fst x)) r' = map fst r /\ forall v s, In (v, s) r' <-> curve x v s.
  Proof.
    intros I. destruct (signal_known x I) as (a & Ia & E & Na). destruct (TABLES _ _ Ia) as (fr & G & F). rewrite E.
    assert (H1 := NOT_DEFAULT x). assert (H2 := INTS x). rewrite E in H1, H2.
    exact (result_curves order ORDER (snd (kind_of (fst (fst x)))) (len a) shift (marks a) fr frames a G (name_plain a Na) F (SORTED a) pivot filters win (snd (fst x)) FILTERS
      (fun m => H1 m I) (fun m v => H2 m v I)).
  Qed.
  Lemma curve_sorted x v s : In x xs -> curve x v s -> StronglySorted (lt time_leb) (map fst s).
  Proof.
    intros I (_ & _ & sel & O & F). assert (E : map fst s = map (fun m => time (shift (m_time m))) sel).
    { clear - F. induction F as [|m y sel s [E _] _ IH]; cbn [map]; congruence. }
    rewrite E. apply (only_sorted _ _ _ _ _ O). apply strict; auto.
  Qed.

  Definition is_con (x : klass * str * option (list Z)) (c : con Qc cell) : Prop :=
    c_str c = label_of name 0 (event x) (snd (fst x)) /\ NoDup (map fst (c_result c)) /\ forall v s, In (v, s) (c_result c) <-> curve x v s.
  Definition has_keys (d : made) (c : con Qc cell) : Prop := map (fun x => Some (fst x)) (c_result c) = map fst (md_result d).
  Lemma cons_ok : xs <> [] -> exists ds cs, line_constraints order [(name, defs, frames)] sigs pivot filters win = Ok (map (fun x => snd (fst x)) xs, ds) /\
    mapM con_of ds = Ok cs /\ Forall2 is_con xs cs /\ Forall2 has_keys ds cs.
  Proof.
    intros NE. unfold line_constraints. cbn [map fst snd].
    destruct (describe false [defs] sigs) as [[[ts columns] colours]|e] eqn:ED.
    2: { exfalso. set (cl := if existsb (fun x : klass * str * option (list Z) => match snd x with None => false | _ => true end) xs then Some (map (fun x => snd x) xs) else None).
      assert (K : describe false [defs] sigs = Ok (map (fun x => fst (fst x)) xs, map (fun x => snd (fst x)) xs, cl)); [|congruence].
      apply describe_ok. split; [reflexivity|]. exists xs. split; [exact SIGNALS|]. split; [reflexivity|]. split; [reflexivity|].
      unfold cl. destruct (existsb _ xs) eqn:Ex.
      - right. split; [|reflexivity]. apply existsb_exists in Ex as (x & I & Hx). apply Exists_exists. exists x. split; [exact I|]. destruct (snd x); congruence.
      - left. split; [|reflexivity]. apply Forall_forall. intros x I. destruct (snd x) as [z|] eqn:Ez; [|reflexivity].
        assert (T : existsb (fun x : klass * str * option (list Z) => match snd x with None => false | _ => true end) xs = true); [|congruence].
        apply existsb_exists. exists x. rewrite Ez. auto. }
    apply describe_ok in ED as (_ & xs' & F' & -> & -> & _).
    assert (xs' = xs) as ->.
    { clear - SIGNALS F'. revert xs' F'. assert (F := SIGNALS). clear SIGNALS. induction F as [|s x sigs xs M _ IH]; intros xs' F'; inversion F' as [|? x' ? ? M' F'']; subst; [reflexivity|]. f_equal; [|now apply IH].
      assert (K2 : forall y, Means [defs] s y -> describe false [defs] [s] = Ok (map (fun x => fst (fst x)) [y], map (fun x => snd (fst x)) [y], if match snd y with None => true | _ => false end then None else Some (map (fun x => snd x) [y]))).
      { intros y My. apply describe_ok. split; [reflexivity|]. exists [y]. split; [constructor; [exact My|constructor]|]. do 2 (split; [reflexivity|]). destruct y as [[k c] [z|]]; [right; split; [apply Exists_cons_hd; discriminate|reflexivity]|left; split; [constructor; [reflexivity|constructor]|reflexivity]]. }
      assert (J1 := K2 _ M). assert (J2 := K2 _ M'). rewrite J1 in J2. clear - J2. destruct x as [[k c] [z|]], x' as [[k' c'] [z'|]]; cbn in J2; congruence. }
    cbn [bind].
    set (columns := map (fun x => snd (fst x)) xs). set (templates := map given_name (map (fun x => fst (fst x)) xs)).
    assert (L1 : List.length columns = List.length xs) by apply map_length. assert (L2 : List.length templates = List.length xs) by (unfold templates; now rewrite !map_length).
    assert (Lx : List.length xs <> 0) by (destruct xs; [congruence|discriminate]).
    destruct (manager_zip order [(name, frames)] columns templates pivot filters win) as (ds & E & Hl & Hn).
    { intros tr t [<-|[]] It. unfold templates in It. rewrite map_map in It. apply in_map_iff in It as (x & <- & Ix).
      destruct (signal_known x Ix) as (a & Ia & Ea & Na). rewrite Ea. split; [now apply name_plain|]. destruct (TABLES _ _ Ia) as (fr & G & _). cbn [snd].
      apply (PyStrFacts.dget_In eqs eqs_eq) in G. now apply (in_map fst) in G. }
    { cbn [List.length]. right. reflexivity. }
    { cbn [List.length]. left. lia. }
    { cbn [List.length]. left. lia. }
    cbn [List.length] in *. replace (Nat.max 1 (Nat.max (List.length columns) (List.length templates))) with (List.length xs) in * by lia.
    rewrite E. cbn [bind].
    assert (FD : Forall2 (fun x d => constraint_result order frames pivot (snd (fst x)) (event x) filters win = Ok (md_result d) /\ md_label d = label_of name 0 (event x) (snd (fst x))) xs ds).
    { clear E. apply F2_of_nth; [congruence|]. intros i x d Ix Id. destruct (Hn i d Id) as (tr & c & t & A & B & C & R & _ & _ & _ & Lb).
      assert (tr = (name, frames)) as ->. { apply nth_or_only_In in A as [<-|[]]. reflexivity. }
      assert (c = snd (fst x)) as ->.
      { assert (J : nth_error columns i = Some (snd (fst x))) by (unfold columns; exact (map_nth_error (fun x => snd (fst x)) _ _ Ix)). destruct B as [B|B]; [|congruence]. rewrite B in J. destruct i as [|[|i]]; cbn in J; congruence. }
      assert (t = event x) as ->.
      { assert (J : nth_error templates i = Some (event x)) by (unfold templates; rewrite map_map; exact (map_nth_error (fun x => given_name (fst (fst x))) _ _ Ix)). destruct C as [C|C]; [|congruence]. rewrite C in J. destruct i as [|[|i]]; cbn in J; congruence. }
      cbn [fst snd] in *. split; [exact R|]. unfold constraint_labels in Lb. rewrite (map_nth_error md_label _ _ Id) in Lb.
      assert (Hi : (if Nat.eqb 1 (List.length xs) then i else 0) = 0).
      { destruct (Nat.eqb 1 (List.length xs)) eqn:E1; [|reflexivity]. apply Nat.eqb_eq in E1. assert (i < List.length xs) by (apply nth_error_Some; congruence). lia. }
      rewrite Hi in Lb. congruence. }
    exists ds. clear Hn Hl.
    assert (G : forall l ds', Forall2 (fun x d => constraint_result order frames pivot (snd (fst x)) (event x) filters win = Ok (md_result d) /\ md_label d = label_of name 0 (event x) (snd (fst x))) l ds' ->
      (forall x, In x l -> In x xs) -> exists cs, mapM con_of ds' = Ok cs /\ Forall2 is_con l cs /\ Forall2 has_keys ds' cs).
    { clear FD. intros l ds' FD. induction FD as [|x d l ds' [R Lb] _ IH]; intros All; [exists []; split; [reflexivity|split; constructor]|].
      destruct IH as (cs & E1 & E2 & E3); [intros y Iy; apply All; now right|].
      destruct (signal_result x (All x (or_introl eq_refl))) as (r & r' & Er & En & ND & K & M). rewrite R in Er. injection Er as Er.
      exists (Con (md_index d) (md_label d) (md_template d ++ $":" ++ md_column d) r' :: cs). cbn [mapM]. unfold con_of at 1. rewrite Er, En. cbn [bind]. rewrite E1. split; [reflexivity|].
      split; constructor; auto; [split; [exact Lb|split; [exact ND|exact M]]|]. unfold has_keys. cbn [c_result]. now rewrite Er. }
    destruct (G xs ds FD (fun x I => I)) as (cs & E1 & E2 & E3). exists cs. split; [reflexivity|]. auto.
  Qed.

  Lemma pivots_ok ds cs : Forall2 is_con xs cs -> Forall2 has_keys ds cs -> forall v, In v (manager_pivots order ds) <-> exists x s, In x xs /\ curve x v s.
  Proof.
    intros FC FK v. rewrite (proj1 (proj2 (manager_pivots_ok order ds ORDER)) v). split.
    - intros (d & s & Id & Is). destruct (F2_in_l _ _ _ _ FK Id) as (c & Ic & K). destruct (F2_in_r _ _ _ _ FC Ic) as (x & Ix & _ & _ & M).
      apply (in_map fst) in Is. rewrite <- K in Is. apply in_map_iff in Is as ([v' s'] & [= ->] & Is). exists x, s'. split; [exact Ix|]. now apply M.
    - intros (x & s & Ix & C). destruct (F2_in_l _ _ _ _ FC Ix) as (c & Ic & _ & _ & M). destruct (F2_in_r _ _ _ _ FK Ic) as (d & Id & K). apply M in C.
      apply (in_map (fun x => Some (fst x))) in C. rewrite K in C. apply in_map_iff in C as ([v' s'] & E & I). cbn [fst] in E. subst v'. eauto.
  Qed.
  Lemma con_get x c v s : is_con x c -> (dget cell_eqb v (c_result c) = Some s <-> curve x v s).
  Proof.
    intros (_ & ND & M). rewrite <- M. split; [apply (PyStrFacts.dget_In cell_eqb cell_eqb_eq)|now apply (PyStrFacts.In_dget cell_eqb cell_eqb_eq)].
  Qed.
  Lemma con_miss x c v : is_con x c -> dget cell_eqb v (c_result c) = None -> forall s, ~ curve x v s.
  Proof. intros C E s K. apply (con_get x c v s C) in K. congruence. Qed.
  Lemma pairs_drawn v l cs : Forall2 is_con l cs -> Drawn (fun x s => curve x v s) (fun x => label_of name 0 (event x) (snd (fst x))) l (pairs_of cell_eqb c_str c_result v cs).
  Proof.
    induction 1 as [|x c l cs H _ IH]; [constructor|]. unfold pairs_of. cbn [flat_map]. fold (pairs_of cell_eqb c_str c_result v cs).
    destruct (dget cell_eqb v (c_result c)) as [s|] eqn:E; cbn [app]; [|apply drawn_none; [exact (con_miss x c v H E)|exact IH]].
    rewrite (proj1 H). exact (drawn_curve (fun x s => curve x v s) (fun x => label_of name 0 (event x) (snd (fst x))) x l s _ (proj1 (con_get x c v s H) E) IH).
  Qed.
  Lemma own_drawn key x c vs : is_con x c -> Drawn (fun v s => curve x v s) key vs (own_pairs cell_eqb key (c_result c) vs).
  Proof.
    intros H. induction vs as [|v vs IH]; [constructor|]. unfold own_pairs. cbn [flat_map]. fold (own_pairs cell_eqb key (c_result c) vs).
    destruct (dget cell_eqb v (c_result c)) as [s|] eqn:E; cbn [app]; [|apply drawn_none; [exact (con_miss x c v H E)|exact IH]].
    exact (drawn_curve (fun v s => curve x v s) key v vs s _ (proj1 (con_get x c v s H) E) IH).
  Qed.
  Lemma drawn_same {X} (cv : X -> list (Qc * option Q) -> Prop) key l ps : Drawn cv key l ps -> (forall x s, In x l -> cv x s -> StronglySorted (lt time_leb) (map fst s)) ->
    Forall (fun x => dedup_times (map fst (snd x)) = map fst (snd x)) ps.
  Proof.
    induction 1 as [|x l s ps C _ IH|x l ps C _ IH]; intros H; [constructor| |]; [constructor; [apply dedup_sorted, (H x s); [now left|exact C]|]|]; apply IH; intros y s' I; apply H; now right.
  Qed.
  Lemma all_good cs : Forall2 is_con xs cs -> AllGood time_leb dedup_times cs.
  Proof.
    intros FC c p s Ic Is. destruct (F2_in_r _ _ _ _ FC Ic) as (x & Ix & _ & _ & M). apply M in Is. assert (S := curve_sorted x p s Ix Is).
    unfold Good. rewrite (dedup_sorted _ S). split; [exact S|apply map_length].
  Qed.

  Context {F : Type} (uuid : nat -> F) (draw : option str) (label : cell -> str) (max per_line : Z) (title : option str).
  Notation heading v := (if cell_eqb v (CStr PIVOT_VAL) then [] else pivot ++ $": " ++ label v).
  Lemma view_ok : xs <> [] -> exists pivots fs,
    NoDup pivots /\ (forall v, In v pivots <-> exists x s, In x xs /\ curve x v s) /\
    ((forall v, In v pivots -> exists z, v = CInt z) -> StronglySorted (fun a b => exists y z, a = CInt y /\ b = CInt z /\ (y <= z)%Z) pivots) /\
    List.length fs = List.length pivots /\
    (forall i v ft, nth_error pivots i = Some v -> nth_error fs i = Some ft -> exists pairs,
       Drawn (fun x s => curve x v s) (fun x => label_of name 0 (event x) (snd (fst x))) xs pairs /\ PlotOf time_leb (fun l => l) draw pairs (heading v) ft) /\
    line_view order uuid [(name, defs, frames)] sigs pivot filters win false draw label max per_line title = page uuid max per_line title fs.
  Proof.
    intros NE. destruct (cons_ok NE) as (ds & cs & E & Ec & FC & FK). exists (manager_pivots order ds).
    destruct (plot_page time_leb dedup_times time_order cell_eqb (CStr PIVOT_VAL) uuid draw pivot label cs (manager_pivots order ds) max per_line title (all_good cs FC)) as (fs & Hl & Hp & Hv).
    exists fs. destruct (manager_pivots_ok order ds ORDER) as (P1 & _ & P3). split; [exact P1|]. split; [exact (pivots_ok ds cs FC FK)|]. split; [exact P3|]. split; [exact Hl|]. split.
    - intros i v ft Iv If. exists (pairs_of cell_eqb c_str c_result v cs). assert (D := pairs_drawn v xs cs FC). split; [exact D|].
      apply (plot_same time_leb dedup_times); [|exact (Hp i v ft Iv If)]. apply (drawn_same _ _ _ _ D). intros x s Ix C. exact (curve_sorted x v s Ix C).
    - unfold line_view. rewrite E. cbn [bind fst snd]. rewrite Ec. cbn [bind]. exact Hv.
  Qed.
  Lemma concat_ok : xs <> [] -> exists pivots fs,
    NoDup pivots /\ (forall v, In v pivots <-> exists x s, In x xs /\ curve x v s) /\
    ((forall v, In v pivots -> exists z, v = CInt z) -> StronglySorted (fun a b => exists y z, a = CInt y /\ b = CInt z /\ (y <= z)%Z) pivots) /\
    List.length fs = List.length xs /\
    (forall i x ft, nth_error xs i = Some x -> nth_error fs i = Some ft -> exists pairs,
       Drawn (fun v s => curve x v s) (fun v => if cell_eqb v (CStr PIVOT_VAL) then join $"," (map (fun x => snd (fst x)) xs) else pivot ++ $": " ++ label v) pivots pairs /\
       PlotOf time_leb (fun l => l) draw pairs (label_of name 0 (event x) (snd (fst x))) ft) /\
    line_view order uuid [(name, defs, frames)] sigs pivot filters win true draw label max per_line title = page uuid max per_line title fs.
  Proof.
    intros NE. destruct (cons_ok NE) as (ds & cs & E & Ec & FC & FK). exists (manager_pivots order ds).
    destruct (concat_page time_leb dedup_times time_order cell_eqb (CStr PIVOT_VAL) uuid draw (map (fun x => snd (fst x)) xs) pivot label cs (manager_pivots order ds) max per_line title (all_good cs FC)) as (fs & Hl & Hp & Hv).
    exists fs. destruct (manager_pivots_ok order ds ORDER) as (P1 & _ & P3). split; [exact P1|]. split; [exact (pivots_ok ds cs FC FK)|]. split; [exact P3|].
    split; [rewrite Hl; symmetry; exact (F2_length _ _ _ FC)|]. split.
    - intros i x ft Ix If. destruct (F2_nth _ _ _ (F2_flip _ _ _ FC) i x Ix) as (c & Ic & H).
      eexists. assert (D := own_drawn (fun v => if cell_eqb v (CStr PIVOT_VAL) then join $"," (map (fun x => snd (fst x)) xs) else pivot ++ $": " ++ label v) x c (manager_pivots order ds) H). split; [exact D|].
      assert (Q := Hp i c ft Ic If). rewrite (proj1 H) in Q.
      apply (plot_same time_leb dedup_times); [|exact Q]. apply (drawn_same _ _ _ _ D). intros v s _ C. exact (curve_sorted x v s (nth_error_In _ _ Ix) C).
    - unfold line_view. rewrite E. cbn [bind fst snd]. rewrite Ec. cbn [bind]. exact Hv.
  Qed.
End View.
Lemma view_rejects order (F : Type) (uuid : nat -> F) (traces : list ltrace) sigs pivot filters win concat draw label max per_line title :
  (forall xs, ~ Forall2 (Means (map (fun t => snd (fst t)) traces)) sigs xs) ->
  line_view order uuid traces sigs pivot filters win concat draw label max per_line title = Err EValue.
Proof.
  intros H. unfold line_view, line_constraints. destruct (describe false (map (fun t => snd (fst t)) traces) sigs) as [[[ts columns] colours]|e] eqn:E.
  - apply describe_ok in E as (_ & xs & F' & _). now apply H in F'.
  - rewrite (describe_err _ _ _ _ E). reflexivity.
Qed.
