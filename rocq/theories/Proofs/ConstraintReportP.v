(** Constraints over a written report. *)
From Coq Require Import List Ascii String ZArith NArith QArith Qcanon Bool Sorted Permutation Lia.
From Verif Require Import Lib.PyStr Lib.PyStrFacts Lib.TotalOrder Lib.F64 Model.Base Model.Line Model.Registry Model.Populate Model.Window Model.Cache Model.Files
  Model.Tasks Model.Stats Model.Accessor Model.Solve Model.Constraint Model.ILine Model.Events Model.Classes Model.ConstraintReport Spec.Accessor Spec.Constraint
  Spec.Lines Spec.Payload Spec.Arrays Spec.Parts Spec.Trace Spec.Interval Spec.Written Spec.Events Spec.Classes Spec.Solve Spec.ConstraintReport
  Proofs.TasksP Proofs.AccessorP Proofs.ConstraintP Proofs.ManagerP Proofs.SyncP Proofs.SolveP Proofs.SolveQ.
Import ListNotations.
Local Open Scope nat_scope.
Local Open Scope list_scope.

(** ** Colons *)
Lemma drop_first (p : ascii -> bool) s : (forall x r, s = x :: r -> p x = false) -> drop_while p s = s.
Proof. destruct s as [|x s]; [reflexivity|]. intros H. cbn [drop_while]. now rewrite (H x s eq_refl). Qed.
Lemma decolonize_plain s : no_colon_ends s -> decolonize s = s.
Proof.
  intros H. unfold decolonize. rewrite (drop_first _ s).
  - rewrite drop_first; [apply rev_involutive|]. intros x r E. destruct (Ascii.eqb x ":") eqn:C; auto. apply Ascii.eqb_eq in C. subst x.
    apply (f_equal (@rev ascii)) in E. rewrite rev_involutive in E. cbn [rev] in E. now destruct (H (rev r)) as [_ N].
  - intros x r ->. destruct (Ascii.eqb x ":") eqn:C; auto. apply Ascii.eqb_eq in C. subst x. now destruct (H r) as [N _].
Qed.
Lemma decolonize_ends s : no_colon_ends (decolonize s).
Proof.
  assert (A : forall (p : ascii -> bool) s x r, drop_while p s = x :: r -> p x = false).
  { intros p. induction s0 as [|y s0 IH]; intros x r; cbn [drop_while]; [discriminate|]. destruct (p y) eqn:E; [apply IH|]. now intros [= -> _]. }
  assert (B : forall (p : ascii -> bool) s, exists q, s = q ++ drop_while p s).
  { intros p. induction s0 as [|y s0 [q IH]]; [now exists []|]. cbn [drop_while]. destruct (p y); [exists (y :: q); cbn [app]; congruence|now exists []]. }
  intros r. unfold decolonize. set (colon := fun x => Ascii.eqb x ":"). split; intros E.
  - destruct (B colon (rev (drop_while colon s))) as (q & Eq). apply (f_equal (@rev ascii)) in Eq. rewrite rev_involutive, rev_app_distr, E in Eq.
    cbn [app] in Eq. apply A in Eq. discriminate.
  - apply (f_equal (@rev ascii)) in E. rewrite rev_involutive, rev_app_distr in E. cbn [rev app] in E. apply A in E. discriminate.
Qed.

(** ** Choosing *)
Lemma only_two {A B} (P : A -> Prop) (Q : B -> Prop) (R : A -> B -> Prop) ms rows sel :
  (forall m r, In m ms -> R m r -> (P m <-> Q r)) -> Forall2 R ms rows -> Only Q rows sel -> exists ms', Only P ms ms' /\ Forall2 R ms' sel.
Proof.
  intros H F. revert sel. induction F as [|m r ms rows Hr _ IH]; intros sel O; inversion O as [|? ? sel' Hk O1|? ? sel' Hk O1]; subst.
  - exists []. split; constructor.
  - destruct (IH (fun m r I => H m r (or_intror I)) _ O1) as (rs & O' & F'). exists (m :: rs). split; [|now constructor].
    apply O_keep; auto. apply (H m r); auto. now left.
  - destruct (IH (fun m r I => H m r (or_intror I)) _ O1) as (rs & O' & F'). exists rs. split; auto.
    apply O_drop; auto. intros K. apply Hk. apply (H m r); auto. now left.
Qed.
Lemma only_both {A} (P Q : A -> Prop) l l1 : Only P l l1 -> forall l2, Only Q l1 l2 <-> Only (fun x => P x /\ Q x) l l2.
Proof.
  induction 1 as [|a l l1 Ha _ IH|a l l1 Ha _ IH]; intros l2.
  - split; intros O; inversion O; constructor.
  - split; intros O; inversion O as [|? ? l3 Hk O1|? ? l3 Hk O1]; subst.
    + apply O_keep; auto. now apply IH.
    + apply O_drop; [tauto|now apply IH].
    + apply O_keep; [tauto|now apply IH].
    + apply O_drop; [tauto|now apply IH].
  - rewrite IH. split; intros O.
    + apply O_drop; [tauto|auto].
    + inversion O as [|? ? l3 Hk O1|? ? l3 Hk O1]; subst; [tauto|auto].
Qed.
Lemma only_iff {A} (P Q : A -> Prop) l l1 : (forall x, In x l -> (P x <-> Q x)) -> Only P l l1 -> Only Q l l1.
Proof.
  intros H O. induction O as [|a l l1 Ha _ IH|a l l1 Ha _ IH]; constructor; try (apply IH; intros x I; apply H; now right); try (now apply (H a (or_introl eq_refl))).
  intros K. apply Ha. now apply (H a (or_introl eq_refl)).
Qed.
Lemma only_none {A} (P : A -> Prop) l : (forall x, In x l -> ~ P x) -> Only P l [].
Proof. induction l as [|a l IH]; intros H; constructor; [apply H; now left|apply IH; intros x I; apply H; now right]. Qed.
Lemma F2_length {A B} (R : A -> B -> Prop) l l' : Forall2 R l l' -> List.length l = List.length l'.
Proof. induction 1; cbn; congruence. Qed.
Lemma F2_flip {A B} (R : A -> B -> Prop) l l' : Forall2 R l l' -> Forall2 (fun b a => R a b) l' l.
Proof. induction 1; constructor; auto. Qed.
Lemma F2_in_l {A B} (R : A -> B -> Prop) l l' x : Forall2 R l l' -> In x l -> exists y, In y l' /\ R x y.
Proof. induction 1 as [|a b l l' H _ IH]; [intros []|]. intros [<-|I]; [exists b; split; [now left|auto]|]. destruct (IH I) as (y & ? & ?). exists y. split; auto. now right. Qed.
Lemma F2_in_r {A B} (R : A -> B -> Prop) l l' y : Forall2 R l l' -> In y l' -> exists x, In x l /\ R x y.
Proof. induction 1 as [|a b l l' H _ IH]; [intros []|]. intros [<-|I]; [exists a; split; [now left|auto]|]. destruct (IH I) as (x & ? & ?). exists x. split; auto. now right. Qed.

Section Table.
  Context (c : columns) (L : str -> nat) (shift : F64.float -> F64.float) (ms : list mark) (fr : frame).
  Hypothesis ROWS : Forall2 (row_shows c L shift) ms fr.
  Hypothesis SORTED : StronglySorted (fun x y => (time (shift (m_time x)) <= time (shift (m_time y)))%Qc) ms.
  Notation at_ := (fun m => time (shift (m_time m))).
  Notation rows := (g_rows (gframe_of fr)).
  Notation cols := (g_cols (gframe_of fr)).
  Definition shows (m : mark) (r : Qc * list (str * option cell)) : Prop :=
    fst r = at_ m /\ forall col v, gcell col r = Some v <-> CellIn c L m col v.
  Lemma rows_show : Forall2 shows ms rows.
  Proof.
    cbn [gframe_of g_rows]. clear SORTED. assert (F := ROWS). clear ROWS. induction F as [|m r l l' Hr _ IH]; cbn [map]; constructor; [|exact IH].
    split; [exact (f_equal time (proj1 Hr))|]. intros col v. exact (row_gcell _ _ _ _ _ col v Hr).
  Qed.
  Lemma has_iff col : In col cols <-> Has c L ms col.
  Proof. exact (frame_has _ _ _ _ _ col ROWS). Qed.
  Lemma rows_sorted : StronglySorted (fun x y => time_leb x y = true) (map fst rows).
  Proof.
    rewrite (times_eq shift c L ms fr ROWS). assert (S := SORTED). clear - S. induction S as [|m l _ IH F]; cbn [map]; constructor; [exact IH|].
    apply Forall_forall. intros t I. apply in_map_iff in I as (x & <- & I). rewrite Forall_forall in F. apply time_leb_iff. now apply F.
  Qed.
  (** The window. *)
  Definition Inside (win : option (Qc * Qc)) (r : Qc * list (str * option cell)) : Prop :=
    match win with
    | None => True
    | Some (a, b) => (exists r', In r' rows /\ time_leb (fst r') a = true) /\ In_window time_leb a b rows r
    end.
  Lemma window_inside win : Only (Inside win) rows (window_rows time_leb win rows).
  Proof.
    destruct win as [[a b]|].
    - destruct (existsb (fun r => time_leb (fst r) a) rows) eqn:E.
      + assert (X := E). apply existsb_exists in X. apply (only_iff (In_window time_leb a b rows)); [|exact (window_ok time_leb time_order a b rows rows_sorted X)].
        intros r _. cbn [Inside]. tauto.
      + assert (N : forall r, In r rows -> ~ time_leb (fst r) a = true).
        { intros r I K. assert (existsb (fun r => time_leb (fst r) a) rows = true) as E' by (apply existsb_exists; now exists r). congruence. }
        rewrite (window_early time_leb time_order a b rows rows_sorted N). apply only_none. intros r _ [(r' & I & K) _]. now apply (N r').
    - cbn [window_rows]. assert (A : forall l : list (Qc * list (str * option cell)), Only (Inside None) l l) by (induction l; constructor; auto; exact I). apply A.
  Qed.
  Lemma inside_iff win m r : shows m r -> (Inside win r <-> In_plot_window shift win ms m).
  Proof.
    intros [Et _]. destruct win as [[a b]|]; [|tauto]. cbn [Inside In_plot_window]. unfold In_window. rewrite Et. assert (F := rows_show). split.
    - intros ((r' & I & K) & A & B). split; [|split].
      + destruct (F2_in_r _ _ _ _ F I) as (m' & I' & [E' _]). exists m'. split; auto. rewrite <- E'. now apply time_leb_iff.
      + intros m' I' K'. destruct (F2_in_l _ _ _ _ F I') as (x & Ix & [E' _]). rewrite <- E' in K' |- *. apply time_leb_iff. apply (A x Ix). now apply time_leb_iff.
      + intros m' I' K'. destruct (F2_in_l _ _ _ _ F I') as (x & Ix & [E' _]). rewrite <- E' in K' |- *. apply time_leb_iff. apply (B x Ix). now apply time_leb_iff.
    - intros ((m' & I & K) & A & B). split; [|split].
      + destruct (F2_in_l _ _ _ _ F I) as (r' & I' & [E' _]). exists r'. split; auto. rewrite E'. now apply time_leb_iff.
      + intros x Ix K'. destruct (F2_in_r _ _ _ _ F Ix) as (y & I' & [E' _]). rewrite E' in K' |- *. apply time_leb_iff. apply (A y I'). now apply time_leb_iff.
      + intros x Ix K'. destruct (F2_in_r _ _ _ _ F Ix) as (y & I' & [E' _]). rewrite E' in K' |- *. apply time_leb_iff. apply (B y I'). now apply time_leb_iff.
  Qed.
  Lemma wanted_iff filters m r : shows m r -> (Spec.Constraint.Wanted filters cols r <->
    forall col wanted, In (col, wanted) filters -> Has c L ms col -> exists v, CellIn c L m col v /\ In v wanted).
  Proof.
    intros [_ H]. unfold Spec.Constraint.Wanted. split; intros G col wanted I K; destruct (G col wanted I (proj2 (has_iff col) K)) as (v & Hv & J) || destruct (G col wanted I (proj1 (has_iff col) K)) as (v & Hv & J);
      exists v; split; auto; now apply H.
  Qed.
  Lemma column_series (P : mark -> Prop) (Q : Qc * list (str * option cell) -> Prop) win col s :
    (forall m r, shows m r -> (P m <-> Inside win r /\ Q r)) ->
    (Column Q col (window_rows time_leb win rows) s <-> Series c L shift P col ms s).
  Proof.
    intros H. assert (F := rows_show). split.
    - intros (sel & O & ->). apply (proj1 (only_both _ _ _ _ (window_inside win) sel)) in O.
      destruct (only_two P _ shows _ _ _ (fun m r _ => H m r) F O) as (ms' & O' & F'). exists ms'. split; auto. clear - F'.
      induction F' as [|m r l l' [E C] _ IH]; cbn [map]; constructor; auto. split; [exact E|exact (C col)].
    - intros (ms' & O & Fp).
      destruct (only_two (fun r => Inside win r /\ Q r) P (fun r m => shows m r) _ _ _ (fun r m _ S => iff_sym (H m r S)) (F2_flip _ _ _ F) O) as (sel & O' & F').
      exists sel. split; [apply (proj2 (only_both _ _ _ _ (window_inside win) sel)); exact O'|].
      clear - Fp F'. revert s Fp. induction F' as [|r m l l' [E C] _ IH]; intros s Fp; inversion Fp as [|? [t x] ? s' [E1 E2] Fp']; subst; [reflexivity|]. cbn [map]. f_equal; [|now apply IH].
      cbn [fst snd] in *. f_equal; [congruence|]. destruct (gcell col r) as [v|] eqn:G.
      + now apply E2, C.
      + destruct x as [v|]; auto. assert (gcell col r = Some v) by now apply C, E2. congruence.
  Qed.
End Table.

Section Report.
  Context (order : list (option cell) -> list (option cell)).
  Hypothesis ORDER : Enumerates order.
  Context (c : columns) (L : str -> nat) (shift : F64.float -> F64.float) (ms : list mark) (fr : frame) (frames : list (str * frame)) (a : str).
  Hypothesis HERE : dget eqs a frames = Some fr.
  Hypothesis PLAIN : no_colon_ends a.
  Hypothesis ROWS : Forall2 (row_shows c L shift) ms fr.
  Hypothesis SORTED : StronglySorted (fun x y => (time (shift (m_time x)) <= time (shift (m_time y)))%Qc) ms.
  Notation cols := (g_cols (gframe_of fr)).
  Lemma populate_here : populate frames a = Ok (gframe_of fr).
  Proof. unfold populate. now rewrite (decolonize_plain a PLAIN), HERE. Qed.
  Lemma pivot_vals_ok p filters f : In p (g_cols f) ->
    (forall v, In (Some v) (pivot_vals order p filters f) <-> is_pivot_val cell_eqb p filters f (Some v)) /\ NoDup (present (pivot_vals order p filters f)).
  Proof.
    intros Hp. unfold pivot_vals. rewrite (proj2 (has_col_In p (g_cols f)) Hp). split.
    - intros v. rewrite (proj1 (ORDER _)), filter_In. unfold is_pivot_val. destruct (dget eqs p filters); tauto.
    - exact (proj2 (ORDER _)).
  Qed.
  Lemma result_series p col filters win : p <> PIVOT -> NoDup (map fst filters) -> (forall m, In m ms -> ~ CellIn c L m p (CStr PIVOT_VAL)) ->
    exists r, constraint_result order frames p col a filters win = Ok r /\ NoDup (map fst r) /\
      forall v s, In (v, s) r <-> exists u, v = Some u /\ s <> [] /\ Has c L ms col /\
        Series c L shift (fun m => Plotted c L shift win filters ms m /\ CellIn c L m p u) col ms s.
  Proof.
    intros Hp Hd Hf. unfold constraint_result. rewrite populate_here. cbn [bind].
    destruct (eqs p PIVOT) eqn:Ep; [apply eqs_eq in Ep; congruence|]. eexists. split; [reflexivity|].
    set (data := GFrame cols (window_rows time_leb win (g_rows (gframe_of fr)))).
    destruct (in_dec (list_eq_dec ascii_dec) col cols) as [Ic|Nc].
    2: { rewrite (apply_no_column cell_eqb (CStr PIVOT_VAL) col (Some p) filters data _ Nc). split; [constructor|]. intros v s. split; [intros []|].
         intros (u & _ & _ & Hh & _). elim Nc. now apply (has_iff c L shift ms fr ROWS). }
    destruct (in_dec (list_eq_dec ascii_dec) p cols) as [Ip|Np].
    2: { assert (E : pivot_vals order p filters data = []).
         { unfold pivot_vals. destruct (has_col p (g_cols data)) eqn:E; auto. apply has_col_In in E. now apply Np in E. }
         rewrite E. unfold apply_. rewrite (proj2 (has_col_In col (g_cols data)) Ic). cbn [flat_map]. split; [constructor|].
         intros v s. split; [intros []|]. intros (u & _ & Hs & _ & sel & O & F). destruct sel as [|m sel]; [inversion F; congruence|].
         destruct (proj1 (only_sub _ _ _ O m) (or_introl eq_refl)) as [Im [_ Hm]]. elim Np. apply (has_iff c L shift ms fr ROWS). now exists m, u. }
    destruct (pivot_vals_ok p filters data Ip) as [Po Pn].
    destruct (apply_keys cell_eqb (CStr PIVOT_VAL) col p filters data _ Ic Pn) as [K1 K2]. split; [exact K1|].
    assert (Df : forall r, In r (g_rows data) -> gcell p r <> Some (CStr PIVOT_VAL)).
    { intros r I E. apply (proj1 (only_sub _ _ _ (window_inside c L shift ms fr ROWS SORTED win) r)) in I as [I _].
      destruct (F2_in_r _ _ _ _ (rows_show c L shift ms fr ROWS) I) as (m & Im & [_ Hm]). apply Hm in E. now apply (Hf m Im). }
    assert (Se := apply_series cell_eqb (CStr PIVOT_VAL) cell_eqb_eq col p filters data _ Ic Ip Hd Po Df).
    assert (Co : forall u s, Column (Mine p u filters cols) col (g_rows data) s <->
      Series c L shift (fun m => Plotted c L shift win filters ms m /\ CellIn c L m p u) col ms s).
    { intros u s. apply (column_series c L shift ms fr ROWS SORTED). intros m r S. unfold Mine, Plotted.
      rewrite (inside_iff c L shift ms fr ROWS win m r S), (wanted_iff c L shift ms fr ROWS filters m r S), (proj2 S p u). tauto. }
    intros v s. split.
    - intros I. destruct v as [u|]; [|now apply K2 in I]. apply Se in I as [Hc Hs]. exists u. split; auto. split; auto.
      split; [now apply (has_iff c L shift ms fr ROWS)|now apply Co].
    - intros (u & -> & Hs & _ & Hc). apply Se. split; auto. now apply Co.
  Qed.
  Lemma result_default col filters win : exists r s, constraint_result order frames PIVOT col a filters win = Ok r /\
    Series c L shift (Plotted c L shift win filters ms) col ms s /\
    (Has c L ms col -> r = match s with [] => [] | _ => [(Some (CStr PIVOT_VAL), s)] end) /\ (~ Has c L ms col -> r = []).
  Proof.
    unfold constraint_result. rewrite populate_here. cbn [bind]. rewrite eqs_refl.
    set (data := GFrame cols (window_rows time_leb win (g_rows (gframe_of fr)))).
    eexists. exists (column_of col (filter (meets cell_eqb None filters data) (g_rows data))). split; [reflexivity|].
    assert (Hc : Column (Spec.Constraint.Wanted filters cols) col (g_rows data) (column_of col (filter (meets cell_eqb None filters data) (g_rows data)))).
    { apply (column_only _ (meets cell_eqb None filters data)); auto. intros r _. exact (meets_none cell_eqb cell_eqb_eq filters data r). }
    split; [|split].
    - revert Hc. apply (column_series c L shift ms fr ROWS SORTED). intros m r S. unfold Plotted.
      now rewrite (inside_iff c L shift ms fr ROWS win m r S), (wanted_iff c L shift ms fr ROWS filters m r S).
    - intros Hh. apply (apply_default cell_eqb (CStr PIVOT_VAL) cell_eqb_eq col filters data [] _); auto. now apply (has_iff c L shift ms fr ROWS).
    - intros Hh. apply apply_no_column. intros I. apply Hh. now apply (has_iff c L shift ms fr ROWS).
  Qed.
End Report.

(** ** Colons around a name *)
Lemma drop_all (x : ascii) n s : drop_while (fun y => Ascii.eqb y x) (repeat x n ++ s) = drop_while (fun y => Ascii.eqb y x) s.
Proof. induction n as [|n IH]; [reflexivity|]. cbn [repeat app drop_while]. now rewrite Ascii.eqb_refl. Qed.
Lemma rev_repeat {A} (x : A) n : rev (repeat x n) = repeat x n.
Proof. induction n as [|n IH]; [reflexivity|]. cbn [repeat rev]. rewrite IH. symmetry. apply repeat_cons. Qed.
Lemma decolonize_around a i j : no_colon_ends a -> decolonize (repeat ":"%char i ++ a ++ repeat ":"%char j) = a.
Proof.
  intros H. unfold decolonize. rewrite drop_all. destruct a as [|x a].
  - cbn [app]. replace (repeat ":"%char j) with (repeat ":"%char j ++ []) by apply app_nil_r. rewrite drop_all. reflexivity.
  - assert (Ex : Ascii.eqb x ":" = false).
    { destruct (Ascii.eqb x ":") eqn:E; auto. apply Ascii.eqb_eq in E. subst x. now destruct (H a) as [N _]. }
    cbn [app drop_while]. rewrite Ex. rewrite app_comm_cons, rev_app_distr, rev_repeat, drop_all. rewrite drop_first; [apply rev_involutive|].
    intros y r E. destruct (Ascii.eqb y ":") eqn:C; auto. apply Ascii.eqb_eq in C. subst y.
    apply (f_equal (@rev ascii)) in E. rewrite rev_involutive in E. cbn [rev] in E. now destruct (H (rev r)) as [_ N].
Qed.
Lemma decolonize_shape s : exists i j, s = repeat ":"%char i ++ decolonize s ++ repeat ":"%char j.
Proof.
  assert (B : forall s, exists n, s = repeat ":"%char n ++ drop_while (fun y => Ascii.eqb y ":") s).
  { induction s0 as [|y s0 [n IH]]; [now exists 0|]. cbn [drop_while]. destruct (Ascii.eqb y ":") eqn:E; [|now exists 0].
    apply Ascii.eqb_eq in E. subst y. exists (S n). cbn [repeat app]. congruence. }
  destruct (B s) as (i & Ei). destruct (B (rev (drop_while (fun y => Ascii.eqb y ":") s))) as (j & Ej).
  apply (f_equal (@rev ascii)) in Ej. rewrite rev_involutive, rev_app_distr, rev_repeat in Ej. exists i, j. unfold decolonize. now rewrite <- Ej.
Qed.
Lemma result_colons order frames p col a i j filters win : no_colon_ends a ->
  constraint_result order frames p col (repeat ":"%char i ++ a ++ repeat ":"%char j) filters win = constraint_result order frames p col a filters win.
Proof. intros H. unfold constraint_result, populate. now rewrite decolonize_around, (decolonize_plain a H). Qed.
Lemma result_missing order frames p col t filters win : (forall i j n, In n (map fst frames) -> no_colon_ends n -> t <> repeat ":"%char i ++ n ++ repeat ":"%char j) ->
  constraint_result order frames p col t filters win = Err EAttribute.
Proof.
  intros H. unfold constraint_result, populate. destruct (dget eqs (decolonize t) frames) as [f|] eqn:E; [|reflexivity].
  apply (dget_In eqs eqs_eq) in E. apply (in_map fst) in E. destruct (decolonize_shape t) as (i & j & Et). elim (H i j (decolonize t) E); auto. apply decolonize_ends.
Qed.

(** ** All constraints *)
Section All.
  Context (order : list (option cell) -> list (option cell)) (traces : list (str * list (str * frame))) (columns templates : list str)
          (pivot : str) (filters : list (str * list cell)) (win : option (Qc * Qc)).
  Lemma label_ok name k template column : constraint_str (Some name) k template column = label_of name k template column.
  Proof. unfold constraint_str, label_of, data_name. destruct name; destruct (list_eq_dec ascii_dec _ []); congruence. Qed.
  Hypothesis FOUND : forall tr t, In tr traces -> In t templates -> no_colon_ends t /\ In t (map fst (snd tr)).
  Definition is_made (x : str * list (str * frame) * str * str * nat) (d : made) : Prop :=
    let '(tr, column, template, k) := x in
    constraint_result order (snd tr) pivot column template filters win = Ok (md_result d) /\ md_column d = column /\ md_label d = label_of (fst tr) k template column /\ md_index d = k /\ md_template d = template.
  Lemma makes xs : (forall tr c t k, In (tr, c, t, k) xs -> In tr traces /\ In t templates) ->
    exists cs, mapM (make_constraint order pivot filters win) xs = Ok cs /\ Forall2 is_made xs cs.
  Proof.
    induction xs as [|x xs IH]; intros H; [exists []; split; [reflexivity|constructor]|].
    destruct IH as (cs & E & F); [intros tr c t k I; apply (H tr c t k); now right|].
    destruct x as [[[tr c] t] k]. destruct (H tr c t k (or_introl eq_refl)) as [It Im]. destruct (FOUND tr t It Im) as [Np In_].
    destruct (dget eqs t (snd tr)) as [f|] eqn:G; [|apply (dget_None eqs eqs_eq) in G; now apply G in In_].
    assert (exists r, constraint_result order (snd tr) pivot c t filters win = Ok r) as (r & Er).
    { unfold constraint_result, populate. rewrite (decolonize_plain t Np), G. cbn [bind]. eauto. }
    exists (Made k t (constraint_str (Some (fst tr)) k t c) c r :: cs). cbn [mapM]. unfold make_constraint at 1. rewrite Er. cbn [bind]. rewrite E. split; [reflexivity|].
    constructor; auto. split; [exact Er|]. split; [reflexivity|]. split; [apply label_ok|split; reflexivity].
  Qed.
  Lemma F2_nth {A B} (R : A -> B -> Prop) l l' : Forall2 R l l' -> forall i y, nth_error l' i = Some y -> exists x, nth_error l i = Some x /\ R x y.
  Proof. induction 1 as [|a b l l' H _ IH]; intros [|i] y; cbn; try discriminate; [intros [= <-]; eauto|apply IH]. Qed.
  Lemma nth_or_only_In {X} (l : list X) i x : nth_or_only l i x -> In x l.
  Proof. intros [->|H]; [now left|now apply nth_error_In in H]. Qed.
  Notation m := (Nat.max (List.length traces) (Nat.max (List.length columns) (List.length templates))).
  Notation fits := (fun n => n = m \/ n = 1).
  Lemma manager_zip : fits (List.length traces) -> fits (List.length columns) -> fits (List.length templates) ->
    exists cs, manager order traces columns templates pivot filters win true = Ok cs /\ List.length cs = m /\
      forall i d, nth_error cs i = Some d -> exists tr c t, nth_or_only traces i tr /\ nth_or_only columns i c /\ nth_or_only templates i t /\
        constraint_result order (snd tr) pivot c t filters win = Ok (md_result d) /\ md_column d = c /\ md_template d = t /\
        md_index d = (if Nat.eqb (List.length traces) m then i else 0) /\ nth_error (constraint_labels cs) i = Some (label_of (fst tr) (if Nat.eqb (List.length traces) m then i else 0) t c).
  Proof.
    intros H1 H2 H3. destruct (zip_ok traces columns templates H1 H2 H3) as (xs & E & Hl & Hn).
    destruct (makes xs) as (cs & Ec & F).
    { intros tr c t k I. apply In_nth_error in I as (i & I). destruct (Hn _ _ _ _ _ I) as (A & B & C & _). split; now apply nth_or_only_In in A + apply nth_or_only_In in C. }
    exists cs. unfold manager. rewrite E. cbn [bind]. split; [exact Ec|]. split; [rewrite <- Hl; symmetry; exact (F2_length _ _ _ F)|].
    intros i d Hd. destruct (F2_nth _ _ _ F i d Hd) as ([[[tr c] t] k] & Ix & R1 & R2 & R3 & R4 & R5). destruct (Hn _ _ _ _ _ Ix) as (A & B & C & D).
    exists tr, c, t. do 6 (split; [assumption|]). split; [congruence|]. unfold constraint_labels. rewrite (map_nth_error md_label _ _ Hd). congruence.
  Qed.
  Lemma manager_permuted : fits (List.length traces) -> fits (List.length columns) -> fits (List.length templates) ->
    exists cs, manager order traces columns templates pivot filters win false = Ok cs /\ List.length cs = m * m /\
      forall i j, i < m -> j < m -> exists d tr c t, nth_error cs (i * m + j) = Some d /\ nth_or_only traces i tr /\ nth_or_only columns j c /\ nth_or_only templates i t /\
        constraint_result order (snd tr) pivot c t filters win = Ok (md_result d) /\ md_column d = c /\ md_template d = t /\
        md_index d = i /\ nth_error (constraint_labels cs) (i * m + j) = Some (label_of (fst tr) i t c).
  Proof.
    intros H1 H2 H3. destruct (all_ok traces columns templates H1 H2 H3) as (xs & E & Hl & Hn).
    destruct (makes xs) as (cs & Ec & F).
    { intros tr c t k I. apply In_nth_error in I as (n & I). assert (Hlt : n < m * m) by (rewrite <- Hl; apply nth_error_Some; congruence).
      assert (m <> 0) by (intros Z; rewrite Z in Hlt; lia).
      destruct (Hn (n / m) (n mod m)) as (x & y & z & Ix & A & B & C); [apply Nat.div_lt_upper_bound; auto|now apply Nat.mod_upper_bound|].
      rewrite (Nat.mul_comm (n / m) m), <- Nat.div_mod, I in Ix by auto. injection Ix as <- <- <- _. split; [now apply nth_or_only_In in A|now apply nth_or_only_In in C]. }
    exists cs. unfold manager. rewrite E. cbn [bind]. split; [exact Ec|]. split; [rewrite <- Hl; symmetry; exact (F2_length _ _ _ F)|].
    intros i j Hi Hj. destruct (Hn i j Hi Hj) as (tr & c & t & Ix & A & B & C).
    destruct (nth_error cs (i * m + j)) as [d|] eqn:Hd.
    - destruct (F2_nth _ _ _ F _ _ Hd) as (x & Ix' & R). rewrite Ix in Ix'. injection Ix' as <-. destruct R as (R1 & R2 & R3 & R4 & R5).
      exists d, tr, c, t. split; [reflexivity|]. do 6 (split; [assumption|]). split; [congruence|]. unfold constraint_labels. rewrite (map_nth_error md_label _ _ Hd). congruence.
    - apply nth_error_None in Hd. rewrite <- (F2_length _ _ _ F) in Hd. assert (i * m + j < List.length xs) by (apply nth_error_Some; congruence). lia.
  Qed.
End All.
Lemma index_spec x : forall l i, index_of x l = Some i <-> nth_error l i = Some x /\ forall j, j < i -> nth_error l j <> Some x.
Proof.
  induction l as [|y l IH]; intros i; cbn [index_of].
  - split; [discriminate|]. intros [H _]. destruct i; discriminate.
  - destruct (eqs x y) eqn:E.
    + apply eqs_eq in E. subst y. split; [intros [= <-]; split; [reflexivity|intros j H; lia]|]. intros [_ H]. destruct i as [|i]; auto. elim (H 0); [lia|reflexivity].
    + assert (N : y <> x) by (intros ->; now rewrite eqs_refl in E). destruct (index_of x l) as [k|] eqn:G; cbn [option_map].
      * destruct (proj1 (IH k) eq_refl) as [A B]. split.
        -- intros [= <-]. split; auto. intros [|j] Hj; cbn; [congruence|apply B; lia].
        -- intros [H1 H2]. destruct i as [|i]; [cbn in H1; congruence|]. cbn in H1. f_equal. f_equal.
           assert (Some k = Some i) as [= ->]; auto. apply IH. split; auto. intros j Hj. apply (H2 (S j)). lia.
      * split; [discriminate|]. intros [H1 H2]. destruct i as [|i]; [cbn in H1; congruence|]. cbn in H1.
        assert (None = Some i); [|discriminate]. apply IH. split; auto. intros j Hj. apply (H2 (S j)). lia.
Qed.
Lemma present_In {V} (l : list (option V)) v : In v (present l) <-> In (Some v) l.
Proof. unfold present. rewrite in_flat_map. split; [intros ([u|] & I & J); [destruct J as [<-|[]]; auto|destruct J]|intros I; exists (Some v); split; [auto|now left]]. Qed.
Lemma manager_pivots_ok order cs : Enumerates order ->
  NoDup (manager_pivots order cs) /\ (forall v, In v (manager_pivots order cs) <-> exists d s, In d cs /\ In (Some v, s) (md_result d)) /\
  ((forall v, In v (manager_pivots order cs) -> exists z, v = CInt z) ->
   StronglySorted (fun a b => exists x y, a = CInt x /\ b = CInt y /\ (x <= y)%Z) (manager_pivots order cs)).
Proof.
  intros O. unfold manager_pivots. set (l := flat_map _ cs). assert (P := pivots_perm cell_int cell_hex cell_leb (present (order l))).
  split; [|split].
  - apply (Permutation_NoDup (Permutation_sym P)). exact (proj2 (O l)).
  - intros v. assert (In v (sorted_pivots cell_int cell_hex cell_leb (present (order l))) <-> In v (present (order l))) as ->.
    { split; apply Permutation_in; auto. now apply Permutation_sym. }
    rewrite present_In, (proj1 (O l)). unfold l. rewrite in_flat_map. split.
    + intros (d & I & J). apply in_map_iff in J as ([k s] & E & J). cbn [fst] in E. subst k. eauto.
    + intros (d & s & I & J). exists d. split; auto. now apply (in_map fst) in J.
  - intros H. assert (K : forall v, In v (present (order l)) -> exists z, v = CInt z) by (intros v I; apply H; apply (Permutation_in _ (Permutation_sym P)); auto).
    assert (S := pivots_int cell_int cell_hex cell_leb (present (order l))). 
    assert (N : forall v, In v (present (order l)) -> cell_int v <> None) by (intros v I; destruct (K v I) as (z & ->); discriminate).
    specialize (S N). clear K N P. induction S as [|x r _ IH F]; constructor; [apply IH; intros v I; apply H; now right|].
    apply Forall_forall. intros y I. rewrite Forall_forall in F. destruct (F y I) as (p & q & E1 & E2 & Hl).
    destruct (H x (or_introl eq_refl)) as (zx & ->). destruct (H y (or_intror I)) as (zy & ->). cbn in E1, E2. injection E1 as <-. injection E2 as <-. eauto.
Qed.
