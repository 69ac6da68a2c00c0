(** Callbacks over a printed report. *)
From Coq Require Import List Ascii String ZArith NArith QArith Qcanon Bool Sorted Lia.
From Verif Require Import Lib.PyStr Lib.PyStrFacts Lib.F64 Model.Base Model.Line Model.Registry Model.Populate
  Model.Window Model.Cache Model.Files Model.Classes Model.Callbacks Model.Solve Model.Replay
  Spec.Lines Spec.Payload Spec.Parts Spec.Trace Spec.Interval Spec.Written Spec.Events Spec.Classes Spec.Solve Spec.Replay
  Proofs.CallbacksP Proofs.ClassesQ Proofs.PlotReportP Proofs.SolveP Proofs.SolveQ.
Import ListNotations.
Local Open Scope list_scope.

(** Two lists agree if they agree name by name and are in the same order. *)
Lemma merged {X Y} (nx : X -> str) (ny : Y -> str) (kx : X -> Z) (ky : Y -> Z) (P : X -> Y -> Prop) :
  (forall x y, P x y -> nx x = ny y /\ kx x = ky y) ->
  forall xs ys, StronglySorted (fun a b => (kx a < kx b)%Z) xs -> StronglySorted (fun a b => (ky a <= ky b)%Z) ys ->
  (forall a, Forall2 P (filter (fun x => eqs a (nx x)) xs) (filter (fun y => eqs a (ny y)) ys)) -> Forall2 P xs ys.
Proof.
  intros HP. induction xs as [|x xs IH]; intros ys Sx Sy H.
  - destruct ys as [|y ys]; [constructor|]. specialize (H (ny y)). cbn [filter] in H. rewrite eqs_refl in H. inversion H.
  - inversion Sx as [|? ? Sx' Fx]; subst. assert (Hx := H (nx x)). cbn [filter] in Hx. rewrite eqs_refl in Hx.
    destruct ys as [|y ys]; [inversion Hx|]. inversion Sy as [|? ? Sy' Fy]; subst.
    assert (E : P x y /\ nx x = ny y).
    { cbn [filter] in Hx. destruct (eqs (nx x) (ny y)) eqn:E.
      - apply eqs_eq in E. inversion Hx; subst. auto.
      - exfalso. inversion Hx as [|? y' ? l' Hxy' _ E1 E2]; subst.
        assert (Iy : In y' ys) by (apply (filter_In (fun y => eqs (nx x) (ny y))); rewrite <- E2; now left).
        assert (Hy := H (ny y)). cbn [filter] in Hy. rewrite eqs_refl in Hy.
        destruct (eqs (ny y) (nx x)) eqn:E'; [apply eqs_eq in E'; rewrite E', eqs_refl in E; discriminate E|].
        inversion Hy as [|x0 ? l0 ? Hxy0 _ E3 E4]; subst.
        assert (Ix : In x0 xs) by (apply (filter_In (fun x => eqs (ny y) (nx x))); rewrite <- E3; now left).
        rewrite Forall_forall in Fx, Fy. specialize (Fx _ Ix). specialize (Fy _ Iy). cbv beta in Fx, Fy.
        destruct (HP _ _ Hxy') as [_ K1]. destruct (HP _ _ Hxy0) as [_ K2]. lia. }
    destruct E as [E1 E2]. constructor; [exact E1|]. apply IH; auto. intros a. specialize (H a). cbn [filter] in H. rewrite <- E2 in H.
    destruct (eqs a (nx x)); [now inversion H|exact H].
Qed.

Lemma marked_pos items : forall i us, StronglySorted (fun a b => (m_pos a < m_pos b)%Z) (marked i items us) /\ Forall (fun m => (i <= m_pos m)%Z) (marked i items us).
Proof.
  induction items as [|e items IH]; intros i us; [split; constructor|].
  assert (K : forall us, StronglySorted (fun a b => (m_pos a < m_pos b)%Z) (marked (i + 1) items us) /\ Forall (fun m => (i < m_pos m)%Z) (marked (i + 1) items us)).
  { intros us'. destruct (IH (i + 1)%Z us') as [A B]. split; auto. eapply Forall_impl; [|exact B]. cbv beta. intros m; lia. }
  assert (K' : forall us, StronglySorted (fun a b => (m_pos a < m_pos b)%Z) (marked (i + 1) items us) /\ Forall (fun m => (i <= m_pos m)%Z) (marked (i + 1) items us)).
  { intros us'. destruct (K us') as [A B]. split; auto. eapply Forall_impl; [|exact B]. cbv beta. intros m; lia. }
  destruct e as [l|l|l a t]; cbn [marked]; [auto| |]; (destruct us as [|u us]; [split; constructor|]); [auto|].
  destruct (K us) as [A B]. split; [constructor; auto|constructor; [cbn; lia|now apply K']].
Qed.
Lemma filter_ssorted {A} (R : A -> A -> Prop) f l : StronglySorted R l -> StronglySorted R (filter f l).
Proof.
  induction 1 as [|a l _ IH F]; cbn [filter]; [constructor|]. destruct (f a); auto. constructor; auto.
  apply Forall_forall. intros x I. apply filter_In in I as [I _]. rewrite Forall_forall in F. auto.
Qed.
Lemma asked_of names keep items us a : filter (fun m => eqs a (m_attr m)) (asked names keep items us) =
  if existsb (eqs a) names then events_of a keep items us else [].
Proof.
  unfold asked, events_of. induction (marked 0 items us) as [|m l IH]; [now destruct (existsb _ _)|]. cbn [filter].
  destruct (eqs a (m_attr m)) eqn:E.
  - apply eqs_eq in E. subst a. destruct (existsb (eqs (m_attr m)) names); cbn [andb].
    + destruct (keep (m_time m)); cbn [filter]; [rewrite eqs_refl; now f_equal|exact IH].
    + exact IH.
  - cbn [andb]. destruct (existsb (eqs (m_attr m)) names && keep (m_time m)); cbn [filter]; [rewrite E|]; exact IH.
Qed.

Lemma event_dict_same cols t (g : str -> cell) k : dget eqs k (event_dict cols t (map g cols)) =
  if existsb (eqs k) cols then Some (VCell (g k)) else if eqs k $"Index" then Some (VTime t) else None.
Proof.
  unfold event_dict. cbn [combine fold_left fst snd].
  assert (H : forall d, dget eqs k (fold_left (fun d kv => dset eqs (fst kv) (snd kv) d) (combine cols (map VCell (map g cols))) d) =
    if existsb (eqs k) cols then Some (VCell (g k)) else dget eqs k d).
  { induction cols as [|c cols IH]; intros d; [reflexivity|]. cbn [map combine fold_left fst snd existsb]. rewrite IH.
    rewrite (dget_dset eqs eqs_eq). destruct (eqs c k) eqn:E.
    - apply eqs_eq in E. subst c. rewrite eqs_refl. cbn [orb]. now destruct (existsb (eqs k) cols).
    - replace (eqs k c) with false; [reflexivity|]. symmetry. destruct (eqs k c) eqn:E'; auto. apply eqs_eq in E'. subst c. rewrite eqs_refl in E. discriminate E. }
  rewrite H. destruct (existsb (eqs k) cols); [reflexivity|]. cbn [dset dget]. reflexivity.
Qed.

Section Trace.
  Context (defs : list (str * klass)) (frames : list (str * frame)) (shift : F64.float -> F64.float) (keep : F64.float -> bool) (items : list entry) (us : list F64.float)
    (len : str -> str -> nat).
  Notation marks := (fun a => events_of a keep items us).
  Hypothesis FST : map fst frames = map fst defs.
  Hypothesis ROWS : forall a k, In (a, k) defs -> exists fr, dget eqs a frames = Some fr /\ Forall2 (row_shows (snd (kind_of k)) (len a) shift) (marks a) fr.

  Lemma rows_lined c L ms fr : Forall2 (row_shows c L shift) ms fr -> (forall m, In m ms -> CellIn c L m $"__line" (CInt (m_pos m))) ->
    exists l, line_rows fr = Ok l /\ Forall2 (fun m x => fst x = m_pos m /\ row_shows c L shift m (snd x)) ms l.
  Proof.
    intros F. unfold line_rows. induction F as [|m r ms fr Hr _ IH]; intros H; [exists []; split; [reflexivity|constructor]|].
    destruct IH as (l & E & Hl); [intros m' I; apply H; now right|]. cbn [mapM]. assert (K := H m (or_introl eq_refl)).
    apply (row_cell _ _ _ _ _ _ _ Hr) in K. unfold dlookup in K. unfold dict in *. rewrite K. cbn [bind]. rewrite E. cbn [bind]. eexists. split; [reflexivity|]. constructor; auto.
  Qed.
  (** What a row has is what its event shows. *)
  Definition Of (m : mark) (x : str * (Z * (F64.float * dict))) : Prop :=
    m_attr m = fst x /\ m_pos m = fst (snd x) /\ exists k, In (fst x, k) defs /\ row_shows (snd (kind_of k)) (len (fst x)) shift m (snd (snd x)).
  Lemma asked_rows names : (forall a, In a names -> exists k, In (a, k) defs /\ forall m, In m (marks a) -> CellIn (snd (kind_of k)) (len a) m $"__line" (CInt (m_pos m))) ->
    exists fs, asked_frames frames names = Ok fs /\ map fst fs = names /\
      forall a l, In (a, l) fs -> exists k, In (a, k) defs /\ Forall2 (fun m x => fst x = m_pos m /\ row_shows (snd (kind_of k)) (len a) shift m (snd x)) (marks a) l.
  Proof.
    unfold asked_frames. induction names as [|a names IH]; intros H; [exists []; split; [reflexivity|]; split; [reflexivity|]; intros ? ? []|].
    destruct IH as (fs & E & E1 & E2); [intros b I; apply H; now right|]. destruct (H a (or_introl eq_refl)) as (k & Ik & Hk).
    destruct (ROWS a k Ik) as (fr & G & F). destruct (rows_lined _ _ _ _ F Hk) as (l & El & Fl).
    cbn [mapM]. rewrite G. cbn [bind]. rewrite El. cbn [bind]. rewrite E. cbn [bind]. eexists. split; [reflexivity|]. cbn [map fst]. split; [now rewrite E1|].
    intros b l' [[= <- <-]|I]; [exists k; auto|now apply E2].
  Qed.
  Lemma given_tells a k fr m r : In (a, k) defs -> dget eqs a frames = Some fr -> Forall2 (row_shows (snd (kind_of k)) (len a) shift) (marks a) fr ->
    row_shows (snd (kind_of k)) (len a) shift m r -> In m (marks a) -> Tells (snd (kind_of k)) (len a) shift (marks a) m (row_given frames a r).
  Proof.
    intros Ik G F Hr Im. unfold row_given. rewrite G. cbv zeta. set (cols := flat_map (fun r => map fst (snd r)) fr).
    assert (HC : forall col, existsb (eqs col) cols = true <-> Has (snd (kind_of k)) (len a) (marks a) col).
    { intros col. rewrite <- (frame_has _ _ _ _ _ col F). rewrite existsb_exists. split; [intros (x & I & E); apply eqs_eq in E; now subst x|].
      intros I. exists col. split; [exact I|apply eqs_refl]. }
    assert (E0 : forall col, dget eqs col (event_dict cols (fst r) (map (fun k => match dget eqs k (snd r) with Some v => v | None => CNone end) cols)) =
      if existsb (eqs col) cols then Some (VCell match dget eqs col (snd r) with Some v => v | None => CNone end) else if eqs col $"Index" then Some (VTime (fst r)) else None)
      by (intros col; exact (event_dict_same cols (fst r) (fun k => match dget eqs k (snd r) with Some v => v | None => CNone end) col)).
    split; [|split].
    - intros col v Hv. rewrite E0. rewrite (proj2 (HC col)); [|now exists m, v]. apply (row_cell _ _ _ _ _ _ _ Hr) in Hv. unfold dlookup in Hv. now rewrite Hv.
    - intros col Hh N. rewrite E0. rewrite (proj2 (HC col)); auto. destruct (dget eqs col (snd r)) as [v|] eqn:E; auto. exfalso. apply (N v). now apply (row_cell _ _ _ _ _ _ _ Hr).
    - intros col N. rewrite E0. destruct (existsb (eqs col) cols) eqn:E; [exfalso; apply N; now apply HC|]. destruct Hr as (Ht & _). now rewrite Ht.
  Qed.
  Lemma trace_replay names : NoDup names ->
    (forall a, In a names -> exists k, In (a, k) defs /\ forall m, In m (marks a) -> CellIn (snd (kind_of k)) (len a) m $"__line" (CInt (m_pos m))) ->
    exists calls, replay frames names = Ok calls /\
      Forall2 (fun m x => fst x = m_attr m /\ exists k, In (m_attr m, k) defs /\ Tells (snd (kind_of k)) (len (m_attr m)) shift (marks (m_attr m)) m (snd x)) (asked names keep items us) calls.
  Proof.
    intros Hn H. destruct (asked_rows names H) as (fs & E & E1 & E2). unfold replay. rewrite E. cbn [bind].
    assert (Nf : NoDup (map fst fs)) by now rewrite E1.
    assert (Pos : StronglySorted (fun x y => (m_pos x < m_pos y)%Z) (marked 0 items us)) by apply marked_pos.
    destruct (calls_exact fst fs Nf) as (calls & Ec & Hex & Hin). rewrite Ec. cbn [bind]. eexists. split; [reflexivity|].
    assert (Sc : StronglySorted (fun a b => (fst (snd a) <= fst (snd b))%Z) calls).
    { apply (calls_sorted fst fs); auto. apply Forall_forall. intros [a l] Il. destruct (E2 a l Il) as (k & _ & F).
      cbn [snd]. assert (Sm : StronglySorted (fun x y => (m_pos x < m_pos y)%Z) (marks a)) by now apply filter_ssorted.
      cbv beta in *. revert F Sm. generalize (events_of a keep items us) l. clear. intros ms l F Sm. induction F as [|m x ms l [Hx _] F IH]; [constructor|]. inversion Sm as [|? ? S' F']; subst. constructor; [exact (IH S')|].
      clear IH. apply Forall_forall. intros y Iy. assert (K : exists m', In m' ms /\ fst y = m_pos m').
      { clear - F Iy. induction F as [|m x ms l [Hx _] _ IH]; [destruct Iy|]. destruct Iy as [<-|Iy]; [exists m; split; [now left|auto]|]. destruct (IH Iy) as (m' & I & E). exists m'. split; auto. now right. }
      destruct K as (m' & Im' & ->). rewrite Hx. rewrite Forall_forall in F'. specialize (F' _ Im'). cbv beta in F'. lia. }
    assert (M : Forall2 Of (asked names keep items us) calls).
    { apply (merged m_attr fst m_pos (fun x => fst (snd x)) Of).
      - intros m x (A & B & _). auto.
      - now apply filter_ssorted.
      - exact Sc.
      - intros a. rewrite asked_of. destruct (existsb (eqs a) names) eqn:Ea.
        + apply existsb_exists in Ea as (b & Ib & Eb). apply eqs_eq in Eb. subst b. assert (Ia := Ib). rewrite <- E1 in Ib. apply in_map_iff in Ib as ([b l] & Eb & Il). cbn [fst] in Eb. subst b.
          destruct (E2 a l Il) as (k & Ik & F). rewrite <- (Hex a l Il) in F.
          assert (Fa : Forall (fun m => m_attr m = a) (marks a)).
          { apply Forall_forall. intros m I. apply filter_In in I as [_ I]. apply andb_prop in I as [I _]. apply eqs_eq in I. now symmetry. }
          assert (Fc : Forall (fun c => fst c = a) (filter (fun c => eqs a (fst c)) calls)).
          { apply Forall_forall. intros c I. apply filter_In in I as [_ I]. apply eqs_eq in I. now symmetry. }
          cbv beta in *. revert F Fa Fc. generalize (filter (fun c : str * (Z * (F64.float * dict)) => eqs a (fst c)) calls) (events_of a keep items us). clear - Ik.
          intros cs ms. revert cs. induction ms as [|m ms IH]; intros cs F Fa Fc; destruct cs as [|c cs]; cbn [map] in F; inversion F as [|? ? ? ? [H1 H2] H3]; subst; [constructor|].
          inversion Fa; inversion Fc; subst. constructor; [|apply IH; auto; congruence].
          split; [congruence|]. split; [auto|]. exists k. match goal with H : fst c = _ |- _ => rewrite H end. auto.
        + replace (filter (fun y : str * (Z * (F64.float * dict)) => eqs a (fst y)) calls) with (@nil (str * (Z * (F64.float * dict)))); [constructor|].
          symmetry. destruct (filter _ calls) as [|c l] eqn:Ef; auto. exfalso.
          assert (Ic : In c (filter (fun y => eqs a (fst y)) calls)) by (rewrite Ef; now left). apply filter_In in Ic as [Ic1 Ic2]. apply eqs_eq in Ic2.
          destruct (Hin c Ic1) as (rs & Irs & _). apply (in_map fst) in Irs. cbn [fst] in Irs. rewrite E1 in Irs.
          assert (K : existsb (eqs a) names = true) by (apply existsb_exists; exists (fst c); split; auto; now apply eqs_eq). congruence. }
    assert (IM : forall m, In m (asked names keep items us) -> In m (marks (m_attr m))).
    { intros m I. apply filter_In in I as [I1 I2]. apply andb_prop in I2 as [_ I2]. apply filter_In. rewrite eqs_refl, I2. auto. }
    revert M IM. generalize (asked names keep items us). clear - ROWS. intros ms M. induction M as [|m x ms l (A & B & k & Ik & Hr) _ IH]; intros IM; cbn [map]; [constructor|].
    constructor; [|apply IH; intros m' I; apply IM; now right]. cbn [fst snd]. split; [auto|]. exists k. rewrite <- A in *. split; [exact Ik|].
    destruct (ROWS _ _ Ik) as (fr & G & F). apply (given_tells _ _ fr); auto. apply IM. now left.
  Qed.
  Lemma trace_unknown names : (forall a, In a names -> forall k, In (a, k) defs -> forall m, In m (marks a) -> CellIn (snd (kind_of k)) (len a) m $"__line" (CInt (m_pos m))) ->
    (exists a, In a names /\ ~ In a (map fst defs)) -> replay frames names = Err EAttribute.
  Proof.
    intros H (a & Ia & Na). unfold replay. replace (asked_frames frames names) with (@Err (list (str * list (Z * (F64.float * dict)))) EAttribute); [reflexivity|]. symmetry.
    unfold asked_frames. induction names as [|b names IH]; [destruct Ia|]. cbn [mapM].
    destruct (in_dec (list_eq_dec ascii_dec) b (map fst defs)) as [Ib|Nb].
    - apply in_map_iff in Ib as ([b' k] & Eb & Ik). cbn [fst] in Eb. subst b'. destruct (ROWS b k Ik) as (fr & G & F).
      destruct (rows_lined _ _ _ _ F (H b (or_introl eq_refl) k Ik)) as (l & El & _). rewrite G. cbn [bind]. rewrite El. cbn [bind].
      rewrite IH; [reflexivity| |].
      + intros a' Ia'. apply H. now right.
      + destruct Ia as [->|Ia]; [|exact Ia]. exfalso. apply Na. now apply (in_map fst) in Ik.
    - rewrite (proj2 (dget_None eqs eqs_eq _ _)); [reflexivity|]. now rewrite FST.
  Qed.
End Trace.
Lemma line_cell c L m : ~ In $"__line" (map (fun x => column c (fst x)) (text_cells L (m_text m))) -> (m_pos m <> 4294967295)%Z ->
  CellIn c L m $"__line" (CInt (m_pos m)).
Proof.
  intros N P. right. split; [exact N|]. exists (CInt (m_pos m)). split; [reflexivity|]. destruct c; try reflexivity. cbn [shown].
  now rewrite (proj2 (Z.eqb_neq _ _) P).
Qed.
