(** From the text of a report to the values of expressions. *)
From Coq Require Import List Ascii String ZArith NArith QArith Qcanon Reals Qreals Bool Sorted Lia.
From Flocq Require Import BinarySingleNaN.
From Verif Require Import Lib.PyStr Lib.PyStrFacts Lib.TotalOrder Lib.F64 Lib.F64Facts Lib.F64Ord Model.Base Model.Line Model.Registry Model.Populate
  Model.Window Model.Cache Model.Files Model.Events Model.Classes Model.Power Model.Stats Model.Grammar Model.Accessor Model.PlotReport Model.Solve
  Spec.Lines Spec.Payload Spec.Arrays Spec.Parts Spec.Trace Spec.Interval Spec.Written Spec.Events Spec.Classes Spec.Power Spec.Grammar Spec.Accessor Spec.Solve
  Proofs.PopulateP Proofs.WrittenP Proofs.WrittenQ Proofs.ClassesQ Proofs.PlotReportP Proofs.SolveP.
Import ListNotations.
Local Open Scope nat_scope.
Local Open Scope list_scope.

Lemma time_mono x y : (fQ x <= fQ y)%Q -> (time x <= time y)%Qc.
Proof. unfold time, Qcle, Q2Qc. cbn [this]. now rewrite !Qred_correct. Qed.

Lemma time_value x : Q2R (this (time x)) = B2R x.
Proof. rewrite <- fQ_value. apply Qreals.Qeq_eqR. unfold time, Q2Qc. cbn [this]. apply Qred_correct. Qed.

Section Whole.
  Context {content digest header csv : Type}.
  Variables (deq : digest -> digest -> bool) (md5 : content -> digest) (file : content -> list str) (head : content -> header)
            (enc : frame -> csv) (dec : csv -> option frame) (fuel : nat).
  Notation parse := (do_parse deq md5 (fun x => ftrace_body (file x)) head enc dec (class_frame fuel)).

  Lemma report_world (c : config) (s : fsys) hdr items :
    NoDup (map fst (c_defs c)) -> NoDup (map (fun d => k_word (snd d)) (c_defs c)) -> (forall a k, In (a, k) (c_defs c) -> given_name k = a) ->
    c_nocache c = true \/ (f_cache s = None /\ c_defs c <> []) ->
    file (f_trace s) = hdr ++ map entry_str items ->
    Forall junk_ok hdr -> begins items -> Forall (entry_ok (c_defs c)) items ->
    (forall a k, In (a, k) (c_defs c) -> titles_ok (snd (kind_of k)) (texts_of a items) /\
       forall q, In q (parts_in (texts_of a items)) -> (arrays q < fuel)%nat) ->
    exists tr ts us, fst (parse c s) = Ok tr /\ Forall2 printed_time (entry_lines items) ts /\ Assigned fzero ts us /\ t_base tr = hd fzero us /\
      let shift := fun t => if c_norm c then fsub t (t_base tr) else t in
      let marks := fun a => events_of a (in_both (c_win c) (c_abs c) (t_base tr)) items us in
      let len := fun a => lengths (texts_of a items) in
      (windows_ok (c_win c) (c_abs c) (t_base tr) -> Forall (fun u => finite u) us ->
       map fst (t_frames tr) = map fst (c_defs c) /\
       (forall a k, In (a, k) (c_defs c) -> exists fr, dget eqs a (t_frames tr) = Some fr /\ Forall2 (row_shows (snd (kind_of k)) (len a) shift) (marks a) fr) /\
       (forall a, StronglySorted (fun x y => (time (shift (m_time x)) <= time (shift (m_time y)))%Qc) (marks a))).
  Proof.
    intros H1 H2 H2' H3 H4 H5 H6 H7 H8.
    destruct (entries_back deq md5 file head enc dec fuel c s hdr items H1 H2 H3 H4 H5 H6 H7 H8)
      as (tr & ts & us & E & HT & HA & HB & HE & HH & HN & HF).
    exists tr, ts, us. do 4 (split; [assumption|]). intros shift marks len Hw Hf.
    assert (Hnn : Forall (fun t => nn t = true) ts).
    { clear -HT. induction HT as [|L t l l' Hp _ IH]; constructor; auto. exact (printed_nn _ _ Hp). }
    assert (Hso := Assigned_fle fzero ts us eq_refl Hnn HA).
    assert (Hnu : Forall (fun u => nn u = true) us).
    { destruct (Assigned_sorted _ _ _ (eq_refl : nn fzero = true) Hnn HA) as (S1 & _). eapply Forall_impl; [|exact S1]. cbv beta. tauto. }
    split; [exact HN|]. split; [exact (HF Hw)|]. intros a. apply sorted_filter.
    apply (marked_sorted (fun x y => (time (shift x) <= time (shift y))%Qc)). unfold shift. rewrite HB.
    assert (K := shift_mono (c_norm c) us Hso Hnu Hf). apply (sorted_impl _ (fun x y => (time (if c_norm c then fsub x (hd fzero us) else x) <= time (if c_norm c then fsub y (hd fzero us) else y))%Qc)) in K; auto.
    intros x y _ _. apply time_mono.
  Qed.
  Lemma report_solve (c : config) (s : fsys) hdr items :
    NoDup (map fst (c_defs c)) -> NoDup (map (fun d => k_word (snd d)) (c_defs c)) -> (forall a k, In (a, k) (c_defs c) -> given_name k = a) ->
    c_nocache c = true \/ (f_cache s = None /\ c_defs c <> []) ->
    file (f_trace s) = hdr ++ map entry_str items ->
    Forall junk_ok hdr -> begins items -> Forall (entry_ok (c_defs c)) items ->
    (forall a k, In (a, k) (c_defs c) -> titles_ok (snd (kind_of k)) (texts_of a items) /\
       forall q, In q (parts_in (texts_of a items)) -> (arrays q < fuel)%nat) ->
    exists tr ts us, fst (parse c s) = Ok tr /\ Forall2 printed_time (entry_lines items) ts /\ Assigned fzero ts us /\ t_base tr = hd fzero us /\
      let shift := fun t => if c_norm c then fsub t (t_base tr) else t in
      let marks := fun a => events_of a (in_both (c_win c) (c_abs c) (t_base tr)) items us in
      let len := fun a => lengths (texts_of a items) in
      (windows_ok (c_win c) (c_abs c) (t_base tr) -> Forall (fun u => finite u) us ->
       (forall a, In a (map fst (c_defs c)) -> Distinct shift (marks a)) ->
       (forall a k, In (a, k) (c_defs c) -> AllOrNone (snd (kind_of k)) (len a) (pivot_of k) (marks a)) ->
       forall pvars attr from to filters fill, Ours (c_defs c) pvars attr ->
       let w := world_of (c_defs c) (t_frames tr) pvars attr from to filters fill in
       Proper time_leb w /\
       forall a k col sel, In (a, k) (c_defs c) -> pvars a = None ->
       Only (Wanted (snd (kind_of k)) (len a) shift (marks a) from to filters) (marks a) sel ->
       let found := Has (snd (kind_of k)) (len a) (marks a) col /\ (forall p, pivot_of k = Some p -> Has (snd (kind_of k)) (len a) (marks a) p) in
       (sel <> [] -> found ->
        exists rows, Source time_leb w a col rows /\ Forall2 (RowOf (snd (kind_of k)) (len a) shift (pivot_of k) col) sel rows) /\
       forall W (lib : library Qc cell W) text, Text 6 (EAcc a col) text ->
       let result := fst (parser_solve time_leb cell_leb w lib empty_table text) in
       let times := map (fun m => time (shift (m_time m))) sel in
       (fill = true -> sel <> [] -> found ->
        exists rows cols, Forall2 (RowOf (snd (kind_of k)) (len a) shift (pivot_of k) col) sel rows /\
          result = Ok (l_frame lib (times, cols)) /\ keys_of (map fst cols) rows /\
          forall p cells, In (p, cells) cols -> Forall2 (fun t x => CellOf (fun x y => (x <= y)%Qc) rows p t x) times cells) /\
       (sel = [] -> result = Err EValue) /\
       (sel <> [] -> ~ Has (snd (kind_of k)) (len a) (marks a) col \/ (exists p, pivot_of k = Some p /\ ~ Has (snd (kind_of k)) (len a) (marks a) p) ->
        result = Err EKey)).
  Proof.
    intros H1 H2 H2' H3 H4 H5 H6 H7 H8.
    destruct (report_world c s hdr items H1 H2 H2' H3 H4 H5 H6 H7 H8) as (tr & ts & us & E & HT & HA & HB & HF).
    exists tr, ts, us. do 4 (split; [assumption|]). cbv zeta in *. intros Hw Hf HD HP pvars attr from to filters fill HO.
    destruct (HF Hw Hf) as (F1 & F2 & F3).
    set (shift := fun t => if c_norm c then fsub t (t_base tr) else t) in *.
    set (marks := fun a => events_of a (in_both (c_win c) (c_abs c) (t_base tr)) items us) in *.
    set (len := fun a => lengths (texts_of a items)) in *.
    split; [exact (world_proper (c_defs c) (t_frames tr) pvars attr from to filters fill shift marks len H1 F1 H2' F2 F3 HD HP HO)|].
    intros a k col sel Ha Hp HW. split; [|intros W lib text Ht; split].
    - intros Hs [G1 G2]. exact (world_source (c_defs c) (t_frames tr) pvars attr from to filters fill shift marks len H1 H2' F2 HP a k col sel Ha Hp HW Hs G1 G2).
    - intros Hfi Hs [G1 G2]. exact (world_solve (c_defs c) (t_frames tr) pvars attr from to filters fill shift marks len H1 F1 H2' F2 F3 HD HP HO lib a k col sel text Hfi Ha Hp Ht HW Hs G1 G2).
    - exact (world_missing (c_defs c) (t_frames tr) pvars attr from to filters fill shift marks len H1 F1 H2' F2 F3 HD HP HO lib a k col sel text Ha Hp Ht HW).
  Qed.
End Whole.

(** Times that are not normalised differ. *)
Lemma times_differ items ts us keep a : Forall2 printed_time (entry_lines items) ts -> Assigned fzero ts us -> Forall (fun u => finite u) us ->
  Distinct (fun t => t) (events_of a keep items us).
Proof.
  intros HT HA HF.
  assert (Hnn : Forall (fun t => nn t = true) ts).
  { clear -HT. induction HT as [|L t l l' Hp _ IH]; constructor; auto. exact (printed_nn _ _ Hp). }
  destruct (Assigned_sorted _ _ _ (eq_refl : nn fzero = true) Hnn HA) as (S1 & S2 & _).
  assert (K : StronglySorted (fun x y => time x <> time y) us).
  { apply (sorted_impl before); auto. rewrite Forall_forall in S1, HF. intros x y Ix Iy [L|Ex]; [|subst x; discriminate (HF _ Ix)].
    intros E. assert (Nx := proj1 (S1 _ Ix)). assert (Ny := proj1 (S1 _ Iy)).
    assert (Ef : (fQ x == fQ y)%Q) by (apply (f_equal this) in E; cbn in E; rewrite <- (Qred_correct (fQ x)), E; apply Qred_correct).
    assert (fle y x = true) as L2.
    { apply fle_spec; auto. intros _. split; [now apply HF|]. rewrite <- !fQ_value. apply Qreals.Qeq_eqR in Ef. rewrite Ef. apply Rle_refl. }
    rewrite (flt_negb_fle x y), L2 in L; auto. discriminate. }
  unfold Distinct, events_of. set (ms := filter _ _).
  assert (S : StronglySorted (fun x y => time (m_time x) <> time (m_time y)) ms) by (apply sorted_filter; now apply (marked_sorted (fun x y => time x <> time y))).
  clear - S. induction S as [|m ms _ IH F]; cbn [map]; constructor; auto.
  intros I. apply in_map_iff in I as (x & E & I). rewrite Forall_forall in F. now apply (F x I).
Qed.

(** System calls have no column "pid". *)
Lemma syscall_pid f t c L : (f = Enters \/ f = Exits) -> c = Same -> text_ok f (m_text t) -> forall v, ~ CellIn c L t $"pid" v.
Proof.
  intros Hf -> Ht v [(key & P & u & I & Ek & _)|(_ & u & E & _)]; [|discriminate E].
  cbn [column] in Ek. subst key. destruct Hf; subst f; destruct (m_text t); try contradiction; cbn [text_cells] in I;
    repeat (destruct I as [I|I]; [injection I; intros; discriminate|]); exact I.
Qed.
(** A way to find cells, for examples. *)
Lemma field_cell c L m ps col key val more : m_text m = TFields ps -> In (key, (val, more)) (flat_map (part_cells L) ps) -> column c key = col -> no_space val ->
  exists v, CellIn c L m col v.
Proof.
  intros Ht I Ec Hn. assert (exists u, col_cell val more u) as (u & Hu).
  { destruct (py_int0 val) as [z|] eqn:E; [apply PayloadP.py_int0_iff in E; auto; exists (CInt z); left; eauto|].
    exists (CStr (join $" " (val :: more))). right. split; auto. intros z H. apply PayloadP.py_int0_iff in H; auto. congruence. }
  exists (shown c key u). left. exists key, (col_cell val more), u. split; auto. rewrite Ht. cbn [text_cells].
  apply in_map_iff. exists (key, (val, more)). auto.
Qed.
Definition has_field (L : str -> nat) (key : str) (m : mark) : bool :=
  match m_text m with
  | TFields ps => existsb (fun x => eqs (fst x) key && forallb (fun c => negb (is_space c)) (fst (snd x))) (flat_map (part_cells L) ps)
  | _ => false
  end.
Lemma has_field_ok L key m : has_field L key m = true ->
  exists ps val more, m_text m = TFields ps /\ In (key, (val, more)) (flat_map (part_cells L) ps) /\ no_space val.
Proof.
  unfold has_field. destruct (m_text m) as [ps| | | | | | | |]; try discriminate. intros H. apply existsb_exists in H as ([k [val more]] & I & E).
  cbn [fst snd] in E. apply andb_true_iff in E as [E1 E2]. apply eqs_eq in E1 as ->. exists ps, val, more. split; auto. split; auto.
  apply Forall_forall. intros c J. rewrite forallb_forall in E2. apply E2, negb_true_iff in J. exact J.
Qed.
Lemma pivots_ok k p : pivot_of k = Some p <-> exists l, In (p, l) by_pivot /\ In (k_pyname k) l.
Proof.
  unfold pivot_of. split.
  - intros H. apply (dget_In eqs eqs_eq) in H. assert (B : forallb (fun x => existsb (fun g => eqs (snd x) (fst g) && existsb (eqs (fst x)) (snd g)) by_pivot) pivots = true) by (vm_compute; reflexivity).
    rewrite forallb_forall in B. apply B, existsb_exists in H as ([p' l] & I & E). apply andb_true_iff in E as [E1 E2]. cbn [fst snd] in E1, E2. apply eqs_eq in E1 as ->.
    apply existsb_exists in E2 as (x & Ix & Ex). apply eqs_eq in Ex as ->. eauto.
  - intros (l & I & J). assert (B : forallb (fun g => forallb (fun n => match dget eqs n pivots with Some q => eqs q (fst g) | None => false end) (snd g)) by_pivot = true) by (vm_compute; reflexivity).
    rewrite forallb_forall in B. apply B in I. cbn [fst snd] in I. rewrite forallb_forall in I. apply I in J. destruct (dget eqs (k_pyname k) pivots); [|discriminate]. apply eqs_eq in J as ->. reflexivity.
Qed.
