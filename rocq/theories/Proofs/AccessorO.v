(** The order of the columns that an accessor reads. *)
From Coq Require Import List Ascii String ZArith NArith Bool Sorted.
From Verif Require Import Lib.PyStr Lib.PyStrFacts Lib.TotalOrder Model.Power Model.Stats Spec.Power Model.Grammar Spec.Grammar Model.Accessor Spec.Accessor Proofs.AccessorP.
Import ListNotations.
Local Open Scope list_scope.

Section Order.
  Context {T V : Type} (leb : T -> T -> bool) (vleb : V -> V -> bool) (VTOT : total_order vleb) (w : world T V).
  Lemma frame_keys {L} (d : list (L * list (T * option V))) r : frame_of leb d = Ok r -> map fst (snd r) = map fst d.
  Proof.
    unfold frame_of. destruct d as [|[l s] rest]; [intros [= <-]; reflexivity|]. destruct (forallb _ rest).
    - intros [= <-]. cbn [snd fst map]. f_equal. rewrite map_map. now apply map_ext.
    - destruct (forallb _ _); [|discriminate]. intros [= <-]. cbn [snd fst map]. f_equal. rewrite map_map. now apply map_ext.
  Qed.
  Definition KeysSorted (l : list (option V)) : Prop := l = [None] \/ exists vs, l = map Some vs /\ StronglySorted (lt vleb) vs.
  Lemma pivot_keys agg k c fr : pivot_frame leb vleb w agg k c = Ok fr -> KeysSorted (map fst (snd fr)).
  Proof.
    unfold pivot_frame. destruct (get_data_frame leb vleb w k) as [f|]; [|discriminate]. cbn [bind]. destruct (g_rows f) as [|r rows]; [discriminate|].
    destruct (k_pivot k) as [p|].
    - destruct (has_col p (g_cols f) && has_col c (g_cols f)); [|discriminate]. intros E. apply frame_keys in E. rewrite E, map_map. cbn [fst].
      right. eexists. split; [reflexivity|]. unfold unique_values. now apply sort_u_sorted.
    - destruct (has_col c (g_cols f)); [|discriminate]. intros E. apply frame_keys in E. rewrite E. now left.
  Qed.
  Definition names (l : list ((str * option V) * list (option V))) (c : str) : list (option V) :=
    map snd (filter (fun x => eqs (fst x) c) (map fst l)).
  Lemma names_columns (tab : table T V) c : map fst (columns tab c) = names (t_cols tab) c.
  Proof.
    unfold columns, names. induction (t_cols tab) as [|[[n k] cells] l IH]; [reflexivity|]. cbn [filter map fst snd]. destruct (eqs n c); cbn [map fst snd]; congruence.
  Qed.
  Lemma names_keys l l' c : map fst l = map fst l' -> names l c = names l' c.
  Proof. unfold names. now intros ->. Qed.
  Lemma has_column_iff c (tab : table T V) : has_column c tab = false -> names (t_cols tab) c = [].
  Proof.
    unfold has_column, names. induction (t_cols tab) as [|[[n k] cells] l IH]; [reflexivity|]. cbn [existsb filter map fst snd]. destruct (eqs n c); [discriminate|auto].
  Qed.
  Lemma pre_keys tab a tab' : (forall c, KeysSorted (names (t_cols tab) c)) -> pre_process leb vleb w tab a = Ok tab' -> forall c, KeysSorted (names (t_cols tab') c).
  Proof.
    destruct a as [ev c0]. unfold pre_process. intros H. destruct (has_column c0 tab) eqn:Hc; [now intros [= <-]|].
    destruct (match resolve w ev with Err EKey => Err EValue | r => r end) as [k|]; [|discriminate]. cbn [bind].
    destruct (pivot_frame leb vleb w tab k c0) as [fr|] eqn:Ef; [|discriminate]. cbn [bind].
    destruct (frame_of leb _) as [r|] eqn:Er; [|discriminate]. cbn [bind]. intros [= <-] c. cbn [t_cols].
    assert (K : names (if w_fill w then fill_columns (snd r) else snd r) c = names (snd r) c).
    { apply names_keys. destruct (w_fill w); [|reflexivity]. unfold fill_columns. rewrite map_map. now apply map_ext. }
    rewrite K. apply frame_keys in Er. unfold names. rewrite Er, map_app, !map_map, filter_app, map_app. cbn [fst].
    change (map (fun x => fst x) (t_cols tab)) with (map fst (t_cols tab)). fold (names (t_cols tab) c).
    assert (K2 : map snd (filter (fun x : str * option V => eqs (fst x) c) (map (fun x => (c0, fst x)) (snd fr))) = if eqs c0 c then map fst (snd fr) else []).
    { generalize (snd fr). clear. intros fs. destruct (eqs c0 c) eqn:E0; (induction fs as [|[v cells] l IH]; cbn [map filter fst]; [reflexivity|]; rewrite E0; cbn [map snd]; congruence). }
    rewrite K2. destruct (eqs c0 c) eqn:E.
    - apply eqs_eq in E as <-. rewrite (has_column_iff _ _ Hc). cbn [app]. now apply pivot_keys in Ef.
    - rewrite app_nil_r. apply H.
  Qed.
  Lemma load_keys l : forall tab, (forall c, KeysSorted (names (t_cols tab) c)) -> forall c, KeysSorted (names (t_cols (snd (load_all leb vleb w tab l))) c).
  Proof.
    induction l as [|a l IH]; intros tab H; cbn [load_all]; auto. destruct (pre_process leb vleb w tab a) as [tab'|] eqn:E; auto.
    apply IH. now apply (pre_keys tab a).
  Qed.
  Lemma after_sorted {W} (lib : library T V W) ss c : KeysSorted (map fst (columns (after leb vleb w lib ss) c)).
  Proof.
    rewrite names_columns. revert c. unfold after. induction ss as [|s ss IH] using rev_ind; [intros c; right; exists []; split; [reflexivity|constructor]|].
    rewrite fold_left_app. cbn [fold_left]. set (tab := fold_left _ ss empty_table) in *. unfold parser_solve. destruct (accessors s) as [l|]; auto.
    assert (K := load_keys l tab IH). now destruct (load_all leb vleb w tab l) as [[u|x] tab'].
  Qed.
End Order.
