(** Proofs about frames in the files of the cache. *)
From Coq Require Import List Ascii String ZArith NArith Bool Lia.
From Verif Require Import Lib.PyStr Lib.PyStrFacts Lib.F64 Model.Base Model.Csv Model.CsvCache
  Spec.Tables Spec.Cached Proofs.CsvP.
Import ListNotations.

Lemma existsb_eqs n l : existsb (eqs n) l = true <-> In n l.
Proof.
  rewrite existsb_exists. split; [intros (x & Hx & E); apply eqs_eq in E; now subst|].
  intros H. exists n. split; auto. now apply eqs_eq.
Qed.
Lemma filter_seen names seen : (forall n, In n names -> In n seen) ->
  filter (fun n => negb (existsb (eqs n) seen)) names = [].
Proof.
  induction names as [|n l IH]; intros H; auto. cbn [filter].
  assert (E : existsb (eqs n) seen = true) by (apply existsb_eqs, H; now left). rewrite E. apply IH. intros; apply H; now right.
Qed.
Lemma names_fold names (f : frame) : Forall (fun r : float * dict => map fst (snd r) = names) f ->
  fold_left (fun seen r => add_names seen (snd r)) f names = names.
Proof.
  induction 1 as [|r f Hr H IH]; auto. cbn [fold_left].
  assert (E : add_names names (snd r) = names) by (unfold add_names; rewrite Hr, filter_seen, app_nil_r; auto).
  rewrite E. exact IH.
Qed.
Lemma col_names_same names (f : frame) : Forall (fun r : float * dict => map fst (snd r) = names) f -> f <> [] -> col_names f = names.
Proof.
  intros H Hf. unfold col_names. destruct f as [|r f]; [congruence|]. apply Forall_cons_iff in H as [Hr H]. cbn [fold_left].
  assert (E : add_names [] (snd r) = names).
  { unfold add_names. cbn [app existsb]. rewrite Hr. clear. induction names as [|n l IH]; auto. cbn [filter negb]. f_equal. exact IH. }
  transitivity (fold_left (fun seen r => add_names seen (snd r)) f names); [|now apply names_fold]. f_equal. exact E.
Qed.
Lemma dict_rebuild (d : dict) : NoDup (map fst d) ->
  map (fun n => (n, match dlookup n d with Some c => c | None => CNone end)) (map fst d) = d.
Proof.
  intros H. rewrite map_map. rewrite <- (map_id d) at 2. apply map_ext_in. intros [n c] Hi. cbn [fst].
  unfold dlookup. now rewrite (In_dget eqs eqs_eq n c).
Qed.

Section Round.
  Context {F : Type}.
  Variables (trepr : float -> str) (tparse : str -> option float) (frepr : F -> str) (fparse : str -> option F)
            (f_of : Z -> F) (num_cell : F -> cell) (bool_cell : bool -> cell).
  Hypothesis Htime : forall x, tparse (trepr x) = Some x.

  Lemma cells_round cs : cs <> [] -> Forall (fun c => small_int c = true) cs \/ Forall (fun c => exists s, c = CStr s) cs ->
    cells_of num_cell bool_cell (col_of f_of cs) = cs.
  Proof.
    intros Hne [H|H]; unfold col_of.
    - assert (E : forallb small_int cs = true) by (apply forallb_forall; now apply Forall_forall). rewrite E. cbn [cells_of].
      rewrite map_map. rewrite <- (map_id cs) at 2. apply map_ext_in. intros c Hc. rewrite Forall_forall in H.
      specialize (H c Hc). destruct c; try discriminate. reflexivity.
    - destruct H as [|c cs (s & ->) H]; [congruence|]. cbn [forallb small_int number andb cells_of map cell_obj obj_cell]. f_equal.
      rewrite map_map. rewrite <- (map_id cs) at 2. apply map_ext_in. intros c Hc. rewrite Forall_forall in H.
      destruct (H c Hc) as (s' & ->). reflexivity.
  Qed.

  Lemma in_col_cells names (f : frame) n : Forall (fun r : float * dict => map fst (snd r) = names) f -> NoDup names -> In n names ->
    forall c, In c (col_cells f n) <-> in_col f n c.
  Proof.
    intros Hu' Hn Hi c. unfold col_cells, in_col. rewrite in_map_iff.
    assert (Hu : forall r, In r f -> map fst (snd r) = names) by (apply Forall_forall; exact Hu'). clear Hu'. split.
    - intros (r & <- & Hr). exists r. split; auto. unfold dlookup. destruct (dget eqs n (snd r)) as [c|] eqn:E.
      + now apply (dget_In eqs eqs_eq) in E.
      + exfalso. apply (dget_None eqs eqs_eq) in E. apply E. now rewrite (Hu r Hr).
    - intros (r & Hr & Hc). exists r. split; auto. unfold dlookup. assert (N : NoDup (map fst (snd r))) by now rewrite (Hu r Hr). now rewrite (In_dget eqs eqs_eq n c).
  Qed.
  Lemma kept_pure names (f : frame) n : Forall (fun r : float * dict => map fst (snd r) = names) f -> NoDup names -> In n names -> column_kept fparse f n ->
    Forall (fun c => small_int c = true) (col_cells f n) \/ Forall (fun c => exists s, c = CStr s) (col_cells f n).
  Proof.
    intros Hu Hn Hi [H|(ss & H & _)]; [left|right]; apply Forall_forall; intros c Hc; apply (in_col_cells names) in Hc; auto.
    - destruct (H c Hc) as (z & -> & Hz). apply int64_iff. exact Hz.
    - apply H in Hc as (s & _ & ->). eauto.
  Qed.
  Lemma kept_col names (f : frame) n : f <> [] -> Forall (fun r : float * dict => map fst (snd r) = names) f -> NoDup names -> In n names -> column_kept fparse f n ->
    col_ok frepr fparse (col_of f_of (col_cells f n)) /\ col_len (col_of f_of (col_cells f n)) = List.length f.
  Proof.
    intros Hf Hu Hn Hi H.
    assert (El : List.length (col_cells f n) = List.length f) by (unfold col_cells; apply map_length).
    assert (Hne : col_cells f n <> []) by (destruct f; [congruence|discriminate]).
    assert (IC := in_col_cells names f n Hu Hn Hi).
    destruct H as [H|(ss & H & Ht & Hex)].
    - assert (HI : Forall (fun c => exists z, c = CInt z /\ fits z) (col_cells f n)).
      { apply Forall_forall. intros c Hc. apply H. now apply IC. }
      clear H IC. unfold col_of.
      assert (E : forallb small_int (col_cells f n) = true).
      { apply forallb_forall. rewrite Forall_forall in HI. intros c Hc. destruct (HI c Hc) as (z & -> & Hz). now apply int64_iff. }
      rewrite E. cbn [col_ok col_len]. rewrite map_length. split; auto. apply Forall_map. eapply Forall_impl; [|exact HI].
      intros c (z & -> & Hz). exact Hz.
    - assert (HI : Forall (fun c => exists s, In s ss /\ c = CStr s) (col_cells f n)).
      { apply Forall_forall. intros c Hc. apply H. now apply IC. }
      assert (E : col_of f_of (col_cells f n) = ColObj (map cell_obj (col_cells f n))).
      { unfold col_of. destruct HI as [|c cs (s & _ & ->) _]; [congruence|]. reflexivity. }
      rewrite E. cbn [col_ok col_len]. rewrite map_length. split; auto. split.
      + apply Forall_map. eapply Forall_impl; [|exact HI]. intros c (s & Hs & ->). cbn [cell_obj]. rewrite Forall_forall in Ht. now apply Ht.
      + destruct Hex as (s & Hs & Hp & Hint & Hb).
        { intros ->. destruct HI as [|c cs (s & [] & _) _]. congruence. }
        exists s. split; [|split; [exact Hp|split; [|exact Hb]]].
        * apply in_map_iff. exists (CStr s). split; auto. apply IC, H. eauto.
        * intros Hw. apply whole_iff in Hw. now apply Hint, int_text_csv.
  Qed.

  Lemma combine_seq_map {A B} (g : nat * A -> B) (l : list A) (d : A) : forall k,
    map g (combine (seq k (List.length l)) l) = map (fun i => g ((k + i)%nat, nth i l d)) (seq 0 (List.length l)).
  Proof.
    induction l as [|a l IH]; intros k; auto. cbn [List.length seq combine map]. f_equal; [now rewrite Nat.add_0_r|].
    rewrite IH. rewrite <- seq_shift, map_map. apply map_ext. intros i. cbn [nth]. now rewrite Nat.add_succ_r.
  Qed.
  Lemma map_nth_seq {A} (l : list A) d : map (fun i => nth i l d) (seq 0 (List.length l)) = l.
  Proof.
    induction l as [|a l IH]; auto. cbn [List.length seq map nth]. f_equal. rewrite <- seq_shift, map_map. exact IH.
  Qed.
  Lemma nth_map_lt {A B} (g : A -> B) l i d d' : (i < List.length l)%nat -> nth i (map g l) d = g (nth i l d').
  Proof. revert i. induction l as [|a l IH]; intros [|i] H; cbn in *; try lia; auto. apply IH. lia. Qed.
  Lemma table_rebuild f : frame_kept fparse f -> table_frame num_cell bool_cell (frame_table f_of f) = f.
  Proof.
    intros (names & Hne & Hn & _ & Hu & Hk). destruct f as [|r0 f0] eqn:Ef; [reflexivity|]. rewrite <- Ef in *.
    assert (Hf : f <> []) by (rewrite Ef; discriminate). clear Ef.
    unfold table_frame, frame_table. cbn [tb_times tb_cols]. rewrite (col_names_same names f Hu Hf).
    inversion Hn as [|? ? _ Hn']; subst.
    rewrite map_length. rewrite <- (map_length fst f). rewrite (combine_seq_map _ _ fzero). rewrite map_length.
    transitivity (map (fun i => nth i f (fzero, [])) (seq 0 (List.length f))); [|apply map_nth_seq]. apply map_ext_in. intros i Hi. apply in_seq in Hi. cbn [fst snd Nat.add].
    set (r := nth i f (fzero, [])). assert (Hr : In r f) by (apply nth_In; lia).
    rewrite Forall_forall in Hu. rewrite (surjective_pairing r). apply f_equal2.
    - change fzero with (fst (fzero, @nil (str * cell))). now rewrite map_nth.
    - rewrite map_map. cbn [fst snd]. rewrite <- (dict_rebuild (snd r)) at 1 by now rewrite (Hu r Hr).
      rewrite (Hu r Hr). apply map_ext_in. intros n Hin. f_equal.
      rewrite cells_round.
      + unfold col_cells. rewrite (nth_map_lt _ f i CNone (fzero, [])) by lia. reflexivity.
      + unfold col_cells. destruct f; [congruence|discriminate].
      + apply (kept_pure names); auto. now apply Forall_forall.
  Qed.
  Theorem frame_round f : frame_kept fparse f \/ f = [] ->
    frame_of tparse fparse num_cell bool_cell (csv_of trepr frepr f_of f) = Some f.
  Proof.
    intros H. unfold frame_of, csv_of. destruct f as [|r0 f0] eqn:Ef.
    { change (frame_table f_of []) with (@Tab float F [] []). now rewrite empty_round. }
    rewrite <- Ef in *. assert (Hf : f <> []) by (rewrite Ef; discriminate).
    destruct H as [H|H]; [|congruence]. clear Ef r0 f0.
    rewrite table_round.
    - cbn [option_map]. f_equal. now apply table_rebuild.
    - destruct H as (names & Hne & Hn & He & Hu & Hk). inversion Hn as [|? ? _ Hn']; subst.
      unfold table_ok, frame_table. cbn [tb_times tb_cols]. rewrite (col_names_same names f Hu Hf). rewrite map_length, map_map. cbn [fst].
      rewrite map_id. split; [destruct f; [congruence|discriminate]|]. split; [destruct names; [congruence|discriminate]|].
      split; [exact Hn|]. split; [apply Forall_forall; auto|]. apply Forall_map. apply Forall_forall. intros n Hi. cbn [fst snd].
      destruct (kept_col names f n Hf Hu Hn' Hi (Hk n Hi)) as [A B]. split; [intros ->; contradiction|]. split; auto.
  Qed.
End Round.
