(** Rows that lack columns, through the files of the cache. *)
From Coq Require Import List Ascii String ZArith NArith Bool Lia.
From Verif Require Import Lib.PyStr Lib.PyStrFacts Lib.F64 Model.Base Model.Csv Model.CsvCache Spec.Tables Spec.Cached Spec.Missing Proofs.CsvP Proofs.CsvCacheP.
Import ListNotations.
Local Open Scope list_scope.

Lemma nodup_two {A} (l l' : list A) : NoDup l -> NoDup l' -> (forall x, In x l -> ~ In x l') -> NoDup (l ++ l').
Proof.
  induction 1 as [|x l Hx _ IH]; intros H' D; [exact H'|]. cbn [app]. constructor; [|apply IH; [exact H'|intros y I; apply D; now right]].
  intros I. apply in_app_or in I as [I|I]; [contradiction|]. exact (D x (or_introl eq_refl) I).
Qed.
Lemma add_names_ok seen d : NoDup seen -> NoDup (map fst d) -> NoDup (add_names seen d) /\ forall n, In n (add_names seen d) <-> In n seen \/ In n (map fst d).
Proof.
  intros H1 H2. unfold add_names. assert (Q : forall n, In n (filter (fun n => negb (existsb (eqs n) seen)) (map fst d)) <-> In n (map fst d) /\ ~ In n seen).
  { intros n. rewrite filter_In, negb_true_iff. split; intros [A B]; split; auto; [intros C; apply existsb_eqs in C; congruence|].
    destruct (existsb (eqs n) seen) eqn:E; [|reflexivity]. apply existsb_eqs in E. contradiction. }
  split.
  - apply nodup_two; [exact H1|now apply NoDup_filter|]. intros x I J. apply Q in J. tauto.
  - intros n. rewrite in_app_iff, Q. split; [tauto|]. intros [A|A]; [now left|]. destruct (in_dec (list_eq_dec ascii_dec) n seen); tauto.
Qed.
Lemma col_names_ok (f : frame) : Forall (fun r : float * dict => NoDup (map fst (snd r))) f ->
  NoDup (col_names f) /\ forall n, In n (col_names f) <-> exists c, in_col f n c.
Proof.
  intros H. unfold col_names. assert (G : forall seen, NoDup seen -> NoDup (fold_left (fun seen r => add_names seen (snd r)) f seen) /\
    forall n, In n (fold_left (fun seen r => add_names seen (snd r)) f seen) <-> In n seen \/ exists c, in_col f n c).
  { induction H as [|r f Hr _ IH]; intros seen Hs; cbn [fold_left].
    - split; [exact Hs|]. intros n. split; [now left|]. intros [A|(c & r & [] & _)]. exact A.
    - destruct (add_names_ok seen (snd r) Hs Hr) as [A B]. destruct (IH _ A) as [C D]. split; [exact C|]. intros n. rewrite D, B. split.
      + intros [[I|I]|(c & r' & Ir & I)]; [now left| |right; exists c, r'; split; [now right|exact I]].
        right. apply in_map_iff in I as ([n' c] & E & I). cbn [fst] in E. subst n'. exists c, r. split; [now left|exact I].
      + intros [I|(c & r' & [<-|Ir] & I)]; [now left; left|left; right; now apply (in_map fst) in I|right; exists c, r'; auto]. }
  destruct (G [] (NoDup_nil _)) as [A B]. split; [exact A|]. intros n. rewrite B. split; [intros [[]|C]; exact C|now right].
Qed.
Lemma firsts_ext seen seen' l k : (forall n, In n seen <-> In n seen') -> Firsts seen l k -> Firsts seen' l k.
Proof.
  intros H F. revert seen' H. induction F as [seen|seen n l k N _ IH|seen n l k N _ IH]; intros seen' H.
  - constructor.
  - apply firsts_new; [now rewrite <- H|]. apply IH. intros m. cbn [In]. now rewrite H.
  - apply firsts_old; [now apply H|]. now apply IH.
Qed.
Lemma firsts_app seen l k l' k' : Firsts seen l k -> Firsts (l ++ seen) l' k' -> Firsts seen (l ++ l') (k ++ k').
Proof.
  intros F. revert l' k'. induction F as [seen|seen n l k N _ IH|seen n l k N _ IH]; intros l' k' F'; cbn [app]; [exact F'| |].
  - apply firsts_new; [exact N|]. apply IH. eapply firsts_ext; [|exact F']. intros m. cbn [app In]. rewrite !in_app_iff. cbn [In]. tauto.
  - apply firsts_old; [exact N|]. apply IH. eapply firsts_ext; [|exact F']. intros m. cbn [app In]. rewrite !in_app_iff. split; [|tauto]. intros [<-|K]; tauto.
Qed.
Lemma filter_firsts seen l : NoDup l -> Firsts seen l (filter (fun n => negb (existsb (eqs n) seen)) l).
Proof.
  intros D. assert (G : forall seen', (forall n, In n l -> In n seen <-> In n seen') -> Firsts seen' l (filter (fun n => negb (existsb (eqs n) seen)) l)); [|apply G; tauto].
  induction D as [|n l N _ IH]; intros seen' H; cbn [filter]; [constructor|]. destruct (existsb (eqs n) seen) eqn:E; cbn [negb].
  - apply existsb_eqs in E. apply firsts_old; [apply H; [now left|exact E]|]. apply IH. intros m I. apply H. now right.
  - apply firsts_new; [intros K; apply H in K; [apply existsb_eqs in K; congruence|now left]|]. apply IH. intros m I. cbn [In]. rewrite H by now right. split; [now right|]. intros [->|K]; [contradiction|exact K].
Qed.
Lemma col_names_firsts (f : frame) : Forall (fun r : float * dict => NoDup (map fst (snd r))) f -> Firsts [] (flat_map (fun r => map fst (snd r)) f) (col_names f).
Proof.
  intros H. unfold col_names. assert (G : forall seen, exists k, fold_left (fun seen r => add_names seen (snd r)) f seen = seen ++ k /\ Firsts seen (flat_map (fun r => map fst (snd r)) f) k).
  { induction H as [|r f Hr _ IH]; intros seen; cbn [fold_left flat_map].
    - exists []. split; [now rewrite app_nil_r|constructor].
    - destruct (IH (add_names seen (snd r))) as (k & E & F). exists (filter (fun n => negb (existsb (eqs n) seen)) (map fst (snd r)) ++ k). split.
      + rewrite E. unfold add_names. now rewrite app_assoc.
      + apply firsts_app; [now apply filter_firsts|]. eapply firsts_ext; [|exact F]. intros n. unfold add_names. rewrite !in_app_iff, filter_In, negb_true_iff. split; [tauto|]. intros [K|K]; [|now left].
        destruct (existsb (eqs n) seen) eqn:Es; [left; now apply existsb_eqs|now right]. }
  destruct (G []) as (k & E & F). rewrite E. exact F.
Qed.
Lemma lookup_iff (r : float * dict) n c : NoDup (map fst (snd r)) -> (dlookup n (snd r) = Some c <-> In (n, c) (snd r)).
Proof. intros H. unfold dlookup. split; [apply (PyStrFacts.dget_In eqs eqs_eq)|now apply (PyStrFacts.In_dget eqs eqs_eq)]. Qed.
Lemma lookup_none (r : float * dict) n : dlookup n (snd r) = None <-> forall c, ~ In (n, c) (snd r).
Proof.
  unfold dlookup. rewrite (PyStrFacts.dget_None eqs eqs_eq). split.
  - intros H c I. apply H. now apply (in_map fst) in I.
  - intros H I. apply in_map_iff in I as ([n' c] & E & I). cbn [fst] in E. subst n'. exact (H c I).
Qed.

Section Round.
  Context {F : Type}.
  Variables (trepr : float -> str) (tparse : str -> option float) (frepr : F -> str) (fparse : str -> option F)
            (f_of : Z -> F) (num_cell : F -> cell) (bool_cell : bool -> cell).
  Hypothesis Htime : forall x, tparse (trepr x) = Some x.
  Context (f : frame).
  Hypothesis SOUND : frame_sound frepr fparse f_of f.
  Notation sound_col := (column_sound frepr fparse f_of f).

  Lemma rows_nodup r : In r f -> NoDup (map fst (snd r)).
  Proof. intros I. destruct SOUND as (_ & H & _). rewrite Forall_forall in H. now apply H. Qed.
  Definition cell_at (n : str) (r : float * dict) : cell := match dlookup n (snd r) with Some c => c | None => CNone end.
  Definition read_cell (lacks : bool) (c : cell) : cell := match c with CInt z => if lacks then num_cell (f_of z) else c | _ => c end.
  Definition lackb (n : str) : bool := existsb (fun r => match dlookup n (snd r) with None => true | Some _ => false end) f.
  Lemma lackb_iff n : lackb n = true <-> Lacks f n.
  Proof.
    unfold lackb, Lacks. rewrite existsb_exists. split; intros (r & I & H); exists r; (split; [exact I|]).
    - apply lookup_none. destruct (dlookup n (snd r)); [discriminate|reflexivity].
    - apply lookup_none in H. now rewrite H.
  Qed.
  Lemma col_read n c0 : in_col f n c0 ->
    col_ok frepr fparse (col_of f_of (col_cells f n)) /\ cells_of num_cell bool_cell (col_of f_of (col_cells f n)) = map (fun r => read_cell (lackb n) (cell_at n r)) f.
  Proof.
    intros I0. destruct SOUND as (_ & _ & H). destruct (H n c0 I0) as (_ & _ & HC). clear H.
    change (col_cells f n) with (map (cell_at n) f).
    assert (Cell : forall r, In r f -> (exists c, dlookup n (snd r) = Some c /\ in_col f n c /\ cell_at n r = c) \/ (dlookup n (snd r) = None /\ cell_at n r = CNone)).
    { intros r I. unfold cell_at. destruct (dlookup n (snd r)) as [c|] eqn:E; [left|right; auto]. exists c. split; [reflexivity|]. split; [|reflexivity]. exists r. split; [exact I|]. apply lookup_iff in E; [exact E|now apply rows_nodup]. }
    destruct HC as [HI|(ss & HS & HT & HE)].
    - unfold col_of. destruct (forallb small_int (map (cell_at n) f)) eqn:ES.
      + assert (All : forall r, In r f -> exists z, cell_at n r = CInt z /\ fits z).
        { intros r I. destruct (Cell r I) as [(c & _ & J & E)|[_ E]]; rewrite E.
          - destruct (HI c J) as (z & -> & Hz & _). eauto.
          - exfalso. rewrite forallb_forall in ES. specialize (ES (cell_at n r) (in_map _ _ _ I)). rewrite E in ES. discriminate. }
        assert (NL : lackb n = false).
        { destruct (lackb n) eqn:L; [|reflexivity]. apply existsb_exists in L as (r & I & L). destruct (All r I) as (z & E & _). unfold cell_at in E. destruct (dlookup n (snd r)); discriminate. }
        rewrite NL. cbn [col_ok cells_of]. split.
        * apply Forall_map, Forall_map, Forall_forall. intros r I. destruct (All r I) as (z & -> & Hz). exact Hz.
        * rewrite !map_map. apply map_ext_in. intros r I. destruct (All r I) as (z & -> & _). reflexivity.
      + assert (LK : lackb n = true).
        { destruct (lackb n) eqn:L; [reflexivity|]. exfalso. assert (K : forallb small_int (map (cell_at n) f) = true); [|congruence]. apply forallb_forall. intros c I. apply in_map_iff in I as (r & <- & I).
          destruct (Cell r I) as [(c & _ & J & ->)|[E _]]; [destruct (HI c J) as (z & -> & Hz & _); now apply int64_iff|]. exfalso. assert (lackb n = true); [|congruence]. apply existsb_exists. exists r. rewrite E. auto. }
        assert (EN : forallb number (map (cell_at n) f) = true).
        { apply forallb_forall. intros c I. apply in_map_iff in I as (r & <- & I). destruct (Cell r I) as [(c & _ & J & ->)|[_ ->]]; [destruct (HI c J) as (z & -> & Hz & _); now apply int64_iff|reflexivity]. }
        rewrite EN, LK. cbn [col_ok cells_of]. split.
        * apply Forall_map, Forall_map, Forall_forall. intros r I. destruct (Cell r I) as [(c & _ & J & ->)|[_ ->]]; [|exact Logic.I]. destruct (HI c J) as (z & -> & _ & Hf). cbn [cell_float]. apply Hf. now apply lackb_iff.
        * rewrite !map_map. apply map_ext_in. intros r I. destruct (Cell r I) as [(c & _ & J & ->)|[_ ->]]; [destruct (HI c J) as (z & -> & _)|]; reflexivity.
    - assert (All : forall r, In r f -> (exists s, cell_at n r = CStr s /\ In s ss) \/ cell_at n r = CNone).
      { intros r I. destruct (Cell r I) as [(c & _ & J & ->)|[_ ->]]; [left|now right]. apply HS in J as (s & Is & ->). eauto. }
      destruct (proj1 (HS c0) I0) as (s0 & Is0 & ->).
      assert (HE' : exists s, In s ss /\ fparse s = None /\ ~ int_text s /\ ~ bool_text s) by (apply HE; intros ->; destruct Is0). clear HE.
      assert (Row : forall s, In s ss -> exists r, In r f /\ cell_at n r = CStr s).
      { intros s I. destruct (proj2 (HS (CStr s))) as (r & Ir & J); [eauto|]. exists r. split; [exact Ir|]. apply lookup_iff in J; [|now apply rows_nodup]. unfold cell_at. now rewrite J. }
      assert (N1 : forall p, p (CStr s0) = false -> forallb p (map (cell_at n) f) = false).
      { intros p Hp. destruct (forallb p (map (cell_at n) f)) eqn:E; [|reflexivity]. rewrite forallb_forall in E. destruct (Row s0 Is0) as (r & Ir & Er). specialize (E (cell_at n r) (in_map _ _ _ Ir)). rewrite Er in E. congruence. }
      unfold col_of. rewrite (N1 small_int eq_refl), (N1 number eq_refl). cbn [col_ok cells_of]. split; [split|].
      + apply Forall_map, Forall_map, Forall_forall. intros r I. destruct (All r I) as [(s & -> & Is)| ->]; cbn [cell_obj]; [|exact Logic.I]. rewrite Forall_forall in HT. now apply HT.
      + destruct HE' as (s & Is & Hp & Hi & Hb). exists s. destruct (Row s Is) as (r & Ir & Er). split; [|split; [exact Hp|split; [|exact Hb]]].
        * rewrite map_map. apply in_map_iff. exists r. rewrite Er. auto.
        * intros Hw. apply whole_iff in Hw. now apply Hi, int_text_csv.
      + rewrite !map_map. apply map_ext_in. intros r I. destruct (All r I) as [(s & -> & Is)| ->]; reflexivity.
  Qed.
  Lemma col_len_of cs : col_len (col_of f_of cs) = List.length cs.
  Proof. unfold col_of. destruct (forallb small_int cs); [|destruct (forallb number cs)]; cbn [col_len]; apply map_length. Qed.

  Definition row_read (r : float * dict) : float * dict := (fst r, map (fun n => (n, read_cell (lackb n) (cell_at n r))) (col_names f)).
  Lemma table_read : table_frame num_cell bool_cell (frame_table f_of f) = map row_read f.
  Proof.
    unfold table_frame, frame_table. cbn [tb_times tb_cols]. rewrite (combine_seq_map _ _ fzero). rewrite map_length.
    transitivity (map row_read (map (fun i => nth i f (fzero, [])) (seq 0 (List.length f)))); [|f_equal; apply map_nth_seq]. rewrite map_map. apply map_ext_in. intros i Hi. apply in_seq in Hi. cbn [fst snd Nat.add].
    unfold row_read. apply f_equal2.
    - change fzero with (fst (fzero, @nil (str * cell))) at 1. now rewrite map_nth.
    - rewrite map_map. cbn [fst snd]. apply map_ext_in. intros n Hn. f_equal.
      destruct (col_names_ok f (proj1 (proj2 SOUND))) as [_ M]. apply M in Hn as (c & Hc). rewrite (proj2 (col_read n c Hc)). apply (nth_map_lt (fun r => read_cell (lackb n) (cell_at n r))). lia.
  Qed.
  Theorem gaps_round : exists names f', Firsts [] (flat_map (fun r => map fst (snd r)) f) names /\ NoDup names /\ (forall n, In n names <-> exists c, in_col f n c) /\
    frame_of tparse fparse num_cell bool_cell (csv_of trepr frepr f_of f) = Some f' /\ Forall2 (ReadBack f_of num_cell f names) f f'.
  Proof.
    destruct (col_names_ok f (proj1 (proj2 SOUND))) as [ND M]. exists (col_names f), (map row_read f). split; [exact (col_names_firsts f (proj1 (proj2 SOUND)))|]. split; [exact ND|]. split; [exact M|]. split.
    - unfold frame_of, csv_of. destruct SOUND as ((n0 & c0 & I0) & SR & SC). rewrite table_round; [cbn [option_map]; f_equal; exact table_read|].
      unfold table_ok, frame_table. cbn [tb_times tb_cols]. rewrite map_length, map_map. cbn [fst]. rewrite map_id.
      split; [destruct I0 as (r & Ir & _); destruct f; [destruct Ir|discriminate]|].
      split; [assert (K : In n0 (col_names f)) by (apply M; eauto); destruct (col_names f); [destruct K|discriminate]|].
      split; [constructor; [|exact ND]; intros K; apply M in K as (c & K); now apply (SC _ _ K)|].
      split; [apply Forall_forall; auto|]. apply Forall_map, Forall_forall. intros n Hn. cbn [fst snd]. apply M in Hn as (c & Hc).
      split; [now apply (SC _ _ Hc)|]. split; [rewrite col_len_of; unfold col_cells; apply map_length|]. exact (proj1 (col_read n c Hc)).
    - assert (R : forall r, In r f -> ReadBack f_of num_cell f (col_names f) r (row_read r)).
      { intros r I. unfold ReadBack, row_read. cbn [fst snd]. split; [reflexivity|]. split; [rewrite map_map; cbn [fst]; apply map_id|].
        intros n c J. apply in_map_iff in J as (n' & [= -> <-] & _). unfold cell_at. assert (D := rows_nodup r I). split; [|split].
        - intros s K. apply lookup_iff in K; [|exact D]. now rewrite K.
        - intros z K. apply lookup_iff in K; [|exact D]. rewrite K. cbn [read_cell]. split; intros L.
          + apply lackb_iff in L. now rewrite L.
          + destruct (lackb n) eqn:E; [|reflexivity]. apply lackb_iff in E. contradiction.
        - intros K. apply lookup_none in K. now rewrite K. }
      clear - R. revert R. generalize row_read (ReadBack f_of num_cell f (col_names f)). intros g P. induction f as [|r l IH]; intros R; cbn [map]; constructor; [apply R; now left|]. apply IH. intros r' I. apply R. now right.
  Qed.
End Round.
