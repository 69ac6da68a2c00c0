(** The tables of CpuInPower and CpuOutPower. *)
From Coq Require Import List Ascii String ZArith NArith Bool Sorted Lia.
From Verif Require Import Lib.PyStr Lib.PyStrFacts Lib.TotalOrder Model.Power Spec.Power Proofs.MaskP Proofs.PivotP Proofs.LoadP.
Import ListNotations.
Local Open Scope list_scope.

Lemma by_time_before {T K V} leb (TOT : total_order leb) (rows : list (T * K * option V)) : by_time leb rows -> StronglySorted (before leb) rows.
Proof.
  unfold by_time. induction 1 as [|r rows Hs IH Hf]; constructor; auto. eapply Forall_impl; [|exact Hf].
  intros r' [H1 H2]. split; [exact H1|]. intros E. apply H2 in E. destruct (le_lt_eq leb TOT _ _ H1); auto. now elim E.
Qed.
Lemma pivot_table {T K L V} leb keq leq (TOT : total_order leb) (keq_eq : forall a b, keq a b = true <-> a = b)
    (leq_eq : forall a b, leq a b = true <-> a = b) cols (label : K -> option L) (rows : list (T * K * option V)) :
  by_time leb rows -> keys_of cols rows -> (forall k, In k cols -> label k <> None) ->
  (forall k k', In k cols -> In k' cols -> label k = label k' -> k = k') ->
  exists idx tab, pivot_with_labels leb keq leq cols label rows = Ok (idx, tab) /\ Table leb rows label cols idx tab.
Proof.
  intros Hb [Hn Hk] Hl Hi.
  destruct (pivot_known leb keq leq TOT keq_eq leq_eq cols label rows) as (idx & tab & H); auto using by_time_before.
  exists idx, tab. unfold Table. tauto.
Qed.
Lemma load_values_eq {T} (r : @irow T) : loads r = load_values (i_cols r).
Proof.
  unfold loads, load_values. f_equal. apply filter_ext. intros [n v]. cbn [fst].
  do 5 (destruct n as [|? n]; [reflexivity || (cbn; repeat match goal with |- context [Ascii.eqb ?a ?b] => destruct (Ascii.eqb_spec a b); subst; cbn; auto end)|]).
  cbn. reflexivity.
Qed.
Lemma by_time_map {T V} leb (f : @irow T -> V) rows : irows_by_time leb rows -> by_time leb (map (fun r => (i_time r, i_cpus r, f r)) rows).
Proof.
  unfold irows_by_time, by_time. induction rows as [|r rows IH]; cbn [map]; intros H; [constructor|].
  apply StronglySorted_inv in H as [H1 H2]. constructor; auto. rewrite Forall_map in *. exact H2.
Qed.
Lemma keys_of_map {T V} cols (f : @irow T -> V) rows : keys_of cols (map key_row rows) -> keys_of cols (map (fun r => (i_time r, i_cpus r, f r)) rows).
Proof.
  intros [H1 H2]. split; auto. intros k. rewrite H2. split; intros (t & v & H); apply in_map_iff in H as (r & E & H); injection E as <- <- _.
  - exists (i_time r), (f r). apply in_map_iff. eauto.
  - exists (i_time r), tt. apply in_map_iff. exists r. auto.
Qed.
Lemma load_table {T L} leb leq (TOT : total_order leb) (leq_eq : forall a b, leq a b = true <-> a = b)
    cols (label : str -> option L) (rows : list (@irow T)) :
  rows <> [] -> (forall r, In r rows -> load_values (i_cols r) <> []) ->
  irows_by_time leb rows -> keys_of cols (map key_row rows) -> (forall k, In k cols -> label k <> None) ->
  (forall k k', In k cols -> In k' cols -> label k = label k' -> k = k') ->
  exists idx tab, get_load_data leb leq cols label rows = Ok (idx, tab) /\
    Table leb (map (fun r => (i_time r, i_cpus r, sum_known (load_values (i_cols r)))) rows) label cols idx tab.
Proof.
  intros Hn Hl Ht Hk H1 H2. rewrite load_data; auto.
  - replace (map load_row rows) with (map (fun r => (i_time r, i_cpus r, sum_known (load_values (i_cols r)))) rows).
    + apply pivot_table; auto using by_time_map, keys_of_map, eqs_eq.
    + apply map_ext. intros r. unfold load_row. now rewrite load_values_eq.
  - intros r Hr. rewrite load_values_eq. auto.
Qed.
Lemma Known_ext {T V} (le : T -> T -> Prop) (f g : @irow T -> option V) rows k t c :
  (forall r, In r rows -> i_cpus r = k -> f r = g r) ->
  CellOf le (map (fun r => (i_time r, i_cpus r, f r)) rows) k t c -> CellOf le (map (fun r => (i_time r, i_cpus r, g r)) rows) k t c.
Proof.
  intros H. destruct c as [v|]; cbn.
  - intros (pre & t' & post & E & Hle & Hp). apply map_eq_app in E as (a & b & -> & <- & E). apply map_eq_cons in E as (r & b' & -> & E & <-).
    injection E as <- Ek Ef. exists (map (fun r => (i_time r, i_cpus r, g r)) a), (i_time r), (map (fun r => (i_time r, i_cpus r, g r)) b').
    split; [|split; auto].
    + rewrite map_app. cbn [map]. rewrite <- (H r), Ef, Ek; auto. apply in_elt.
    + intros t'' w Hi. apply in_map_iff in Hi as (r' & E & Hr). injection E as <- E1 E2. apply (Hp _ w). apply in_map_iff. exists r'.
      split; auto. rewrite (H r'), E1, E2; auto. apply in_or_app. right. now right.
  - intros Hu t' w Hi. apply in_map_iff in Hi as (r' & E & Hr). injection E as <- E1 E2. apply (Hu _ w). apply in_map_iff. exists r'.
    split; auto. rewrite (H r'), E1, E2; auto.
Qed.
Lemma norm_table {T L F} leb leq (TOT : total_order leb) (leq_eq : forall a b, leq a b = true <-> a = b)
    (div : Z -> Z -> F) of_int cols (mapping : list (str * L)) (rows : list (@irow T)) :
  rows <> [] -> (forall r, In r rows -> load_values (i_cols r) <> []) ->
  irows_by_time leb rows -> keys_of cols (map key_row rows) ->
  (forall m, In m (map fst mapping) -> valid_mask m /\ In m cols) -> (forall k, In k cols -> In k (map fst mapping)) ->
  (forall k k', In k cols -> In k' cols -> dget eqs k mapping = dget eqs k' mapping -> k = k') ->
  exists idx tab, get_normalized_load_data leb leq div of_int cols mapping rows = Ok (idx, tab) /\
    StronglySorted (lt leb) idx /\ (forall t, In t idx <-> exists r, In r rows /\ i_time r = t) /\
    map (fun lc => Some (fst lc)) tab = map (fun k => dget eqs k mapping) cols /\
    forall k l col bits m, In (l, col) tab -> dget eqs k mapping = Some l -> In k cols -> MaskText k bits ->
      is_max m (map i_freq (filter (fun r => eqs (i_cpus r) k) rows)) ->
      Forall2 (fun t c => CellOf (fun a b => leb a b = true)
        (map (fun r => (i_time r, i_cpus r, option_map (fun s => div (s * i_freq r) (m * Z.of_nat (List.length (cpus_of bits))))%Z
                                              (sum_known (load_values (i_cols r))))) rows) k t c) idx col.
Proof.
  intros Hn Hl Ht Hk Hm Hr Hinj. 
  assert (Hcnt : forall m, In m (map fst mapping) -> num_cpus_in_mask m = Ok (cnt m)).
  { intros m Hi. apply Hm in Hi as [(bits & H1 & H2) _]. unfold cnt. now rewrite (mask_count _ _ H1 H2). }
  assert (Hfreq : forall m, In m cols -> freqs_of m rows <> []).
  { intros m Hi E. apply (proj2 Hk) in Hi as (t & v & Hi). apply in_map_iff in Hi as (r & Er & Hi). injection Er as _ Er _.
    assert (In (i_freq r) (freqs_of m rows)); [|now rewrite E in *]. apply in_map, filter_In. split; auto. rewrite Er. now apply eqs_eq. }
  rewrite norm_data; auto.
  - destruct (pivot_table leb eqs leq TOT eqs_eq leq_eq cols (fun k => dget eqs k mapping) (map (norm_row div rows) rows)) as (idx & tab & E & H1 & H2 & H3 & H4).
    + now apply by_time_map.
    + now apply keys_of_map.
    + intros k Hi. apply Hr in Hi. clear - Hi. induction mapping as [|[m l] mp IH]; [easy|]. cbn [dget]. destruct (eqs k m) eqn:E; [discriminate|].
      cbn [map fst In] in Hi. destruct Hi as [->|Hi]; auto. now rewrite (proj2 (eqs_eq _ _) eq_refl) in E.
    + exact Hinj.
    + exists idx, tab. split; auto. split; auto. split; [|split; auto].
      * intros t. rewrite H2. split.
        -- intros (k & v & Hi). apply in_map_iff in Hi as (r & Er & Hi). injection Er as <- _ _. eauto.
        -- intros (r & Hi & <-). exists (i_cpus r), (snd (norm_row div rows r)). apply in_map_iff. exists r. auto.
      * intros k l col bits m Hi Hd Hc Hb Hx. specialize (H4 k l col Hi Hd Hc).
        assert (Em : mx (freqs_of k rows) = m).
        { eapply is_max_unique; [|exact Hx]. specialize (Hfreq k Hc). fold (freqs_of k rows). destruct (freqs_of k rows); [congruence|]. apply max_list_spec. }
        assert (En : cnt k = List.length (cpus_of bits)).
        { unfold cnt. destruct (Hm k (Hr k Hc)) as [(bits' & B1 & B2) _].
          assert (bits = bits'). { clear - Hb B1. revert bits' B1. induction Hb; intros b' B1; inversion B1; subst; auto; try discriminate.
            f_equal; auto. congruence. }
          subst bits'. now rewrite (mask_count _ _ B1 B2). }
        clear - H4 Em En. induction H4 as [|t c idx col Hc H4 IH]; constructor; auto.
        eapply Known_ext; [|exact Hc]. intros r _ Ek. cbv beta. rewrite load_values_eq, Ek, Em, En. reflexivity.
  - intros r Hi. rewrite load_values_eq. auto.
  - intros m Hi. split; auto. apply Hfreq. apply Hm. auto.
  - intros r Hi. apply Hr. apply (proj2 Hk). exists (i_time r), tt. apply in_map_iff. exists r. auto.
Qed.
Lemma norm_absent' {T L F} leb leq (div : Z -> Z -> F) of_int cols (mapping : list (str * L)) (rows : list (@irow T)) m :
  rows <> [] -> (forall r, In r rows -> load_values (i_cols r) <> []) ->
  (forall m', In m' (map fst mapping) -> valid_mask m') ->
  In m (map fst mapping) -> (forall r, In r rows -> i_cpus r <> m) ->
  get_normalized_load_data leb leq div of_int cols mapping rows = Err EValue.
Proof.
  intros Hn Hl Hm Hi Ha. apply (norm_absent leb leq div of_int cols mapping rows m); auto.
  - intros r Hr. rewrite load_values_eq. auto.
  - intros m' Hi'. apply Hm in Hi' as (bits & H1 & H2). unfold cnt. now rewrite (mask_count _ _ H1 H2).
Qed.
Lemma freqs_table {T L F} leb leq (TOT : total_order leb) (leq_eq : forall a b, leq a b = true <-> a = b)
    (div : Z -> Z -> F) cols (label : str -> option L) (rows : list (T * str * option Z)) :
  by_time leb rows -> keys_of cols rows -> (forall k, In k cols -> label k <> None) ->
  (forall k k', In k cols -> In k' cols -> label k = label k' -> k = k') ->
  exists idx tab, Table leb rows label cols idx tab /\
    get_all_freqs leb leq div cols label rows =
      Ok (idx, map (fun lc => (fst lc, map (option_map (fun v => div v 1000%Z)) (snd lc))) tab).
Proof.
  intros H1 H2 H3 H4. destruct (pivot_table leb eqs leq TOT eqs_eq leq_eq cols label rows) as (idx & tab & E & Ht); auto.
  exists idx, tab. split; auto. unfold get_all_freqs. now rewrite E.
Qed.
