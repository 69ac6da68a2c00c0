(** Tasks of the load average events (C99). *)
From Coq Require Import List Ascii String ZArith NArith Bool Lia Sorting.Sorted.
From Verif Require Import Lib.PyStr Lib.PyStrFacts Lib.Regex Lib.RegexFacts Lib.F64 Model.Base Model.Registry Model.Populate Model.Line Model.Classes Model.Tasks
  Spec.Lines Spec.Payload Spec.Arrays Spec.Parts Spec.Trace Spec.Written Spec.Events Spec.Classes Spec.Bare Spec.Tasks
  Proofs.PayloadP Proofs.FrameP Proofs.LineP Proofs.PopulateP Proofs.SolveP Proofs.BareQ Proofs.ClassesQ.
Import ListNotations.
Local Open Scope list_scope.

Lemma cell_eqb_eq a b : cell_eqb a b = true <-> a = b.
Proof.
  destruct a, b; cbn [cell_eqb]; try (split; [discriminate|congruence]); try (split; auto; fail).
  - rewrite Z.eqb_eq. split; congruence.
  - rewrite eqs_eq. split; congruence.
Qed.
Lemma pair_eqb_eq a b : pair_eqb a b = true <-> a = b.
Proof.
  destruct a as [a1 a2], b as [b1 b2]. unfold pair_eqb. cbn [fst snd]. rewrite andb_true_iff, !cell_eqb_eq. split; [intros [-> ->]; auto|]. intros [= -> ->]. auto.
Qed.
Lemma seen_iff x seen : existsb (pair_eqb x) seen = true <-> In x seen.
Proof.
  rewrite existsb_exists. split.
  - intros (y & Hy & E). apply pair_eqb_eq in E as ->. exact Hy.
  - intros H. exists x. split; auto. now apply pair_eqb_eq.
Qed.
(** The rows kept are those that occur neither before nor among [seen]. *)
Lemma firsts_spec (q : cell * cell -> bool) l : forall seen pre, (forall x, In x seen <-> In x pre) ->
  exists idx, StronglySorted lt idx /\ Forall (fun i => (List.length pre <= i)%nat) idx /\
    Forall2 (fun i x => nth_error (pre ++ l) i = Some x /\ q x = true /\ forall j, (j < i)%nat -> nth_error (pre ++ l) j <> Some x) idx (filter q (firsts seen l)) /\
    forall x, In x l -> ~ In x pre -> q x = true -> In x (filter q (firsts seen l)).
Proof.
  induction l as [|y l IH]; intros seen pre HS; cbn [firsts].
  - exists []. repeat split; constructor || (intros x []).
  - assert (E : pre ++ y :: l = (pre ++ [y]) ++ l) by (now rewrite <- app_assoc).
    destruct (existsb (pair_eqb y) seen) eqn:Ey.
    + apply seen_iff, HS in Ey. destruct (IH seen (pre ++ [y])) as (idx & S1 & S2 & S3 & S4).
      { intros x. rewrite HS, in_app_iff. cbn. split; [auto|]. intros [H|[->|[]]]; auto. }
      exists idx. split; [exact S1|]. split; [|split].
      * eapply Forall_impl; [|exact S2]. cbn. intros i Hi. rewrite app_length in Hi. cbn in Hi. lia.
      * rewrite E. exact S3.
      * intros x [->|Hx] Hn Hq; [contradiction|]. apply S4; auto. rewrite in_app_iff. intros [H|[->|[]]]; auto.
    + assert (Hny : ~ In y pre) by (intros H; apply HS, seen_iff in H; congruence).
      destruct (IH (y :: seen) (pre ++ [y])) as (idx & S1 & S2 & S3 & S4).
      { intros x. rewrite in_app_iff. cbn. rewrite HS. tauto. }
      assert (S2' : Forall (fun i => (List.length pre < i)%nat) idx).
      { eapply Forall_impl; [|exact S2]. cbn. intros i Hi. rewrite app_length in Hi. cbn in Hi. lia. }
      assert (S4' : forall x, In x (y :: l) -> ~ In x pre -> q x = true -> In x (filter q (y :: firsts (y :: seen) l))).
      { intros x Hx Hn Hq. destruct (pair_eqb x y) eqn:Exy.
        - apply pair_eqb_eq in Exy as ->. apply filter_In. split; [now left|exact Hq].
        - assert (Hne : x <> y) by (intros ->; rewrite (proj2 (pair_eqb_eq y y) eq_refl) in Exy; discriminate).
          destruct Hx as [->|Hx]; [contradiction|]. assert (H : In x (filter q (firsts (y :: seen) l))).
          { apply S4; auto. rewrite in_app_iff. intros [H|[->|[]]]; auto. }
          apply filter_In in H as [H H']. apply filter_In. split; [now right|exact H']. }
      cbn [filter] in *. destruct (q y) eqn:Eq.
      * exists (List.length pre :: idx). split; [constructor; auto|]. split; [|split; [|exact S4']].
        -- constructor; [lia|]. eapply Forall_impl; [|exact S2']. cbn. lia.
        -- constructor.
           ++ split; [rewrite nth_error_app2, Nat.sub_diag by lia; reflexivity|]. split; [exact Eq|].
              intros j Hj. rewrite nth_error_app1 by exact Hj. intros H. apply nth_error_In in H. contradiction.
           ++ rewrite E. exact S3.
      * exists idx. split; [exact S1|]. split; [|split; [rewrite E; exact S3|exact S4']].
        eapply Forall_impl; [|exact S2']. cbn. lia.
Qed.
Lemma firsts_in x l : forall seen, In x (firsts seen l) -> In x l.
Proof.
  induction l as [|y l IH]; intros seen; cbn [firsts]; [auto|]. destruct (existsb _ seen); [|intros [->|H]; [now left|]]; right; eauto.
Qed.
Lemma firsts_head x l : In x (firsts [] (x :: l)).
Proof. cbn. now left. Qed.

Definition as_cells (p : str * Z) : cell * cell := (CStr (fst p), CInt (snd p)).
Lemma as_cells_inj p q : as_cells p = as_cells q -> p = q.
Proof. destruct p, q. unfold as_cells. cbn. congruence. Qed.
Lemma lift m : (forall x, In x m -> exists p, x = as_cells p) -> exists l, m = map as_cells l.
Proof.
  induction m as [|x m IH]; intros H; [now exists []|].
  destruct IH as [l' ->]; [intros z Hz; apply H; now right|]. destruct (H x) as [p ->]; [now left|]. now exists (p :: l').
Qed.
Definition row_task (r : float * dict) (p : str * Z) : Prop :=
  dlookup $"comm" (snd r) = Some (CStr (fst p)) /\ dlookup $"pid" (snd r) = Some (CInt (snd p)).
Theorem pids_ok key fr ps : Forall2 row_task fr ps -> fr <> [] ->
  exists l, get_pids key fr = Ok (map as_cells l) /\ FirstOnes (fun p => Listed key (fst p)) ps l.
Proof.
  intros HF Hne.
  assert (Em : map (fun r => (col_of $"comm" r, col_of $"pid" r)) fr = map as_cells ps).
  { clear Hne. induction HF as [|r p fr ps [H1 H2] HF IH]; [reflexivity|]. cbn [map]. rewrite IH. f_equal. unfold col_of. now rewrite H1, H2. }
  assert (Hc : forall k, k = $"comm" \/ k = $"pid" -> has_col k fr = true).
  { intros k Hk. destruct HF as [|r p fr ps [H1 H2] HF]; [contradiction|]. unfold has_col. cbn [existsb]. destruct Hk as [-> | ->]; now rewrite ?H1, ?H2. }
  unfold get_pids. rewrite !Hc by auto. cbn [andb negb]. rewrite Em.
  assert (Ht : forall x, In x (firsts [] (map as_cells ps)) -> exists p, In p ps /\ x = as_cells p).
  { intros x Hx. apply firsts_in, in_map_iff in Hx as (p & <- & Hp). eauto. }
  assert (E1 : existsb (fun x => is_text (fst x)) (firsts [] (map as_cells ps)) = true).
  { destruct HF as [|r p fr ps _ HF]; [contradiction|]. reflexivity. }
  assert (E2 : forallb (fun x => is_text (fst x)) (firsts [] (map as_cells ps)) = true).
  { apply forallb_forall. intros x Hx. apply Ht in Hx as (p & _ & ->). reflexivity. }
  rewrite E1, E2. cbn [negb]. set (q := fun x : cell * cell => _).
  destruct (firsts_spec q (map as_cells ps) [] []) as (idx & S1 & _ & S3 & S4); [tauto|]. cbn [app] in S3.
  assert (Hq : forall p, q (as_cells p) = true <-> Listed key (fst p)).
  { intros p. unfold q, as_cells. cbn [fst]. apply search_listed. }
  assert (HL : exists l, filter q (firsts [] (map as_cells ps)) = map as_cells l).
  { apply lift. intros x Hx. apply filter_In in Hx as [Hx _]. apply Ht in Hx as (p & _ & ->). eauto. }
  destruct HL as [l El]. exists l. rewrite El in *. split; [reflexivity|]. exists idx. split; [exact S1|]. split.
  - clear -S3 Hq. remember (map as_cells l) as m eqn:Em. revert l Em. induction S3 as [|i x idx m (H1 & H2 & H3) S3 IH]; intros [|p l] Em; try discriminate; constructor.
    + cbn [map] in Em. injection Em as -> _. rewrite nth_error_map in H1. destruct (nth_error ps i) as [p'|] eqn:E; [|discriminate].
      cbn [option_map] in H1. assert (p' = p) as -> by (apply as_cells_inj; congruence). split; [reflexivity|]. split; [now apply Hq|].
      intros j Hj E'. apply (H3 j Hj). rewrite nth_error_map, E'. reflexivity.
    + apply IH. cbn [map] in Em. now injection Em.
  - intros p Hp HP. assert (H : In (as_cells p) (map as_cells l)).
    { apply S4; [now apply in_map|intros []|now apply Hq]. }
    apply in_map_iff in H as (p' & E & H). apply as_cells_inj in E as ->. exact H.
Qed.
(** Failures. *)
Theorem pids_none key fr : (forall r, In r fr -> dlookup $"comm" (snd r) = None) \/ (forall r, In r fr -> dlookup $"pid" (snd r) = None) ->
  get_pids key fr = Err EKey.
Proof.
  assert (Hc : forall k, (forall r, In r fr -> dlookup k (snd r) = None) -> has_col k fr = false).
  { intros k H. unfold has_col. destruct (existsb _ fr) eqn:E; auto. apply existsb_exists in E as (r & Hr & E). rewrite (H r Hr) in E. discriminate. }
  unfold get_pids. intros [H|H]; rewrite (Hc _ H); [reflexivity|]. now rewrite andb_false_r.
Qed.
Theorem pids_number key fr r z : In r fr -> dlookup $"comm" (snd r) = Some (CInt z) -> dlookup $"pid" (snd r) <> None ->
  get_pids key fr = Err EAttribute \/ get_pids key fr = Err EValue.
Proof.
  intros Hi Hc Hp. unfold get_pids.
  assert (H1 : has_col $"comm" fr = true) by (apply existsb_exists; exists r; split; [exact Hi|now rewrite Hc]).
  assert (H2 : has_col $"pid" fr = true) by (apply existsb_exists; exists r; split; [exact Hi|]; destruct (dlookup $"pid" (snd r)); congruence).
  rewrite H1, H2. cbn [andb negb]. set (m := map _ fr). destruct (existsb (fun x => is_text (fst x)) (firsts [] m)); [|now left].
  right. cbn [negb].
  assert (Hx : In (CInt z, col_of $"pid" r) (firsts [] m)).
  { destruct (firsts_spec (fun _ => true) m [] []) as (_ & _ & _ & _ & S4); [tauto|].
    assert (In (CInt z, col_of $"pid" r) (filter (fun _ => true) (firsts [] m))).
    { apply S4; [|intros []|reflexivity]. apply in_map_iff. exists r. split; auto. unfold col_of at 1. now rewrite Hc. }
    now apply filter_In in H as [H _]. }
  destruct (forallb _ (firsts [] m)) eqn:E; [|reflexivity]. rewrite forallb_forall in E. apply E in Hx. discriminate.
Qed.

Lemma rows_tasks L sh ms fr tasks : Forall2 (row_shows Same L sh) ms fr ->
  Forall2 (fun t p => prints_task t (fst p) (snd p)) (map m_text ms) tasks -> Forall2 row_task fr tasks.
Proof.
  intros HR. revert tasks. induction HR as [|m r ms fr (_ & H2 & _) HR IH]; intros tasks HT; cbn [map] in HT; inversion HT as [|? p ? ps Hp HT']; subst; constructor.
    - destruct Hp as (qs & v & more & pv & Et & Hi1 & Hi2 & Hv & Hn & Hpv). rewrite Et in H2. cbn [text_cells] in H2. split.
      + destruct (H2 $"comm" (col_cell v more)) as (c & Hc & E).
        { apply in_map_iff. exists ($"comm", (v, more)). split; [reflexivity|]. apply in_flat_map. eexists. split; [exact Hi1|]. now left. }
        cbn [column shown] in E. destruct Hc as [(z & Hz & _)|[_ ->]]; [now apply Hv in Hz|]. now rewrite Hn.
      + destruct (H2 $"pid" (col_cell pv [])) as (c & Hc & E).
        { apply in_map_iff. exists ($"pid", (pv, [])). split; [reflexivity|]. apply in_flat_map. eexists. split; [exact Hi2|]. now left. }
        cbn [column shown] in E. destruct Hc as [(z & Hz & ->)|[Hz _]]; [|now apply Hz in Hpv].
        rewrite E. do 2 f_equal. apply (literal_unique pv); auto. now apply literal_no_space in Hpv.
    - now apply IH.
Qed.
(** In a written report. *)
Theorem report_pids defs hdr items k tasks : Forall junk_ok hdr -> begins items -> Forall (entry_ok defs) items ->
  In ($"sched_load_avg_task", k) defs -> kind_of k = (Fields, Same) ->
  Forall2 (fun t p => prints_task t (fst p) (snd p)) (texts_of $"sched_load_avg_task" items) tasks -> tasks <> [] ->
  exists st, populate (map (fun d => (k_word (snd d), d)) defs) fzero (ftrace_body (hdr ++ map entry_str items)) = Ok st /\
    forall fuel key, (forall q, In q (parts_in (texts_of $"sched_load_avg_task" items)) -> (arrays q < fuel)%nat) ->
      titles_ok Same (texts_of $"sched_load_avg_task" items) ->
      exists fr l, class_frame fuel k (arr $"sched_load_avg_task" st) = Ok fr /\ get_pids key fr = Ok (map as_cells l) /\
        FirstOnes (fun p => Listed key (fst p)) tasks l.
Proof.
  intros Hh Hs Hok Hk Hkind HT Hne. destruct (entries_frames defs hdr items Hh Hs Hok) as (st & ts & us & Hst & Hts & HA & _ & _ & _ & HF).
  exists st. split; [exact Hst|]. intros fuel key Hfu Hti.
  destruct (HF $"sched_load_avg_task" k fuel Hk) as (fr & Efr & HR).
  { rewrite Hkind. exact Hti. }
  { exact Hfu. }
  rewrite Hkind in HR. cbn [snd] in HR.
  assert (Lu : List.length us = List.length (entry_lines items)).
  { transitivity (List.length ts); [symmetry; eapply Assigned_length; eauto|clear -Hts; induction Hts; cbn; congruence]. }
  pose proof (texts_marked $"sched_load_avg_task" items 0%Z us Lu) as EM. rewrite <- EM in HT.
  set (L := lengths _) in HR. assert (HRT : Forall2 row_task fr tasks).
  { eapply rows_tasks; eauto. }
  destruct (pids_ok key fr tasks HRT) as (l & El & HL).
  { intros ->. inversion HRT. congruence. }
  exists fr, l. auto.
Qed.
