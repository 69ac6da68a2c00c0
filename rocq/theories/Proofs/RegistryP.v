(** Registration, selection and the sanity check. *)
From Coq Require Import List Ascii String ZArith NArith Bool Lia.
From Verif Require Import Lib.PyStr Lib.PyStrFacts Model.Registry Spec.Trace Spec.Select Proofs.PayloadP Proofs.PopulateP.
Import ListNotations.
Local Open Scope list_scope.

(** ** Ambiguity *)
Lemma words_clash_iff a b : words_clash a b = true <-> occurs (k_word a) (k_word b) \/ occurs (k_word b) (k_word a).
Proof. unfold words_clash. rewrite orb_true_iff, !occurs_iff. tauto. Qed.
Lemma any_clash_iff ks : any_clash ks = true <-> Ambiguous ks.
Proof.
  induction ks as [|k ks IH]; cbn [any_clash].
  - split; [discriminate|]. intros (i & j & a & b & _ & H & _). destruct i; discriminate.
  - rewrite orb_true_iff, existsb_exists, IH. split.
    + intros [(b & Hb & Hc)|(i & j & a & b & Hij & Ha & Hb & Hc)].
      * apply In_nth_error in Hb as (j & Hj). exists 0, (S j), k, b. split; [lia|]. do 2 (split; [assumption || reflexivity|]).
        now apply words_clash_iff.
      * exists (S i), (S j), a, b. split; [lia|]. auto.
    + intros (i & j & a & b & Hij & Ha & Hb & Hc). destruct j as [|j]; [lia|]. destruct i as [|i].
      * left. cbn in Ha, Hb. injection Ha as <-. exists b. split; [eapply nth_error_In; eauto|]. now apply words_clash_iff.
      * right. exists i, j, a, b. split; [lia|]. auto.
Qed.
Theorem sanity_reject defs : sanity_check defs = Err ERuntime <-> Ambiguous (map snd defs).
Proof. unfold sanity_check. rewrite <- any_clash_iff. destruct (any_clash _); split; congruence. Qed.
Theorem sanity_accept defs : ~ Ambiguous (map snd defs) <-> sanity_check defs = Ok defs.
Proof.
  unfold sanity_check. rewrite <- any_clash_iff. destruct (any_clash _); split; intros H; try discriminate; auto. exfalso. auto.
Qed.
Lemma occurs_refl w : occurs w w.
Proof. exists [], []. now rewrite app_nil_r. Qed.
Lemma unambiguous_words ks : ~ Ambiguous ks -> NoDup (map k_word ks).
Proof.
  induction ks as [|k ks IH]; intros H; cbn; [constructor|]. constructor.
  - intros Hi. apply in_map_iff in Hi as (b & E & Hb). apply H.
    apply In_nth_error in Hb as (j & Hj). exists 0, (S j), k, b. split; [lia|]. split; [reflexivity|]. split; [exact Hj|].
    left. rewrite E. apply occurs_refl.
  - apply IH. intros (i & j & a & b & Hij & Ha & Hb & Hc). apply H. exists (S i), (S j), a, b. split; [lia|]. auto.
Qed.

Lemma word_table_ok cached : forall defs acc,
  NoDup (map fst acc ++ map k_word (map snd defs)) ->
  word_table cached acc defs = Ok (acc ++ map entry (filter (fun e => negb (cached (fst e))) defs)).
Proof.
  induction defs as [|[attr k] defs IH]; intros acc H; cbn [word_table filter map fst snd].
  - now rewrite app_nil_r.
  - destruct (cached attr) eqn:Ec; cbn [negb].
    + apply IH. cbn in H. now apply NoDup_remove_1 in H.
    + cbn in H. assert (Hn : dget eqs (k_word k) acc = None).
      { apply (dget_None eqs eqs_eq). intros Hi. apply NoDup_remove_2 in H. apply H. apply in_or_app. auto. }
      rewrite Hn, (dset_new eqs) by exact Hn. rewrite IH.
      * rewrite <- app_assoc. reflexivity.
      * rewrite map_app, <- app_assoc. exact H.
Qed.
Theorem table_ok defs cached : sanity_check defs = Ok defs ->
  word_table cached [] defs = Ok (map entry (filter (fun e => negb (cached (fst e))) defs)).
Proof.
  intros H. apply sanity_accept, unambiguous_words in H. now apply (word_table_ok cached defs []).
Qed.

(** ** Selection *)
Definition dict_ok (d : classes) : Prop :=
  NoDup (map fst d) /\ forall n k, In (n, k) d -> k_name k = Some n.
Definition reg_ok (r : registry) : Prop := dict_ok (r_thermal r) /\ dict_ok (r_sched r) /\ dict_ok (r_dynamic r).

Lemma dget_rev (d : classes) n : NoDup (map fst d) -> dget eqs n (rev d) = dget eqs n d.
Proof.
  intros H. destruct (dget eqs n d) as [k|] eqn:E.
  - apply (In_dget eqs eqs_eq); [rewrite map_rev; now apply NoDup_rev|]. rewrite <- in_rev. now apply (dget_In eqs eqs_eq).
  - apply (dget_None eqs eqs_eq) in E. apply (dget_None eqs eqs_eq). now rewrite map_rev, <- in_rev.
Qed.
Lemma dget_update (d ps : classes) n : NoDup (map fst ps) ->
  dget eqs n (dupdate eqs d ps) = or_else (dget eqs n ps) (dget eqs n d).
Proof. intros H. rewrite (dget_dupdate eqs eqs_eq), dget_rev by exact H. unfold or_else. now destruct (dget eqs n ps). Qed.
Lemma dset_in (n m : str) (k c : klass) d : NoDup (map fst d) -> In (m, c) (dset eqs n k d) -> (m = n /\ c = k) \/ (m <> n /\ In (m, c) d).
Proof.
  intros Hn H. apply (In_dget eqs eqs_eq) in H; [|now apply (dset_NoDup eqs eqs_eq)].
  rewrite (dget_dset eqs eqs_eq) in H. destruct (eqs_spec m n) as [->|N].
  - left. injection H as <-. auto.
  - right. split; auto. now apply (dget_In eqs eqs_eq).
Qed.
Lemma dict_ok_set k d : dict_ok d -> dict_ok (dset eqs (given_name k) (named k) d).
Proof.
  intros [Hn Hk]. split; [now apply (dset_NoDup eqs eqs_eq)|]. intros n c Hi.
  apply dset_in in Hi as [[-> ->]|[_ Hi]]; auto.
Qed.
Lemma filter_fst_NoDup (p : str * klass -> bool) (d : classes) : NoDup (map fst d) -> NoDup (map fst (filter p d)).
Proof.
  induction d as [|e d IH]; cbn; auto. inversion 1; subst. destruct (p e); auto. cbn. constructor; auto.
  intros Hi. apply in_map_iff in Hi as (x & E & Hx). apply filter_In in Hx as [Hx _]. apply H2. rewrite <- E. now apply in_map.
Qed.
Lemma dict_ok_drop k d : dict_ok d -> dict_ok (drop_class k d).
Proof.
  intros [Hn Hk]. split; [now apply filter_fst_NoDup|]. intros n c Hi. apply filter_In in Hi as [Hi _]. auto.
Qed.
Theorem reach_ok r : Reach r -> reg_ok r.
Proof.
  induction 1 as [|r k scope r' _ (H1 & H2 & H3) E|r k _ (H1 & H2 & H3)].
  - repeat split; try constructor; intros ? ? [].
  - unfold register in E. destruct (eqs scope $"all" || eqs scope $"dynamic"); [|destruct (eqs scope $"thermal"); [|destruct (eqs scope $"sched"); [|discriminate]]];
    injection E as <-; (split; [|split]); cbn [r_thermal r_sched r_dynamic]; auto; now apply dict_ok_set.
  - split; [|split]; cbn [unregister r_thermal r_sched r_dynamic]; now apply dict_ok_drop.
Qed.

Lemma update_NoDup (ps : classes) : forall d : classes, NoDup (map fst d) -> NoDup (map fst (dupdate eqs d ps)).
Proof. induction ps as [|[n k] ps IH]; intros d H; auto. cbn. apply IH. now apply (dset_NoDup eqs eqs_eq). Qed.
Lemma add_event_NoDup r d ev : NoDup (map fst d) -> NoDup (map fst (add_event r d ev)).
Proof. intros H. unfold add_event. destruct (find _ _) as [[n k]|]; now apply (dset_NoDup eqs eqs_eq). Qed.
Lemma add_events_NoDup_from r evs : forall d, NoDup (map fst d) -> NoDup (map fst (fold_left (add_event r) evs d)).
Proof. induction evs as [|e evs IH]; intros d H; auto. cbn. apply IH. now apply add_event_NoDup. Qed.
Lemma add_events_NoDup r evs : NoDup (map fst (add_events r evs)).
Proof. apply add_events_NoDup_from. constructor. Qed.
Theorem defs_NoDup r scope evs : NoDup (map fst (class_definitions r scope evs)).
Proof.
  unfold class_definitions. pose proof (add_events_NoDup r evs) as H.
  destruct (eqs scope $"thermal"); [|destruct (eqs scope $"sched"); [|destruct (eqs scope $"custom"); auto]]; repeat apply update_NoDup; auto.
Qed.

(** The class selected under a name: later dictionaries hide earlier ones, and
    all hide what [events] added. *)
Theorem selected r scope evs n : Reach r ->
  dget eqs n (class_definitions r scope evs) =
  let asked := dget eqs n (add_events r evs) in
  if eqs scope $"custom" then asked
  else if eqs scope $"thermal" then or_else (in_dynamic r n) (or_else (in_thermal r n) asked)
  else if eqs scope $"sched" then or_else (in_dynamic r n) (or_else (in_sched r n) asked)
  else or_else (in_dynamic r n) (or_else (in_sched r n) (or_else (in_thermal r n) asked)).
Proof.
  intros H. apply reach_ok in H as ((H1 & _) & (H2 & _) & (H3 & _)).
  unfold class_definitions, in_dynamic, in_sched, in_thermal. cbv zeta.
  destruct (eqs_spec scope $"custom") as [->|Hc]; [reflexivity|].
  destruct (eqs_spec scope $"thermal") as [->|Ht]; [now rewrite !dget_update by auto|].
  destruct (eqs_spec scope $"sched") as [->|Hs]; now rewrite !dget_update by auto.
Qed.

Theorem register_scopes r k scope :
  (register r k scope = Err EAttribute <-> ~ In scope [$"all"; $"dynamic"; $"thermal"; $"sched"]) /\
  (In scope [$"all"; $"dynamic"; $"thermal"; $"sched"] -> exists r', register r k scope = Ok r').
Proof.
  unfold register. cbn [In].
  destruct (eqs_spec scope $"all") as [->|N1]; cbn [orb]; [split; [split; [discriminate|intros H; exfalso; auto]|eauto]|].
  destruct (eqs_spec scope $"dynamic") as [->|N2]; cbn [orb]; [split; [split; [discriminate|intros H; exfalso; auto]|eauto]|].
  destruct (eqs_spec scope $"thermal") as [->|N3]; [split; [split; [discriminate|intros H; exfalso; auto]|eauto]|].
  destruct (eqs_spec scope $"sched") as [->|N4]; [split; [split; [discriminate|intros H; exfalso; auto 6]|eauto]|].
  split; [split; auto; intros _|]; intros [E|[E|[E|[E|[]]]]]; congruence.
Qed.
Theorem register_lookup r k scope r' : register r k scope = Ok r' -> forall n,
  let here s := eqs scope s && eqs n (given_name k) in
  in_dynamic r' n = (if here $"all" || here $"dynamic" then Some (named k) else in_dynamic r n) /\
  in_thermal r' n = (if here $"thermal" then Some (named k) else in_thermal r n) /\
  in_sched r' n = (if here $"sched" then Some (named k) else in_sched r n).
Proof.
  unfold register, in_dynamic, in_thermal, in_sched. intros E n. cbv zeta.
  destruct (eqs_spec scope $"all") as [->|N1]; cbn [orb] in E.
  { injection E as <-. cbn [r_thermal r_sched r_dynamic]. rewrite (dget_dset eqs eqs_eq).
    repeat split. cbn. destruct (eqs n (given_name k)); auto. }
  destruct (eqs_spec scope $"dynamic") as [->|N2]; cbn [orb] in E.
  { injection E as <-. cbn [r_thermal r_sched r_dynamic]. rewrite (dget_dset eqs eqs_eq). repeat split. }
  destruct (eqs_spec scope $"thermal") as [->|N3].
  { injection E as <-. cbn [r_thermal r_sched r_dynamic]. rewrite (dget_dset eqs eqs_eq). repeat split. }
  destruct (eqs_spec scope $"sched") as [->|N4]; [|discriminate].
  injection E as <-. cbn [r_thermal r_sched r_dynamic]. rewrite (dget_dset eqs eqs_eq). repeat split.
Qed.

Lemma drop_lookup k d n : NoDup (map fst d) ->
  dget eqs n (drop_class k d) =
  match dget eqs n d with Some c => if N.eqb (k_id k) (k_id c) then None else Some c | None => None end.
Proof.
  intros Hn. induction d as [|[m c] d IH]; cbn; auto. inversion Hn; subst.
  destruct (eqs_spec n m) as [->|Nm].
  - destruct (N.eqb (k_id k) (k_id c)) eqn:Ec; cbn [negb].
    + apply (dget_None eqs eqs_eq). intros Hi. apply H1. apply in_map_iff in Hi as (x & Ex & Hx).
      apply filter_In in Hx as [Hx _]. rewrite <- Ex. now apply in_map.
    + cbn. now rewrite eqs_refl.
  - destruct (negb (N.eqb (k_id k) (k_id c))); auto. cbn. destruct (eqs_spec n m); [congruence|auto].
Qed.
Theorem unregister_lookup r k : Reach r -> forall n,
  let cut o := match o with Some c => if N.eqb (k_id k) (k_id c) then None else Some c | None => None end in
  in_dynamic (unregister r k) n = cut (in_dynamic r n) /\
  in_thermal (unregister r k) n = cut (in_thermal r n) /\
  in_sched (unregister r k) n = cut (in_sched r n).
Proof.
  intros H n. apply reach_ok in H as ((H1 & _) & (H2 & _) & (H3 & _)). cbv zeta.
  unfold in_dynamic, in_thermal, in_sched. cbn [unregister r_thermal r_sched r_dynamic]. now rewrite !drop_lookup.
Qed.

Lemma drop_absent k d : (forall n c, In (n, c) d -> k_id c <> k_id k) -> drop_class k d = d.
Proof.
  induction d as [|[n c] d IH]; intros H; auto. cbn. replace (N.eqb (k_id k) (k_id c)) with false.
  - cbn. f_equal. apply IH. intros m c' Hi. apply (H m). now right.
  - symmetry. apply N.eqb_neq. intros E. apply (H n c); [now left|auto].
Qed.
Lemma drop_added k d : dget eqs (given_name k) d = None -> (forall n c, In (n, c) d -> k_id c <> k_id k) ->
  drop_class k (dset eqs (given_name k) (named k) d) = d.
Proof.
  intros Hn H. rewrite (dset_new eqs) by exact Hn. apply drop_absent in H. unfold drop_class in *. rewrite filter_app, H.
  cbn. rewrite N.eqb_refl. cbn. now rewrite app_nil_r.
Qed.
Theorem register_unregister r k scope r' : register r k scope = Ok r' ->
  (forall d n c, In d [r_thermal r; r_sched r; r_dynamic r] -> In (n, c) d -> k_id c <> k_id k /\ n <> given_name k) ->
  unregister r' k = r.
Proof.
  intros E H.
  assert (Hd : forall d, In d [r_thermal r; r_sched r; r_dynamic r] -> drop_class k d = d /\ drop_class k (dset eqs (given_name k) (named k) d) = d).
  { intros d Hd. split; [apply drop_absent; intros n c Hi; now apply (H d n c)|]. apply drop_added.
    - apply (dget_None eqs eqs_eq). intros Hi. apply in_map_iff in Hi as ([n c] & En & Hi). apply (H d n c) in Hi; auto. now apply Hi.
    - intros n c Hi. now apply (H d n c). }
  assert (D1 := Hd (r_thermal r)). assert (D2 := Hd (r_sched r)). assert (D3 := Hd (r_dynamic r)). cbn [In] in D1, D2, D3.
  destruct D1 as [D1 D1']; auto. destruct D2 as [D2 D2']; auto. destruct D3 as [D3 D3']; auto.
  unfold register in E. destruct r as [t s d]. cbn [r_thermal r_sched r_dynamic] in *.
  destruct (eqs scope $"all" || eqs scope $"dynamic"); [|destruct (eqs scope $"thermal"); [|destruct (eqs scope $"sched"); [|discriminate]]];
    injection E as <-; unfold unregister; cbn [r_thermal r_sched r_dynamic]; congruence.
Qed.

(** ** events= *)
Lemma answers_iff ev k : event_matches ev k = true <-> Answers ev k.
Proof.
  unfold event_matches, Answers. rewrite !orb_true_iff, !eqs_eq. split.
  - intros [[H|H]|H]; auto.
  - intros [H|[H|H]]; auto.
Qed.
Lemma update_dict_ok (ps : classes) : forall d, dict_ok d -> dict_ok ps -> dict_ok (dupdate eqs d ps).
Proof.
  induction ps as [|[n k] ps IH]; intros d [Hd Hk] [Hn Hp]; [split; auto|]. cbn. apply IH.
  - split; [now apply (dset_NoDup eqs eqs_eq)|]. intros m c Hi. apply dset_in in Hi as [[-> ->]|[_ Hi]]; auto.
    apply Hp. now left.
  - split; [now inversion Hn|]. intros m c Hi. apply Hp. now right.
Qed.
Lemma known_dict_ok r : Reach r -> dict_ok (known_events r).
Proof.
  intros H. apply reach_ok in H as (H1 & H2 & H3). unfold known_events.
  repeat apply update_dict_ok; auto. split; [constructor|intros ? ? []].
Qed.
Lemma known_iff r n k : Reach r -> Known r n k <-> In (n, k) (known_events r).
Proof.
  intros H. pose proof (known_dict_ok r H) as [Hn _]. apply reach_ok in H as ((H1 & _) & (H2 & _) & (H3 & _)).
  assert (E : dget eqs n (known_events r) = or_else (in_dynamic r n) (or_else (in_sched r n) (in_thermal r n))).
  { unfold known_events. rewrite !dget_update by auto. cbn. unfold in_dynamic, in_sched, in_thermal.
    destruct (dget eqs n (r_dynamic r)); auto. cbn. destruct (dget eqs n (r_sched r)); auto. cbn. now destruct (dget eqs n (r_thermal r)). }
  unfold Known. rewrite <- E. split; [apply (dget_In eqs eqs_eq)|now apply (In_dget eqs eqs_eq)].
Qed.
Lemma known_name r n k : Reach r -> Known r n k -> given_name k = n.
Proof.
  intros H Hk. apply known_iff in Hk; auto. apply (known_dict_ok r H) in Hk. unfold given_name. now rewrite Hk.
Qed.

Lemma add_event_pick r d ev : Reach r -> exists n c, add_event r d ev = dset eqs n c d /\ Picked r ev n c.
Proof.
  intros H. unfold add_event. destruct (find _ _) as [[m k]|] eqn:E.
  - apply find_some in E as [Hi Ha]. apply known_iff in Hi; auto. cbn in Ha. apply answers_iff in Ha.
    exists (given_name k), k. split; auto. left. rewrite (known_name r m k); auto.
  - exists ev, (new_class ev). split; auto. right. do 5 (split; auto). intros m k Hk Ha.
    apply known_iff in Hk; auto. apply answers_iff in Ha. eapply find_none in E; eauto. cbn in E. congruence.
Qed.
Lemma picked_unique r e1 e2 n c1 c2 : Reach r -> Picked r e1 n c1 -> Picked r e2 n c2 -> c1 = c2.
Proof.
  intros H [[K1 A1]|(-> & _ & _ & _ & -> & N1)] [[K2 A2]|(E & _ & _ & _ & -> & N2)].
  - unfold Known in *. congruence.
  - subst n. exfalso. apply (N2 e2 c1); auto. right. right. now apply (known_name r e2 c1).
  - exfalso. apply (N1 e1 c2); auto. right. right. now apply (known_name r e1 c2).
  - now subst.
Qed.
Theorem add_events_spec r evs : Reach r ->
  (forall ev, In ev evs -> exists n c, dget eqs n (add_events r evs) = Some c /\ Picked r ev n c) /\
  (forall n c, dget eqs n (add_events r evs) = Some c -> exists ev, In ev evs /\ Picked r ev n c).
Proof.
  intros H. unfold add_events. induction evs as [|e evs [IH1 IH2]] using rev_ind.
  - split; [intros ? []|]. discriminate.
  - rewrite fold_left_app. cbn [fold_left]. destruct (add_event_pick r (fold_left (add_event r) evs []) e H) as (m & k & -> & P).
    split.
    + intros ev Hi. apply in_app_iff in Hi as [Hi|[<-|[]]].
      * destruct (IH1 ev Hi) as (n & c & Hg & Pc). exists n, c. split; auto.
        rewrite (dget_dset eqs eqs_eq). destruct (eqs_spec n m) as [->|]; auto. f_equal. eapply picked_unique; eauto.
      * exists m, k. split; auto. rewrite (dget_dset eqs eqs_eq), eqs_refl. reflexivity.
    + intros n c Hg. rewrite (dget_dset eqs eqs_eq) in Hg. destruct (eqs_spec n m) as [->|].
      * injection Hg as <-. exists e. split; auto. apply in_app_iff. cbn. auto.
      * destruct (IH2 n c Hg) as (ev & Hi & Pc). exists ev. split; auto. apply in_app_iff. auto.
Qed.
(** Asking for more events never drops one. *)
Theorem add_events_grow r evs more n c : Reach r -> dget eqs n (add_events r evs) = Some c ->
  dget eqs n (add_events r (evs ++ more)) = Some c.
Proof.
  intros H Hg. destruct (proj2 (add_events_spec r evs H) n c Hg) as (ev & Hi & P).
  destruct (proj1 (add_events_spec r (evs ++ more) H) ev) as (n' & c' & Hg' & P'); [apply in_app_iff; auto|].
  unfold add_events in *. rewrite fold_left_app.
  remember (fold_left (add_event r) evs []) as d. clear Heqd Hg' P' n' c'. revert d Hg.
  induction more as [|e more IH]; intros d Hg; auto. cbn. apply IH.
  destruct (add_event_pick r d e H) as (m & k & -> & P2). rewrite (dget_dset eqs eqs_eq).
  destruct (eqs_spec n m) as [->|]; auto. f_equal. eapply picked_unique; eauto.
Qed.
