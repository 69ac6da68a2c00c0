From Coq Require Import List Ascii String ZArith Bool Sorted Permutation Lia.
From Verif Require Import Lib.PyStr Lib.PyStrFacts Lib.TotalOrder Model.Sysfs Model.Governor Proofs.GovernorP Model.Summary Spec.Summary.
Import ListNotations.
Local Open Scope list_scope.

Lemma dget_ddel {V} (d : list (str * V)) x k : dget eqs k (ddel eqs x d) = if eqs k x then None else dget eqs k d.
Proof.
  unfold ddel. induction d as [|[a v] d IH]; cbn [filter dget fst]; [now destruct (eqs k x)|].
  destruct (eqs x a) eqn:E; cbn [negb].
  - apply eqs_eq in E. subst. rewrite IH. destruct (eqs k a); auto.
  - cbn [dget]. rewrite IH. destruct (eqs k a) eqn:E2; auto. apply eqs_eq in E2. subst. destruct (eqs a x) eqn:E3; auto.
    apply eqs_eq in E3. subst. assert (eqs x x = true) by now apply eqs_eq. congruence.
Qed.
Lemma dget_snoc {V} (d : list (str * V)) x v k : dmem eqs x d = false -> dget eqs k (d ++ [(x, v)]) = if eqs k x then Some v else dget eqs k d.
Proof.
  unfold dmem. induction d as [|[a w] d IH]; cbn [app dget]; [intros _; now destruct (eqs k x)|].
  destruct (eqs x a) eqn:E; [discriminate|]. intros H. rewrite IH by auto. destruct (eqs k a) eqn:E2; auto. apply eqs_eq in E2. subst.
  destruct (eqs a x) eqn:E3; auto. apply eqs_eq in E3. subst. assert (eqs x x = true) by now apply eqs_eq. congruence.
Qed.
Lemma sort_params_ok ps : NoDup (map fst ps) -> Rows ps (sort_params ps).
Proof.
  intros ND. unfold Rows, sort_params.
  assert (M : forall ks, (forall k, In k ks -> In k (map fst ps)) ->
    map fst (flat_map (fun k => match dget eqs k ps with Some v => [(k, v)] | None => [] end) ks) = ks).
  { induction ks as [|k ks IH]; intros H; cbn [flat_map]; auto. rewrite map_app, IH by (intros; apply H; now right).
    destruct (dget eqs k ps) as [v|] eqn:E; auto. exfalso. apply (dget_None eqs eqs_eq) in E. apply E, H. now left. }
  assert (I : forall k, In k (sort_u str_leb (map fst ps)) <-> In k (map fst ps)) by (intros; apply sort_u_In; apply str_leb_total).
  rewrite M by (intros; now apply I). split; [|apply sort_u_sorted, str_leb_total].
  apply NoDup_Permutation.
  - apply (NoDup_map_inv fst). rewrite M by (intros; now apply I). eapply sorted_nodup; [apply str_leb_total|]. apply sort_u_sorted, str_leb_total.
  - now apply (NoDup_map_inv fst).
  - intros [k v]. rewrite in_flat_map. split.
    + intros (k' & Hk & H). destruct (dget eqs k' ps) as [v'|] eqn:E; [|easy]. destruct H as [[= -> ->]|[]]. now apply (dget_In eqs eqs_eq).
    + intros H. exists k. split; [apply I, in_map_iff; now exists (k, v)|]. rewrite (In_dget eqs eqs_eq k v ps) by auto. now left.
Qed.

Section SummaryP.
  Context {V R : Type} (of_int : Z -> V).
  Notation kwords := (list (str * V)).
  Variables (ftrace : V -> V -> res R) (params : V -> list (str * param)) (draw : figure -> list R -> kwords -> res unit).
  Hypothesis PARAMS : forall p, NoDup (map fst (params p)).
  Notation compare_runs := (compare_runs of_int ftrace params draw).
  Notation calls := (Summary.calls draw).
  Notation load := (Summary.load ftrace params).

  Lemma reads_cons n p rest (l : list (@step V R)) : Reads params rest l -> Reads params ((n, p) :: rest) (Read n p :: table (params p) ++ l).
  Proof.
    intros H. unfold table. destruct (params p) eqn:E; cbn [app]; [now constructor|]. rewrite <- E. apply Reads_table; auto; [congruence|]. now apply sort_params_ok.
  Qed.
  Lemma load_ok runs rs : Forall2 (fun r t => ftrace (fst r) (snd r) = Ok t) runs rs ->
    exists l, load runs = (l, Ok rs) /\ Reads params runs l.
  Proof.
    induction 1 as [|[n p] t runs rs H _ (l & E & IH)]; [exists []; split; [reflexivity|constructor]|].
    cbn [Summary.load]. cbn [fst snd] in H. rewrite H, E. eexists. split; [reflexivity|]. now apply reads_cons.
  Qed.
  Lemma load_fail pre n p post rs e : Forall2 (fun r t => ftrace (fst r) (snd r) = Ok t) pre rs -> ftrace n p = Err e ->
    exists l, load (pre ++ (n, p) :: post) = (l ++ [Read n p], Err e) /\ Reads params pre l.
  Proof.
    intros H E. induction H as [|[n' p'] t pre rs H _ (l & E1 & IH)].
    - cbn. rewrite E. exists []. split; [reflexivity|constructor].
    - cbn [Summary.load app]. cbn [fst snd] in H. rewrite H, E1. exists (Read n' p' :: table (params p') ++ l). split; [|apply reads_cons, IH].
      cbn [bind app]. f_equal. f_equal. apply app_assoc.
  Qed.
  Definition fits (fk : figure * kwords) : Prop := known_keywords (takes (fst fk)) (snd fk).
  Lemma fits_b (fk : figure * kwords) : fits fk <-> forallb (fun k => existsb (eqs (fst k)) (takes (fst fk))) (snd fk) = true.
  Proof.
    unfold fits, known_keywords. rewrite forallb_forall. split.
    - intros H x Hx. apply existsb_exists. exists (fst x). split; [apply H, in_map_iff; eauto|now apply eqs_eq].
    - intros H k Hk. apply in_map_iff in Hk as (x & <- & Hx). apply H in Hx. apply existsb_exists in Hx as (y & Hy & E). apply eqs_eq in E. congruence.
  Qed.
  Definition drawn (rs : list R) (fk : figure * kwords) : @step V R := Draw (fst fk) rs (snd fk).
  Lemma calls_pre pre rest rs : Forall fits pre -> (forall f kw, In (f, kw) pre -> draw f rs kw = Ok tt) ->
    calls (pre ++ rest) rs = (map (drawn rs) pre ++ fst (calls rest rs), snd (calls rest rs)).
  Proof.
    induction pre as [|[f kw] pre IH]; intros HF HD; cbn [app map]; [now destruct (calls rest rs)|].
    inversion HF as [|? ? Hf HF']; subst. cbn [Summary.calls]. unfold Summary.call. apply fits_b in Hf. cbn [fst snd] in Hf. rewrite Hf.
    rewrite (HD f kw) by now left. rewrite IH; auto. intros; apply HD; now right.
  Qed.
  Lemma calls_fail f kw rest rs e : fits (f, kw) -> draw f rs kw = Err e ->
    calls ((f, kw) :: rest) rs = ([Draw f rs kw], Err (match f, e with FLoad, EIndex => EValue | _, _ => e end)).
  Proof. intros Hf E. cbn [Summary.calls]. unfold Summary.call. apply fits_b in Hf. cbn [fst snd] in Hf. rewrite Hf, E. reflexivity. Qed.
  Lemma calls_misfit f kw rest rs : ~ fits (f, kw) -> calls ((f, kw) :: rest) rs = ([], Err EType).
  Proof.
    intros Hf. cbn [Summary.calls]. unfold Summary.call. destruct (forallb _ kw) eqn:E; [exfalso; apply Hf, fits_b, E|]. destruct f; reflexivity.
  Qed.

  Definition sized_kw (kw : kwords) : kwords := default of_int $"height" 5 (default of_int $"width" 20 kw).
  Definition script (kw : kwords) : list (figure * kwords) :=
    let w := sized_kw kw in let t := ddel eqs $"tz_id" w in
    [(FTemperature, w); (FLoad, t); (FAllFreqs, t); (FController, t); (FInputPower, t); (FOutputPower, t); (FFreqHists, []); (FTemperatureHist, [])].
  Lemma dget_default k v d x : dget eqs x (default of_int k v d) = match dget eqs x d with Some w => Some w | None => if eqs x k then Some (of_int v) else None end.
  Proof.
    unfold default. destruct (dmem eqs k d) eqn:E.
    - unfold dmem in E. destruct (dget eqs x d) eqn:G; auto. destruct (eqs x k) eqn:X; auto. apply eqs_eq in X. subst. rewrite G in E. discriminate.
    - rewrite dget_snoc by auto. destruct (eqs x k) eqn:X; [|now destruct (dget eqs x d)]. apply eqs_eq in X. subst. unfold dmem in E.
      destruct (dget eqs k d); [discriminate|auto].
  Qed.
  Lemma script_ok kw : Script of_int kw (script kw).
  Proof.
    eexists _, _. split; [|split; [|reflexivity]].
    - intros k. unfold sized_kw, sized. rewrite !dget_default. destruct (dget eqs k kw); auto. destruct (eqs k $"width"); auto.
    - intros k. rewrite dget_ddel. unfold without. cbn [existsb]. rewrite orb_false_r. reflexivity.
  Qed.
  Lemma compare_eq a m runs kw rs l : load runs = (l, Ok rs) -> compare_runs (Right a) (Right m) runs kw = (l ++ fst (calls (script kw) rs), snd (calls (script kw) rs)).
  Proof. intros E. unfold Summary.compare_runs. rewrite E. cbv zeta. fold (sized_kw kw). unfold script. cbv zeta. destruct (calls _ rs). reflexivity. Qed.

  Lemma keys_default k v d x : In x (map fst (default of_int k v d)) -> x = k \/ In x (map fst d).
  Proof. unfold default. destruct (dmem eqs k d); auto. rewrite map_app, in_app_iff. cbn. intuition. Qed.
  Lemma keys_default_r k v d x : In x (map fst d) -> In x (map fst (default of_int k v d)).
  Proof. unfold default. destruct (dmem eqs k d); auto. rewrite map_app, in_app_iff. auto. Qed.
  Lemma keys_sized kw x : In x (map fst (sized_kw kw)) -> x = $"width" \/ x = $"height" \/ In x (map fst kw).
  Proof. intros H. apply keys_default in H as [H|H]; auto. apply keys_default in H as [H|H]; auto. Qed.
  Lemma keys_ddel (d : kwords) k x : In x (map fst (ddel eqs k d)) <-> In x (map fst d) /\ x <> k.
  Proof.
    unfold ddel. rewrite !in_map_iff. split.
    - intros (y & <- & H). apply filter_In in H as [H1 H2]. split; [eauto|]. intros <-. rewrite (proj2 (eqs_eq (fst y) (fst y)) eq_refl) in H2. discriminate.
    - intros ((y & <- & H) & N). exists y. split; auto. apply filter_In. split; auto. destruct (eqs k (fst y)) eqn:E; auto. apply eqs_eq in E. congruence.
  Qed.
  Lemma script_fits kw : known_keywords [$"width"; $"height"; $"tz_id"] kw -> Forall fits (script kw).
  Proof.
    intros K. assert (W : known_keywords [$"width"; $"height"; $"ylim"; $"tz_id"] (sized_kw kw)).
    { intros x Hx. apply keys_sized in Hx as [-> | [-> | Hx]]; cbn; auto. apply K in Hx. cbn in Hx. cbn. intuition. }
    assert (T : known_keywords [$"width"; $"height"] (ddel eqs $"tz_id" (sized_kw kw))).
    { intros x Hx. apply keys_ddel in Hx as [Hx N]. apply keys_sized in Hx as [-> | [-> | Hx]]; cbn; auto. apply K in Hx. cbn in Hx. intuition. }
    unfold script. cbv zeta. repeat (apply Forall_cons); try apply Forall_nil; try exact W; try exact T; intros x [].
  Qed.

  Theorem all_drawn a m runs kw rs : known_keywords [$"width"; $"height"; $"tz_id"] kw -> Forall2 (fun r t => ftrace (fst r) (snd r) = Ok t) runs rs ->
    exists l fs, Reads params runs l /\ Script of_int kw fs /\
      ((forall f k, In (f, k) fs -> draw f rs k = Ok tt) -> compare_runs (Right a) (Right m) runs kw = (l ++ map (fun fk => Draw (fst fk) rs (snd fk)) fs, Ok tt)) /\
      (forall pre f k post e, fs = pre ++ (f, k) :: post -> (forall f' k', In (f', k') pre -> draw f' rs k' = Ok tt) -> draw f rs k = Err e ->
         (f, e) <> (FLoad, EIndex) -> compare_runs (Right a) (Right m) runs kw = (l ++ map (fun fk => Draw (fst fk) rs (snd fk)) (pre ++ [(f, k)]), Err e)) /\
      (forall k0 k post, fs = k0 :: (FLoad, k) :: post -> draw (fst k0) rs (snd k0) = Ok tt -> draw FLoad rs k = Err EIndex ->
         compare_runs (Right a) (Right m) runs kw = (l ++ [Draw (fst k0) rs (snd k0); Draw FLoad rs k], Err EValue)).
  Proof.
    intros K HF. destruct (load_ok runs rs HF) as (l & E & HR). exists l, (script kw). split; auto. split; [apply script_ok|].
    rewrite (compare_eq a m runs kw rs l E). pose proof (script_fits kw K) as F. change (fun fk => Draw (fst fk) rs (snd fk)) with (drawn rs).
    split; [|split].
    - intros D. rewrite <- (app_nil_r (script kw)), (calls_pre (script kw) [] rs F D). cbn [fst snd Summary.calls]. now rewrite !app_nil_r.
    - intros pre f k post e Es D De N. rewrite Es in *. apply Forall_app in F as [F1 F2]. inversion F2 as [|? ? F3 F4]; subst.
      rewrite (calls_pre pre _ rs F1 D), (calls_fail f k post rs e F3 De). cbn [fst snd]. rewrite map_app. cbn [map]. f_equal.
      f_equal. destruct f; auto. destruct e; auto. congruence.
    - intros k0 k post Es D De. rewrite Es in *. inversion F as [|? ? F1 F2]; subst. inversion F2 as [|? ? F3 F4]; subst.
      change (k0 :: (FLoad, k) :: post) with ([k0] ++ (FLoad, k) :: post). rewrite calls_pre; [|now constructor|now intros f' k' [-> |[]]]. rewrite (calls_fail FLoad k post rs EIndex F3 De). reflexivity.
  Qed.
  Theorem not_read a m pre n p post rs e kw : Forall2 (fun r t => ftrace (fst r) (snd r) = Ok t) pre rs -> ftrace n p = Err e ->
    exists l, compare_runs (Right a) (Right m) (pre ++ (n, p) :: post) kw = (l ++ [Read n p], Err e) /\ Reads params pre l.
  Proof. intros H E. destruct (load_fail pre n p post rs e H E) as (l & El & HR). exists l. split; auto. unfold Summary.compare_runs. now rewrite El. Qed.
  Theorem wrong_types a m runs kw : a = Other \/ m = Other -> compare_runs a m runs kw = ([], Err EType).
  Proof. intros [-> | ->]; unfold Summary.compare_runs; auto. destruct a; auto. Qed.
  Theorem unknown_keyword a m runs kw rs k : Forall2 (fun r t => ftrace (fst r) (snd r) = Ok t) runs rs ->
    In k (map fst kw) -> ~ In k [$"width"; $"height"; $"ylim"; $"tz_id"] ->
    exists l, compare_runs (Right a) (Right m) runs kw = (l, Err EType) /\ Reads params runs l.
  Proof.
    intros HF Hk N. destruct (load_ok runs rs HF) as (l & E & HR). exists l. split; auto. rewrite (compare_eq a m runs kw rs l E).
    unfold script. cbv zeta. rewrite calls_misfit; [cbn [fst snd]; now rewrite app_nil_r|]. intros F. apply N, (F k). now do 2 apply keys_default_r.
  Qed.
  Theorem ylim_keyword a m runs kw rs : Forall2 (fun r t => ftrace (fst r) (snd r) = Ok t) runs rs ->
    In $"ylim" (map fst kw) -> known_keywords [$"width"; $"height"; $"ylim"; $"tz_id"] kw -> (forall k, draw FTemperature rs k = Ok tt) ->
    exists l w, compare_runs (Right a) (Right m) runs kw = (l ++ [Draw FTemperature rs w], Err EType) /\ Reads params runs l /\ looks_up w (sized of_int kw).
  Proof.
    intros HF Hy K HD. destruct (load_ok runs rs HF) as (l & E & HR). exists l, (sized_kw kw). split; [|split; auto].
    - rewrite (compare_eq a m runs kw rs l E). unfold script. cbv zeta. match goal with |- context [calls (?x :: ?r) rs] => change (x :: r) with ([x] ++ r) end. rewrite calls_pre.
      + rewrite calls_misfit; [reflexivity|]. intros F. assert (H : In $"ylim" (takes FLoad)).
        { apply F, keys_ddel. split; [now do 2 apply keys_default_r|discriminate]. }
        cbn in H. intuition discriminate.
      + constructor; [|constructor]. intros x Hx. apply keys_sized in Hx as [-> | [-> | Hx]]; [cbn; auto|cbn; auto|now apply K].
      + intros f k [[= <- <-]|[]]. auto.
    - destruct (script_ok kw) as (w & t & Hw & _ & Es). injection Es as -> _. exact Hw.
  Qed.
  Variable of_str : str -> V.
  Theorem summary_ok a m kw :
    exists kw', looks_up kw' (without [$"path"; $"title"] kw) /\
      let value k d := match dget eqs k kw with Some v => v | None => of_str d end in
      summary_plots of_int of_str ftrace params draw a m kw =
        if dmem eqs $"runs" kw then ([], Err EType) else compare_runs a m [(value $"title" [], value $"path" $".")] kw'.
  Proof.
    exists (ddel eqs $"title" (ddel eqs $"path" kw)). split.
    - intros k. rewrite !dget_ddel. unfold without. cbn [existsb]. rewrite orb_false_r. destruct (eqs k $"path"), (eqs k $"title"); reflexivity.
    - cbv zeta. unfold summary_plots, or_str. cbv zeta. unfold dmem. rewrite !dget_ddel. reflexivity.
  Qed.
End SummaryP.
