From Coq Require Import List Ascii String ZArith Bool Arith Lia.
From Verif Require Import Lib.PyStr Lib.TotalOrder Model.Power Model.AllFreqs Model.Compare Spec.Compare.
Import ListNotations.
Local Open Scope list_scope.

Lemma zip_all_grid : forall {A} (f : nat -> nat -> A) cs rs, rs <> [] ->
  zip_all (map (fun r => map (f r) cs) rs) = map (fun c => map (fun r => f r c) rs) cs.
Proof.
  intros A f cs rs. induction rs as [|r rs IH]; [congruence|intros _].
  destruct rs as [|r' rs].
  - cbn. rewrite map_map. reflexivity.
  - cbn [map]. change (zip_all (map (f r) cs :: map (f r') cs :: map (fun r0 => map (f r0) cs) rs))
      with (map (fun p => fst p :: snd p) (combine (map (f r) cs) (zip_all (map (fun r0 => map (f r0) cs) (r' :: rs))))).
    rewrite IH by congruence. clear IH. change (fun c => f r c :: f r' c :: map (fun r0 => f r0 c) rs) with (fun c => f r c :: map (fun r0 => f r0 c) (r' :: rs)).
    generalize (r' :: rs). intros l. induction cs as [|c cs IH]; cbn; [reflexivity|]. f_equal. assumption.
Qed.
Lemma mapM_ok : forall {A B} (f : A -> res B) (g : A -> B) l, (forall x, In x l -> f x = Ok (g x)) -> mapM f l = Ok (map g l).
Proof. intros A B f g l. induction l as [|a l IH]; intros H; cbn; [reflexivity|]. rewrite H by (left; reflexivity). cbn. rewrite IH; [reflexivity|]. intros. apply H. right. assumption. Qed.
(** A column of axes. *)
Definition col (n j : nat) : val := VSeq (map (fun k => VAx (k, j)) (seq 0 n)).
Lemma zip_star_grid : forall m n, m <> 0 ->
  zip_star (VSeq (map (fun r => VSeq (map (fun c => VAx (r, c)) (seq 0 n))) (seq 0 m))) = Ok (VSeq (map (col m) (seq 0 n))).
Proof.
  intros m n H. unfold zip_star, items at 1. cbn [bind].
  rewrite (mapM_ok _ (fun v => match v with VSeq l => l | VAx _ => [] end)).
  - cbn [bind]. rewrite map_map. rewrite (zip_all_grid (fun r c => VAx (r, c))) by (destruct m; cbn; congruence). rewrite map_map. reflexivity.
  - intros x Hx. apply in_map_iff in Hx. destruct Hx as (r & <- & _). reflexivity.
Qed.

Section Compare.
  Context {R : Type}.
  Notation drawing := (drawing R).
  Lemma combine_seq_in : forall {A} (l : list A) s j a, In (j, a) (combine (seq s (List.length l)) l) <-> s <= j /\ nth_error l (j - s) = Some a.
  Proof.
    intros A l. induction l as [|x l IH]; intros s j a; cbn [List.length seq combine In].
    - split; [intros []|]. intros [_ H]. destruct (j - s); discriminate.
    - rewrite IH. split.
      + intros [E|[H1 H2]]; [inversion E; subst; rewrite Nat.sub_diag; split; [lia|reflexivity]|].
        split; [lia|]. replace (j - s) with (S (j - S s)) by lia. exact H2.
      + intros [H1 H2]. destruct (Nat.eq_dec s j) as [->|N]; [left; rewrite Nat.sub_diag in H2; cbn in H2; inversion H2; reflexivity|].
        right. split; [lia|]. replace (j - s) with (S (j - S s)) in H2 by lia. exact H2.
  Qed.
  Lemma combine_seq_in_cut : forall {A} (l : list A) n s j a, List.length l <= n -> In (j, a) (combine (seq s n) l) <-> s <= j /\ nth_error l (j - s) = Some a.
  Proof.
    intros A l n s j a H. rewrite <- combine_seq_in. replace n with (List.length l + (n - List.length l)) by lia.
    rewrite seq_app. generalize (seq (s + List.length l) (n - List.length l)). intros t. clear H.
    replace (combine (seq s (List.length l) ++ t) l) with (combine (seq s (List.length l)) l); [reflexivity|].
    revert s. induction l as [|x l IH]; intros s; cbn; [destruct t; reflexivity|]. f_equal. apply IH.
  Qed.
  Lemma combine_fst_nodup : forall {A} (l : list A) n s, NoDup (map fst (combine (seq s n) l)) /\ (forall k, In k (map fst (combine (seq s n) l)) -> s <= k < s + n).
  Proof.
    intros A l. induction l as [|x l IH]; intros n s.
    - destruct n; cbn; (split; [constructor|intros k []]).
    - destruct n; cbn [seq combine map fst]; [split; [constructor|intros k []]|].
      destruct (IH n (S s)) as [N I]. split.
      + constructor; [|assumption]. intros H. apply I in H. lia.
      + intros k [<-|H]; [lia|]. apply I in H. lia.
  Qed.

  Definition placed (D : R -> list (nat * plot)) (runs : list R) : list drawing :=
    List.concat (map (fun jr => map (fun kp => ((fst kp, fst jr), snd jr, snd kp)) (D (snd jr))) (combine (seq 0 (List.length runs)) runs)).
  Lemma for_runs_ok : forall (F : nat -> val) (D : R -> list (nat * plot)) runs draw,
    (forall j r, nth_error runs j = Some r -> draw (F j) r = Ok (map (fun kp => ((fst kp, j), r, snd kp)) (D r))) ->
    for_runs (VSeq (map F (seq 0 (List.length runs)))) runs draw = Ok (placed D runs).
  Proof.
    intros F D runs draw H. unfold for_runs, placed. cbn [items bind].
    assert (E : combine (map F (seq 0 (List.length runs))) runs = map (fun jr => (F (fst jr), snd jr)) (combine (seq 0 (List.length runs)) runs)).
    { clear H. generalize 0. induction runs as [|r runs IH]; intros s; cbn; [reflexivity|]. f_equal. apply IH. }
    rewrite E.
    assert (G : forall l, incl l (combine (seq 0 (List.length runs)) runs) ->
      mapM (fun p => draw (fst p) (snd p)) (map (fun jr => (F (fst jr), snd jr)) l) = Ok (map (fun jr => map (fun kp => ((fst kp, fst jr), snd jr, snd kp)) (D (snd jr))) l)).
    { induction l as [|[j r] l IH]; intros I; cbn [map mapM fst snd]; [reflexivity|].
      rewrite (H j r).
      - cbn [bind]. rewrite IH; [reflexivity|]. intros x Hx. apply I. right. assumption.
      - assert (J : In (j, r) (combine (seq 0 (List.length runs)) runs)) by (apply I; left; reflexivity).
        apply combine_seq_in in J. rewrite Nat.sub_0_r in J. apply J. }
    rewrite G by (apply incl_refl). reflexivity.
  Qed.
  Lemma placed_ok : forall (D : R -> list (nat * plot)) runs, (forall r, In r runs -> NoDup (map fst (D r))) ->
    InColumns runs (fun r k p => In (k, p) (D r)) (placed D runs).
  Proof.
    intros D runs N. split.
    - intros k j r p. unfold placed. rewrite <- flat_map_concat_map. rewrite in_flat_map. split.
      + intros ([j' r'] & I & H). apply in_map_iff in H. destruct H as ([k' p'] & E & H). cbn in E, H. inversion E; subst.
        apply combine_seq_in in I. rewrite Nat.sub_0_r in I. split; [apply I|assumption].
      + intros [I H]. exists (j, r). split; [apply combine_seq_in; rewrite Nat.sub_0_r; split; [lia|assumption]|].
        apply in_map_iff. exists (k, p). split; [reflexivity|assumption].
    - unfold placed. generalize 0 as s. induction runs as [|r runs IH]; intros s; cbn [List.length seq combine map List.concat]; [constructor|].
      rewrite map_app, map_map. cbn [fst snd].
      assert (IH' := IH (fun r0 h => N r0 (or_intror h)) (S s)). clear IH.
      assert (N1 : NoDup (map (fun x : nat * plot => (fst x, s)) (D r))).
      { specialize (N r (or_introl eq_refl)). induction (D r) as [|[k p] d IHd]; cbn in *; [constructor|]. inversion N; subst.
        constructor; [|apply IHd; assumption]. intros H. apply in_map_iff in H. destruct H as ([k' p'] & E & H). cbn in E. inversion E; subst.
        apply H1. apply in_map_iff. exists (k, p'). split; [reflexivity|assumption]. }
      revert N1. generalize (D r). intros d. induction d as [|[k p] d IHd]; cbn [map List.app]; intros N1; [exact IH'|].
      inversion N1; subst. constructor; [|apply IHd; assumption].
      intros H. apply in_app_iff in H. destruct H as [H|H]; [contradiction|].
      apply in_map_iff in H. destruct H as ([[c r'] p'] & E & H). cbn in E. subst c.
      rewrite <- flat_map_concat_map in H. apply in_flat_map in H. destruct H as ([j' r''] & I & H).
      apply in_map_iff in H. destruct H as ([k' p''] & E & H). cbn in E. inversion E; subst.
      apply combine_seq_in in I. lia.
  Qed.
  Lemma placed_iff : forall (D : R -> list (nat * plot)) runs (At : R -> nat -> plot -> Prop), (forall r, In r runs -> NoDup (map fst (D r))) ->
    (forall r k p, In r runs -> (In (k, p) (D r) <-> At r k p)) -> InColumns runs At (placed D runs).
  Proof.
    intros D runs At N H. destruct (placed_ok D runs N) as [A B]. split; [|assumption].
    intros k j r p. rewrite A. split; intros [E I]; (split; [assumption|]); apply (H r); try assumption; eapply nth_error_In; exact E.
  Qed.

  (** The arrangement of the axes as one column for each run. *)
  Lemma arrange_two : forall m n, 2 <= m -> n <> 0 ->
    (do axis <- subplots m n ;; if n =? 1 then Ok (VSeq [axis]) else zip_star axis) = Ok (VSeq (map (col m) (seq 0 n))).
  Proof.
    intros m n Hm Hn. unfold subplots.
    destruct (Nat.eqb_spec m 0); [lia|]. destruct (Nat.eqb_spec n 0); [lia|]. destruct (Nat.eqb_spec m 1); [lia|]. cbn [orb andb].
    destruct (Nat.eqb_spec n 1) as [->|N]; cbn [bind].
    - reflexivity.
    - apply zip_star_grid. lia.
  Qed.
  Lemma arrange_any : forall m n, m <> 0 -> n <> 0 ->
    (do axis <- subplots m n ;;
     if n =? 1 then (if m =? 1 then Ok (VSeq [VSeq [axis]]) else Ok (VSeq [axis]))
     else if m =? 1 then do l <- items axis ;; Ok (VSeq (map (fun a => VSeq [a]) l))
     else zip_star axis) = Ok (VSeq (map (col m) (seq 0 n))).
  Proof.
    intros m n Hm Hn. destruct (Nat.eqb_spec m 1) as [->|N].
    - unfold subplots. cbn [Nat.eqb orb]. destruct (Nat.eqb_spec n 0); [lia|]. cbn [andb].
      destruct (Nat.eqb_spec n 1) as [->|N1]; cbn [bind]; [reflexivity|]. cbn [items bind]. rewrite map_map. reflexivity.
    - rewrite <- arrange_two by lia. destruct (subplots m n); reflexivity.
  Qed.
  Lemma arrange_one : forall n, n <> 0 ->
    (do axis <- subplots 1 n ;; Ok (if n =? 1 then VSeq [axis] else axis)) = Ok (VSeq (map (fun j => VAx (0, j)) (seq 0 n))).
  Proof.
    intros n Hn. unfold subplots. cbn [Nat.eqb orb]. destruct (Nat.eqb_spec n 0); [lia|]. cbn [andb].
    destruct (Nat.eqb_spec n 1) as [->|N1]; reflexivity.
  Qed.
  Lemma bind_assoc : forall {A B C} (x : res A) (f : A -> res B) (g : B -> res C), bind (bind x f) g = bind x (fun a => bind (f a) g).
  Proof. intros. destruct x; reflexivity. Qed.
  Lemma draw_list : forall m s j (r : R) (ps : list plot),
    (do ds <- mapM (fun p => on (fst p) r (snd p)) (combine (map (fun k => VAx (k, j)) (seq s m)) ps) ;; Ok (List.concat ds)) =
    Ok (map (fun kp => ((fst kp, j), r, snd kp)) (combine (seq s m) ps)).
  Proof.
    intros m s j r ps. revert s ps. induction m as [|m IH]; intros s ps; [reflexivity|].
    destruct ps as [|p ps]; [reflexivity|]. cbn [seq map combine mapM fst snd]. specialize (IH (S s) ps).
    unfold on at 1. cbn [axis_of bind]. destruct (mapM _ _) as [ds|e]; cbn [bind] in *; [|discriminate].
    inversion IH as [E]. cbn. repeat f_equal; exact E.
  Qed.
  Lemma combine_map_r : forall {A B C} (f : B -> C) (l : list A) (l' : list B), combine l (map f l') = map (fun p => (fst p, f (snd p))) (combine l l').
  Proof. intros A B C f l. induction l; intros [|b l']; cbn; [reflexivity..|]. f_equal. apply IHl. Qed.
  Lemma mapM_map : forall {A B C} (f : A -> B) (g : B -> res C) l, mapM g (map f l) = mapM (fun x => g (f x)) l.
  Proof. intros A B C f g l. induction l; cbn; [reflexivity|]. destruct (g (f a)); cbn; [rewrite IHl|]; reflexivity. Qed.

  Lemma load_ok : forall runs : list R, runs <> [] -> exists out, plot_load runs = Ok out /\
    InColumns runs (fun _ k p => k = 0 /\ p = PLoad \/ k = 1 /\ p = PNormalized) out.
  Proof.
    intros runs H. assert (L : List.length runs <> 0) by (destruct runs; cbn; congruence).
    exists (placed (fun _ => [(0, PLoad); (1, PNormalized)]) runs). split.
    - unfold plot_load. rewrite <- bind_assoc. rewrite arrange_two by lia. cbn [bind]. apply for_runs_ok. intros j r _. reflexivity.
    - apply placed_iff.
      + intros. repeat constructor; cbn; intuition congruence.
      + intros r k p _. cbn. split.
        * intros [E|[E|[]]]; inversion E; subst; auto.
        * intros [[-> ->]|[-> ->]]; auto.
  Qed.
  Lemma one_ok : forall runs : list R, runs <> [] -> exists out, plot_one runs = Ok out /\ InColumns runs (fun _ k p => k = 0 /\ p = POne) out.
  Proof.
    intros runs H. assert (L : List.length runs <> 0) by (destruct runs; cbn; congruence).
    exists (placed (fun _ => [(0, POne)]) runs). split.
    - unfold plot_one. assert (A := arrange_one _ L). destruct (subplots 1 (List.length runs)) as [v|e]; [|discriminate].
      cbn [bind] in *. cbv zeta. inversion A as [E]. rewrite E. apply for_runs_ok. intros j r _. reflexivity.
    - apply placed_iff.
      + intros. repeat constructor; cbn; intuition congruence.
      + intros r k p _. cbn. split; [intros [E|[]]; inversion E; auto|intros [-> ->]; auto].
  Qed.
  Context (dev_rows : R -> nat).
  Lemma freq_rows : forall runs labels r, In r runs ->
    labels + (if dev_rows r =? 0 then 0 else 1) <= number_freq_plots dev_rows runs labels.
  Proof.
    intros runs labels r I. unfold number_freq_plots. destruct (Nat.eqb_spec (dev_rows r) 0) as [E|N]; [lia|].
    replace (existsb (fun r0 => 0 <? dev_rows r0) runs) with true; [lia|]. symmetry. apply existsb_exists. exists r. split; [assumption|].
    apply Nat.ltb_lt. lia.
  Qed.
  Lemma allfreqs_ok : forall (all_freqs : R -> list str) runs labels, runs <> [] -> 0 < number_freq_plots dev_rows runs labels ->
    (forall r, In r runs -> List.length (all_freqs r) <= labels + (if dev_rows r =? 0 then 0 else 1)) ->
    exists out, plot_allfreqs dev_rows all_freqs runs labels = Ok out /\
    InColumns runs (fun r k p => exists l, nth_error (all_freqs r) k = Some l /\ p = PFreqs l) out.
  Proof.
    intros all_freqs runs labels H Hn Hl. assert (L : List.length runs <> 0) by (destruct runs; cbn; congruence).
    set (m := number_freq_plots dev_rows runs labels) in *.
    exists (placed (fun r => combine (seq 0 m) (map PFreqs (all_freqs r))) runs). split.
    - unfold plot_allfreqs. fold m. cbv zeta. rewrite <- bind_assoc. rewrite arrange_any by lia. cbn [bind]. apply for_runs_ok. intros j r _.
      unfold run_allfreqs, col. cbn [items bind]. rewrite <- (draw_list m 0 j r (map PFreqs (all_freqs r))).
      rewrite combine_map_r, mapM_map. reflexivity.
    - apply placed_iff.
      + intros. apply combine_fst_nodup.
      + intros r k p I. rewrite combine_seq_in_cut.
        * rewrite Nat.sub_0_r, nth_error_map. split.
          -- intros [_ E]. destruct (nth_error (all_freqs r) k) as [l|]; [|discriminate]. inversion E. exists l. auto.
          -- intros (l & E & ->). rewrite E. split; [lia|reflexivity].
        * rewrite map_length. specialize (Hl r I). assert (A := freq_rows runs labels r I). fold m in A. lia.
  Qed.
  Lemma hists_ok : forall (hist_out hist_in : R -> list str) runs labels, runs <> [] -> 0 < number_freq_plots dev_rows runs labels ->
    (forall r, In r runs -> List.length (hist_out r) <= labels + (if dev_rows r =? 0 then 0 else 1) /\
                            List.length (hist_in r) <= labels + (if dev_rows r =? 0 then 0 else 1)) ->
    exists out, plot_freq_hists dev_rows hist_out hist_in runs labels = Ok out /\
    InColumns runs (fun r k p =>
      (exists a, nth_error (hist_out r) k = Some a /\ p = PHist true a) \/
      (exists a i, nth_error (hist_in r) i = Some a /\ k = number_freq_plots dev_rows runs labels + i /\ p = PHist false a)) out.
  Proof.
    intros hist_out hist_in runs labels H Hn Hl. assert (L : List.length runs <> 0) by (destruct runs; cbn; congruence).
    set (m := number_freq_plots dev_rows runs labels) in *.
    exists (placed (fun r => combine (seq 0 m) (map (PHist true) (hist_out r)) ++ combine (seq m m) (map (PHist false) (hist_in r))) runs). split.
    - unfold plot_freq_hists. fold m. rewrite <- bind_assoc. rewrite arrange_two by lia. cbn [bind]. apply for_runs_ok. intros j r _.
      unfold run_freq_hists, col. cbn [items bind]. rewrite map_length, seq_length.
      replace (2 * m / 2) with m by (rewrite Nat.mul_comm; symmetry; apply Nat.div_mul; lia).
      replace (2 * m) with (m + m) by lia. rewrite seq_app, map_app, Nat.add_0_l.
      assert (Lm : List.length (map (fun k => VAx (k, j)) (seq 0 m)) = m) by (rewrite map_length, seq_length; reflexivity).
      rewrite firstn_app, skipn_app, Lm, Nat.sub_diag. cbn [firstn skipn].
      rewrite firstn_all2 by lia. rewrite skipn_all2 by lia. rewrite app_nil_r. cbn [List.app].
      cbv zeta.
      assert (Q : forall b s acts, hists b (map (fun k => VAx (k, j)) (seq s m)) acts r = Ok (map (fun kp => ((fst kp, j), r, snd kp)) (combine (seq s m) (map (PHist b) acts)))).
      { intros b s acts. rewrite <- (draw_list m s j r (map (PHist b) acts)). unfold hists. rewrite combine_map_r, mapM_map. reflexivity. }
      rewrite !Q. cbn [bind]. rewrite map_app. reflexivity.
    - apply placed_iff.
      + intros r I. rewrite map_app.
        destruct (combine_fst_nodup (map (PHist true) (hist_out r)) m 0) as [N1 I1]. destruct (combine_fst_nodup (map (PHist false) (hist_in r)) m m) as [N2 I2].
        revert N1 I1. generalize (map fst (combine (seq 0 m) (map (PHist true) (hist_out r)))). intros l. induction l as [|x l IH]; intros N1 I1; [exact N2|].
        inversion N1; subst. cbn. constructor; [|apply IH; [assumption|intros; apply I1; right; assumption]].
        intros J. apply in_app_iff in J. destruct J as [J|J]; [contradiction|]. apply I2 in J. assert (x < 0 + m) by (apply I1; left; reflexivity). lia.
      + intros r k p I. destruct (Hl r I) as [L1 L2]. assert (A := freq_rows runs labels r I). fold m in A.
        rewrite in_app_iff. rewrite !combine_seq_in_cut by (rewrite map_length; lia). rewrite Nat.sub_0_r, !nth_error_map. split.
        * intros [[_ E]|[G E]].
          -- left. destruct (nth_error (hist_out r) k) as [a|]; [|discriminate]. inversion E. exists a. auto.
          -- right. destruct (nth_error (hist_in r) (k - m)) as [a|] eqn:Q; [|discriminate]. inversion E. exists a, (k - m). repeat split; [assumption|lia].
        * intros [(a & E & ->)|(a & i & E & -> & ->)].
          -- left. rewrite E. split; [lia|reflexivity].
          -- right. replace (m + i - m) with i by lia. rewrite E. split; [lia|reflexivity].
  Qed.
End Compare.
Section Temps.
  Context {R : Type} (thermal_rows : R -> nat).
  Notation drawing := (drawing R).
  (** Histograms of temperatures: right where the runs with data come first, otherwise it fails. *)
  Definition has (r : R) : bool := 0 <? thermal_rows r.
  Lemma filter_all : forall good : list R, forallb has good = true -> filter has good = good.
  Proof. induction good; cbn; intros H; [reflexivity|]. apply andb_prop in H. destruct H as [-> H]. f_equal. auto. Qed.
  Lemma for_runs_prefix : forall (F : nat -> val) (D : R -> list (nat * plot)) good rest draw,
    (forall j r, nth_error good j = Some r -> draw (F j) r = Ok (map (fun kp => ((fst kp, j), r, snd kp)) (D r))) ->
    for_runs (VSeq (map F (seq 0 (List.length good)))) (good ++ rest) draw = Ok (placed D good).
  Proof.
    intros F D good rest draw H. rewrite <- (for_runs_ok F D good draw H). unfold for_runs. cbn [items bind].
    replace (combine (map F (seq 0 (List.length good))) (good ++ rest)) with (combine (map F (seq 0 (List.length good))) good); [reflexivity|].
    clear H. generalize 0. induction good; intros s; cbn; [reflexivity|]. f_equal. apply IHgood.
  Qed.
  Lemma temps_one_ok : forall n runs (draw : val -> R -> res (list drawing)), n <> 0 ->
    (do axis <- subplots 1 n ;; let axis := if n =? 1 then VSeq [axis] else axis in for_runs axis runs draw) =
    for_runs (VSeq (map (fun j => VAx (0, j)) (seq 0 n))) runs draw.
  Proof.
    intros n runs draw Hn. assert (A := arrange_one _ Hn). destruct (subplots 1 n) as [v|e]; [|discriminate]. cbn [bind] in *. cbv zeta. inversion A as [E]. reflexivity.
  Qed.
  Lemma temps_ok : forall good rest, forallb has good = true -> (forall r, In r rest -> thermal_rows r = 0) ->
    exists out, plot_temperature_hist thermal_rows (good ++ rest) = Ok out /\ InColumns good (fun _ k p => k = 0 /\ p = POne) out.
  Proof.
    intros good rest G B.
    assert (E : filter (fun r => 0 <? thermal_rows r) (good ++ rest) = good).
    { rewrite filter_app. fold has. rewrite filter_all by assumption. replace (filter has rest) with (@nil R); [apply app_nil_r|].
      clear - B. induction rest; cbn; [reflexivity|]. unfold has at 1. rewrite (B a) by (left; reflexivity). cbn. apply IHrest. intros. apply B. right. assumption. }
    exists (placed (fun _ => [(0, POne)]) good). split.
    - unfold plot_temperature_hist. rewrite E. cbv zeta. destruct (Nat.eqb_spec (List.length good) 0) as [Z|N].
      + destruct good; [|discriminate]. reflexivity.
      + rewrite (temps_one_ok _ _ _ N). apply for_runs_prefix. intros j r J. apply nth_error_In in J.
        rewrite forallb_forall in G. specialize (G r J). unfold has in G. destruct (Nat.eqb_spec (thermal_rows r) 0) as [Q|_]; [rewrite Q in G; discriminate|]. reflexivity.
    - apply placed_iff.
      + intros. repeat constructor; cbn; intuition congruence.
      + intros r k p _. cbn. split; [intros [F|[]]; inversion F; auto|intros [-> ->]; auto].
  Qed.
  Lemma temps_fail : forall good r rest r', forallb has good = true -> thermal_rows r = 0 -> In r' rest -> thermal_rows r' <> 0 ->
    plot_temperature_hist thermal_rows (good ++ r :: rest) = Err EKey.
  Proof.
    intros good r rest r' G Z I N. unfold plot_temperature_hist. fold has. cbv zeta.
    assert (L : List.length good < List.length (filter has (good ++ r :: rest))).
    { rewrite filter_app, filter_all by assumption. rewrite app_length. cbn. unfold has at 1. rewrite Z. cbn.
      assert (J : In r' (filter has rest)) by (apply filter_In; split; [assumption|apply Nat.ltb_lt; lia]).
      destruct (filter has rest); [destruct J|cbn; lia]. }
    destruct (Nat.eqb_spec (List.length (filter has (good ++ r :: rest))) 0) as [Q|Q]; [lia|].
    rewrite (temps_one_ok _ _ _ Q). unfold for_runs. cbn [items bind].
    revert L. generalize (List.length (filter has (good ++ r :: rest))). clear Q. intros n.
    assert (K : forall s, List.length good < n -> (do ds <- mapM (fun p : val * R => if thermal_rows (snd p) =? 0 then Err EKey else on (fst p) (snd p) POne)
      (combine (map (fun j => VAx (0, j)) (seq s n)) (good ++ r :: rest)) ;; Ok (List.concat ds)) = Err EKey); [|apply K].
    revert n. induction good as [|g good IH]; intros n s L; (destruct n as [|n]; [cbn in L; lia|]).
    - cbn. rewrite Z. reflexivity.
    - cbn in G. apply andb_prop in G. destruct G as [G1 G2]. cbn [List.length] in L.
      cbn [seq map List.app combine mapM fst snd]. unfold has in G1. destruct (Nat.eqb_spec (thermal_rows g) 0) as [Q|_]; [rewrite Q in G1; discriminate|].
      cbn [on axis_of bind]. assert (IH' := IH G2 n (S s) ltac:(lia)). clear IH.
      destruct (mapM _ _) as [ds|e]; cbn [bind] in *; [discriminate|exact IH'].
  Qed.
End Temps.

Lemma mapM_length : forall {A B} (f : A -> res B) l r, mapM f l = Ok r -> List.length r = List.length l.
Proof.
  intros A B f l. induction l as [|a l IH]; cbn; intros r H; [inversion H; reflexivity|].
  destruct (f a); cbn in H; [|discriminate]. destruct (mapM f l); cbn in H; [|discriminate]. inversion H. cbn. f_equal. apply IH. reflexivity.
Qed.
(** The frames of [get_all_freqs_data] are no more than the rows of the figure. *)
Lemma all_freqs_count : forall {T F : Type} (leb : T -> T -> bool) (div : Z -> Z -> F) in_cols out_cols map_label in_rows out_rows dev_in dev_out ret,
  get_all_freqs_data leb div in_cols out_cols map_label in_rows out_rows dev_in dev_out = Ok ret ->
  List.length ret <= List.length map_label + (match dev_in with Some _ => 1 | None => 0 end).
Proof.
  intros T F leb div in_cols out_cols map_label in_rows out_rows dev_in dev_out ret. unfold get_all_freqs_data.
  destruct (cpu_freqs leb div in_cols _ in_rows) as [fi|]; cbn [bind]; [|discriminate].
  destruct (cpu_freqs leb div out_cols _ out_rows) as [fo|]; cbn [bind]; [|discriminate].
  destruct (mapM _ _) as [l|] eqn:M; cbn [bind]; [|discriminate]. apply mapM_length in M. rewrite map_length in M.
  destruct dev_in as [i|]; [|intros H; inversion H; subst; lia].
  destruct dev_out as [o|]; [|intros H; inversion H; subst; lia].
  destruct (pair_frame _ _ _ _ _); cbn [bind]; intros H; inversion H; subst. rewrite app_length. cbn. lia.
Qed.
