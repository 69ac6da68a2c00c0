(** Drawing benchmark results. *)
From Coq Require Import List Ascii String ZArith QArith Bool Lia Lqa.
From Verif Require Import Lib.PyStr Lib.PyStrFacts Model.BenchPlot Spec.BenchPlot.
Import ListNotations.
Local Open Scope nat_scope.
Local Open Scope list_scope.

Lemma qlt_iff a b : qlt a b = true <-> (a < b)%Q.
Proof. unfold qlt. rewrite negb_true_iff. split; intros H; [|destruct (Qle_bool b a) eqn:E; auto; apply Qle_bool_iff in E; lra].
  apply Qnot_le_lt. intros L. apply Qle_bool_iff in L. congruence. Qed.
Lemma qlt_false a b : qlt a b = false <-> (b <= a)%Q.
Proof. unfold qlt. rewrite negb_false_iff. apply Qle_bool_iff. Qed.
Lemma qle_false a b : Qle_bool a b = false <-> (b < a)%Q.
Proof. split; intros H; [apply Qnot_le_lt; intros L; apply Qle_bool_iff in L; congruence|]. destruct (Qle_bool a b) eqn:E; auto. apply Qle_bool_iff in E. lra. Qed.

Lemma fold_min r m : exists v, fold_left (fun m y => if nlt y m then y else m) r (Some m) = Some v /\ (v = m \/ In (Some v) r) /\
  (v <= m)%Q /\ forall w, In (Some w) r -> (v <= w)%Q.
Proof.
  revert m. induction r as [|y r IH]; intros m; cbn [fold_left].
  - exists m. repeat split; auto; [lra|intros w []].
  - destruct y as [y|]; cbn [nlt].
    + destruct (qlt y m) eqn:E.
      * apply qlt_iff in E. destruct (IH y) as (v & Hv & Hi & Hle & Hall). exists v. split; auto. split; [right; destruct Hi as [-> |Hi]; [now left|now right]|].
        split; [lra|]. intros w [[= <-]|Hw]; auto.
      * apply qlt_false in E. destruct (IH m) as (v & Hv & Hi & Hle & Hall). exists v. split; auto. split; [destruct Hi; auto; right; now right|].
        split; auto. intros w [[= <-]|Hw]; auto. lra.
    + destruct (IH m) as (v & Hv & Hi & Hle & Hall). exists v. split; auto. split; [destruct Hi; auto; right; now right|].
      split; auto. intros w [[=]|Hw]; auto.
Qed.
Lemma fold_max r m : exists v, fold_left (fun m y => if nlt m y then y else m) r (Some m) = Some v /\ (v = m \/ In (Some v) r) /\
  (m <= v)%Q /\ forall w, In (Some w) r -> (w <= v)%Q.
Proof.
  revert m. induction r as [|y r IH]; intros m; cbn [fold_left].
  - exists m. repeat split; auto; [lra|intros w []].
  - destruct y as [y|]; cbn [nlt].
    + destruct (qlt m y) eqn:E.
      * apply qlt_iff in E. destruct (IH y) as (v & Hv & Hi & Hle & Hall). exists v. split; auto. split; [right; destruct Hi as [-> |Hi]; [now left|now right]|].
        split; [lra|]. intros w [[= <-]|Hw]; auto.
      * apply qlt_false in E. destruct (IH m) as (v & Hv & Hi & Hle & Hall). exists v. split; auto. split; [destruct Hi; auto; right; now right|].
        split; auto. intros w [[= <-]|Hw]; auto. lra.
    + destruct (IH m) as (v & Hv & Hi & Hle & Hall). exists v. split; auto. split; [destruct Hi; auto; right; now right|].
      split; auto. intros w [[=]|Hw]; auto.
Qed.
Lemma fold_nan_min r : fold_left (fun m y => if nlt y m then y else m) r None = None.
Proof. induction r as [|[y|] r IH]; cbn; auto. Qed.
Lemma fold_nan_max r : fold_left (fun m y => if nlt m y then y else m) r None = None.
Proof. induction r as [|[y|] r IH]; cbn; auto. Qed.

Lemma scored_in columns v : scored columns v <-> In (Some v) (List.concat columns).
Proof. unfold scored. rewrite in_concat. firstorder. Qed.

Theorem enlarge_ok shown columns v0 rest : List.concat columns = Some v0 :: rest ->
  exists lo hi m, least columns lo /\ greatest columns hi /\ a_margin lo hi m /\
    (if qlt (fst shown) lo && qlt hi (snd shown) then forall ax, enlarge_axis ax shown columns = Ok None
     else enlarge_axis false shown columns = Err EAttribute /\
          exists a b, enlarge_axis true shown columns = Ok (Some (Some a, Some b)) /\
            a = (if Qle_bool lo (fst shown) then lo - m else fst shown)%Q /\ b = (if Qle_bool (snd shown) hi then hi + m else snd shown)%Q).
Proof.
  intros H. destruct (fold_min rest v0) as (lo & Hlo & Ilo & Llo & Alo). destruct (fold_max rest v0) as (hi & Hhi & Ihi & Lhi & Ahi).
  set (m := if qlt ((hi - lo) / 10) 1 then 1%Q else ((hi - lo) / 10)%Q).
  exists lo, hi, m. assert (In0 : forall w, scored columns w <-> w = v0 \/ In (Some w) rest).
  { intros w. rewrite scored_in, H. cbn. split; intros [E|E]; auto; left; congruence. }
  split; [split; [apply In0; destruct Ilo; auto|intros w Hw; apply In0 in Hw as [-> |Hw]; auto]|].
  split; [split; [apply In0; destruct Ihi; auto|intros w Hw; apply In0 in Hw as [-> |Hw]; auto]|].
  assert (M : m = 1%Q /\ ((hi - lo) / 10 < 1)%Q \/ m = ((hi - lo) / 10)%Q /\ (1 <= (hi - lo) / 10)%Q).
  { unfold m. destruct (qlt ((hi - lo) / 10) 1) eqn:E; [left; apply qlt_iff in E|right; apply qlt_false in E]; auto. }
  split.
  { destruct M as [[-> M]|[-> M]]; [right|left]; split; auto; reflexivity. }
  assert (U : forall ax, enlarge_axis ax shown columns =
    if Qle_bool lo (fst shown) || Qle_bool (snd shown) hi
    then if ax then Ok (Some (Some (if Qle_bool lo (fst shown) then lo - m else fst shown)%Q, Some (if Qle_bool (snd shown) hi then hi + m else snd shown)%Q)) else Err EAttribute
    else Ok None).
  { intros ax. unfold enlarge_axis. destruct columns as [|c cs]; [discriminate|]. rewrite H. cbn [py_min py_max bind]. rewrite Hlo, Hhi.
    cbn [nsub option_map nlt nle]. unfold m. destruct (qlt ((hi - lo) / 10) 1), (Qle_bool lo (fst shown)), (Qle_bool (snd shown) hi); reflexivity. }
  destruct (qlt (fst shown) lo && qlt hi (snd shown)) eqn:E.
  - apply andb_true_iff in E as [E1 E2]. unfold qlt in E1, E2. rewrite negb_true_iff in E1, E2. intros ax. rewrite U, E1, E2. reflexivity.
  - assert (O : Qle_bool lo (fst shown) || Qle_bool (snd shown) hi = true).
    { apply andb_false_iff in E as [E|E]; unfold qlt in E; rewrite negb_false_iff in E; rewrite E; auto using orb_true_r. }
    rewrite !U, O. split; auto. eauto.
Qed.
(** What that means for the picture. *)
Theorem enlarge_shows shown columns v0 rest a b : List.concat columns = Some v0 :: rest ->
  match enlarge_axis true shown columns with Ok None => (a, b) = shown | Ok (Some (Some a', Some b')) => (a, b) = (a', b') | _ => True end ->
  (forall v, scored columns v -> a < v < b)%Q /\ (a <= fst shown)%Q /\ (snd shown <= b)%Q.
Proof.
  intros H. destruct (enlarge_ok shown columns v0 rest H) as (lo & hi & m & [_ Llo] & [_ Lhi] & Hm & E).
  assert (M : (0 < m)%Q) by (destruct Hm as [[_ ?]|[? _]]; lra).
  destruct (qlt (fst shown) lo && qlt hi (snd shown)) eqn:Ec.
  - rewrite E. intros <-. apply andb_true_iff in Ec as [E1 E2]. apply qlt_iff in E1, E2. cbn in *. split; [|lra].
    intros v Hv. specialize (Llo v Hv). specialize (Lhi v Hv). lra.
  - destruct E as (_ & a' & b' & E & -> & ->). rewrite E. intros Eab. injection Eab as Ea Eb. subst a b.
    split; [intros v Hv; specialize (Llo v Hv); specialize (Lhi v Hv)|].
    + destruct (Qle_bool lo (fst shown)) eqn:E1, (Qle_bool (snd shown) hi) eqn:E2; rewrite ?Qle_bool_iff, ?qle_false in *; lra.
    + destruct (Qle_bool lo (fst shown)) eqn:E1, (Qle_bool (snd shown) hi) eqn:E2; rewrite ?Qle_bool_iff, ?qle_false in *; lra.
Qed.
Theorem enlarge_nan ax shown columns rest : List.concat columns = None :: rest -> enlarge_axis ax shown columns = Ok None.
Proof.
  intros H. unfold enlarge_axis. destruct columns as [|c cs]; [discriminate|]. rewrite H. cbn [py_min py_max bind]. rewrite fold_nan_min, fold_nan_max. reflexivity.
Qed.
Theorem enlarge_empty ax shown columns : List.concat columns = [] -> enlarge_axis ax shown columns = Err EValue.
Proof. intros H. unfold enlarge_axis. destruct columns as [|c cs]; [reflexivity|]. rewrite H. reflexivity. Qed.

(** ** Titles *)
Lemma all_ascii (P : ascii -> bool) : forallb P (map ascii_of_nat (seq 0 256)) = true -> forall c, P c = true.
Proof. intros H c. rewrite forallb_forall in H. apply H. apply in_map_iff. exists (nat_of_ascii c). split; [apply ascii_nat_embedding|]. apply in_seq. pose proof (nat_ascii_bounded c). lia. Qed.
Definition letterb (c : ascii) : bool := existsb (fun p => Ascii.eqb c (fst p) || Ascii.eqb c (snd p)) alphabet.
Lemma letterb_iff c : letterb c = true <-> letter c.
Proof.
  unfold letterb, letter. rewrite existsb_exists. split; intros (p & Hp & H); exists p; split; auto.
  - apply orb_true_iff in H as [H|H]; apply Ascii.eqb_eq in H; auto.
  - apply orb_true_iff. destruct H as [-> | ->]; [left|right]; apply Ascii.eqb_refl.
Qed.
Lemma is_letter_ok c : is_letter c = letterb c.
Proof. apply eqb_prop. revert c. apply all_ascii. vm_compute. reflexivity. Qed.
Definition pair_of (c : ascii) : ascii * ascii := match find (fun p => Ascii.eqb c (fst p) || Ascii.eqb c (snd p)) alphabet with Some p => p | None => (c, c) end.
Lemma upper_ok c : upper c = snd (pair_of c).
Proof. apply Ascii.eqb_eq. revert c. apply all_ascii. vm_compute. reflexivity. Qed.
Lemma lower_ok c : BenchPlot.lower c = fst (pair_of c).
Proof. apply Ascii.eqb_eq. revert c. apply all_ascii. vm_compute. reflexivity. Qed.
Lemma pair_of_ok c : letterb c = true -> In (pair_of c) alphabet /\ (c = fst (pair_of c) \/ c = snd (pair_of c)).
Proof.
  intros H. unfold pair_of. destruct (find _ alphabet) as [p|] eqn:E.
  - apply find_some in E as [Hi E]. split; auto. apply orb_true_iff in E as [E|E]; apply Ascii.eqb_eq in E; auto.
  - unfold letterb in H. apply existsb_exists in H as (p & Hp & H). pose proof (find_none _ _ E _ Hp) as F. cbn in F. congruence.
Qed.
Lemma pair_of_none c : letterb c = false -> pair_of c = (c, c).
Proof.
  intros H. unfold pair_of. destruct (find _ alphabet) as [p|] eqn:E; auto. apply find_some in E as [Hi E].
  unfold letterb in H. assert (existsb (fun p => Ascii.eqb c (fst p) || Ascii.eqb c (snd p)) alphabet = true); [|congruence].
  apply existsb_exists. eauto.
Qed.
Definition under (c : ascii) : ascii := if Ascii.eqb c "_" then " "%char else c.
Definition prev (before : option ascii) (s : str) (i : nat) : option ascii := match i with O => before | S j => nth_error s j end.
Lemma title_from_ok s : forall before inside, inside = match before with Some b => letterb b | None => false end ->
  List.length (title_from inside (map under s)) = List.length s /\
  forall i c, nth_error s i = Some c -> exists d, nth_error (title_from inside (map under s)) i = Some d /\ Titled (prev before s i) c d.
Proof.
  induction s as [|a s IH]; intros before inside Hin; cbn [map title_from List.length].
  - split; auto. intros [|i] c; discriminate.
  - destruct (IH (Some a) (is_letter (under a))) as [L N].
    { rewrite is_letter_ok. unfold under. destruct (Ascii.eqb_spec a "_") as [-> |]; reflexivity. }
    split; [cbn; congruence|]. intros [|i] c Hc.
    + injection Hc as <-. eexists. split; [reflexivity|]. cbn [prev]. unfold under. destruct (Ascii.eqb_spec a "_") as [-> |Ha].
      * destruct inside; constructor.
      * destruct (letterb a) eqn:El.
        -- destruct (pair_of_ok a El) as [P1 P2]. destruct inside.
           ++ rewrite lower_ok. destruct before as [b|]; [|discriminate]. apply T_inner; auto. now apply letterb_iff.
           ++ rewrite upper_ok. apply T_first; auto. intros b ->. rewrite <- letterb_iff. congruence.
        -- assert (E : (if inside then BenchPlot.lower a else upper a) = a).
           { rewrite lower_ok, upper_ok, (pair_of_none a El). now destruct inside. }
           rewrite E. apply T_other; auto. rewrite <- letterb_iff. congruence.
    + destruct (N i c Hc) as (d & Hd & Ht). exists d. split; auto. destruct i; exact Ht.
Qed.
Theorem title_ok s : List.length (bench_title s) = List.length s /\
  forall i c, nth_error s i = Some c -> exists d, nth_error (bench_title s) i = Some d /\
    Titled (match i with O => None | S j => nth_error s j end) c d.
Proof. apply (title_from_ok s None false). reflexivity. Qed.
(** Only one way. *)
Lemma alphabet_unique p q c : In p alphabet -> In q alphabet -> c = fst p \/ c = snd p -> c = fst q \/ c = snd q -> p = q.
Proof.
  assert (F : forallb (fun p => forallb (fun q => (Ascii.eqb (fst p) (fst q) && Ascii.eqb (snd p) (snd q)) ||
     negb (Ascii.eqb (fst p) (fst q) || Ascii.eqb (fst p) (snd q) || Ascii.eqb (snd p) (fst q) || Ascii.eqb (snd p) (snd q))) alphabet) alphabet = true)
    by (vm_compute; reflexivity).
  intros Hp Hq Cp Cq. rewrite forallb_forall in F. specialize (F p Hp). rewrite forallb_forall in F. specialize (F q Hq).
  apply orb_true_iff in F as [F|F].
  - apply andb_true_iff in F as [F1 F2]. apply Ascii.eqb_eq in F1, F2. destruct p, q; cbn in *; congruence.
  - exfalso. rewrite negb_true_iff, !orb_false_iff, !Ascii.eqb_neq in F. destruct Cp, Cq; intuition congruence.
Qed.
Lemma no_underscore p : In p alphabet -> fst p <> "_"%char /\ snd p <> "_"%char.
Proof.
  assert (F : forallb (fun p => negb (Ascii.eqb (fst p) "_") && negb (Ascii.eqb (snd p) "_")) alphabet = true) by (vm_compute; reflexivity).
  intros Hp. rewrite forallb_forall in F. specialize (F p Hp). apply andb_true_iff in F. rewrite !negb_true_iff, !Ascii.eqb_neq in F. exact F.
Qed.
Theorem titled_unique b c d d' : Titled b c d -> Titled b c d' -> d = d'.
Proof.
  assert (U : forall p, In p alphabet -> "_"%char = fst p \/ "_"%char = snd p -> False).
  { intros p Hp H. destruct (no_underscore p Hp) as [A B]. destruct H; congruence. }
  intros H1 H2. inversion H1; subst; inversion H2; subst; auto; try congruence;
  try (exfalso; eapply U; eassumption);
  try (exfalso; match goal with H : ~ letter ?x |- _ => apply H; eexists; split; eassumption end);
  try (exfalso; match goal with H : forall b, Some ?x = Some b -> ~ letter b, K : letter ?x |- _ => exact (H x eq_refl K) end);
  f_equal; eapply alphabet_unique; eassumption.
Qed.
Theorem plot_results_ok benches : plot_results benches = Ok (map (fun b => (b, bench_title b)) benches).
Proof.
  unfold plot_results. assert (H : forall l, incl l benches -> mapM (fun b => plot_results_benchmark benches b None) l = Ok (map (fun b => (b, bench_title b)) l)).
  { induction l as [|b l IH]; intros Hi; [reflexivity|]. cbn [mapM map]. unfold plot_results_benchmark at 1.
    assert (E : existsb (eqs b) benches = true) by (apply existsb_exists; exists b; split; [apply Hi; now left|apply eqs_eq; reflexivity]).
    rewrite E. cbn [bind]. rewrite IH by (intros x Hx; apply Hi; now right). reflexivity. }
  apply H, incl_refl.
Qed.
