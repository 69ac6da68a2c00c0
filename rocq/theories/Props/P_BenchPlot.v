(** C85: drawing benchmark results. *)
From Coq Require Import List Ascii String ZArith QArith Bool.
From Verif Require Import Lib.PyStr Lib.PyStrFacts Model.BenchPlot Spec.BenchPlot Proofs.BenchPlotP.
Import ListNotations.
Local Open Scope list_scope.

(** A side the data reach or pass is moved beyond them by the margin, the other stays. *)
Theorem C85_limits : forall shown columns v0 rest, List.concat columns = Some v0 :: rest ->
  exists lo hi m, least columns lo /\ greatest columns hi /\ a_margin lo hi m /\
    (if qlt (fst shown) lo && qlt hi (snd shown) then forall ax, enlarge_axis ax shown columns = Ok None
     else enlarge_axis false shown columns = Err EAttribute /\
          exists a b, enlarge_axis true shown columns = Ok (Some (Some a, Some b)) /\
            a = (if Qle_bool lo (fst shown) then lo - m else fst shown)%Q /\ b = (if Qle_bool (snd shown) hi then hi + m else snd shown)%Q).
Proof. exact enlarge_ok. Qed.
(** Afterwards [a] and [b], the limits, have all numbers strictly between them, and have not come closer. *)
Theorem C85_shows : forall shown columns v0 rest a b, List.concat columns = Some v0 :: rest ->
  match enlarge_axis true shown columns with Ok None => (a, b) = shown | Ok (Some (Some a', Some b')) => (a, b) = (a', b') | _ => True end ->
  (forall v, scored columns v -> a < v < b)%Q /\ (a <= fst shown)%Q /\ (snd shown <= b)%Q.
Proof. exact enlarge_shows. Qed.
Theorem C85_nothing : forall ax shown columns, List.concat columns = [] -> enlarge_axis ax shown columns = Err EValue.
Proof. exact enlarge_empty. Qed.
(** If the first cell is NaN nothing is done. *)
Theorem C85_nan : forall ax shown columns rest, List.concat columns = None :: rest -> enlarge_axis ax shown columns = Ok None.
Proof. exact enlarge_nan. Qed.
(** The title of a benchmark; [Titled] leaves no choice. *)
Theorem C85_title : forall s, List.length (bench_title s) = List.length s /\
  forall i c, nth_error s i = Some c -> exists d, nth_error (bench_title s) i = Some d /\
    Titled (match i with O => None | S j => nth_error s j end) c d /\
    forall d', Titled (match i with O => None | S j => nth_error s j end) c d' -> d' = d.
Proof.
  intros s. destruct (title_ok s) as [L H]. split; auto. intros i c Hc. destruct (H i c Hc) as (d & Hd & Ht). exists d. repeat split; auto.
  intros d' Hd'. exact (titled_unique _ _ _ _ Hd' Ht).
Qed.
Theorem C85_all : forall benches, plot_results benches = Ok (map (fun b => (b, bench_title b)) benches).
Proof. exact plot_results_ok. Qed.
(** One benchmark: under its own title or the given one, if there are results of it. *)
Theorem C85_one : forall benches b title,
  (~ In b benches -> plot_results_benchmark benches b title = Err EKey) /\
  (In b benches -> plot_results_benchmark benches b title = Ok (b, match title with Some t => t | None => bench_title b end)).
Proof.
  intros benches b title. unfold plot_results_benchmark.
  assert (E : existsb (eqs b) benches = true <-> In b benches).
  { rewrite existsb_exists. split; [intros (x & Hx & E); apply eqs_eq in E; now subst|intros H; exists b; split; auto; now apply eqs_eq]. }
  destruct (existsb (eqs b) benches); split; intros H; auto.
  - destruct H. now apply E.
  - apply E in H. discriminate.
Qed.

Definition scores : list (list (option Q)) := [[Some 12; Some 40]; [Some 7; None]]%Q.
Example C85_ex : enlarge_axis true (0, 40)%Q scores = Ok (Some (Some 0, Some (40 + 33 / 10)))%Q /\
  enlarge_axis true (0, 41)%Q scores = Ok None /\ enlarge_axis false (10, 20)%Q scores = Err EAttribute /\
  enlarge_axis true (0, 1)%Q [[Some 1]]%Q = Ok (Some (Some 0, Some (1 + 1)))%Q.
Proof. vm_compute. repeat split. Qed.
Example C85_ex_title : bench_title $"t-rex_offscreen 2D" = $"T-Rex Offscreen 2D" /\ plot_results [$"antutu"; $"glbench_trex"] =
  Ok [($"antutu", $"Antutu"); ($"glbench_trex", $"Glbench Trex")] /\ plot_results_benchmark [$"antutu"] $"geekbench" None = Err EKey.
Proof. vm_compute. repeat split. Qed.
(** Numbers outside the limits stay there if the first run has no number. *)
Theorem C85_all_refuted : ~ (forall shown columns v0, scored columns v0 -> forall a b,
  match enlarge_axis true shown columns with Ok None => (a, b) = shown | Ok (Some (Some a', Some b')) => (a, b) = (a', b') | _ => True end ->
  forall v, scored columns v -> (a < v < b)%Q).
Proof.
  intros H. assert (S : scored [[None; Some 9%Q]] 9%Q) by (eexists; split; [now left|right; now left]).
  destruct (H (0, 5)%Q [[None; Some 9%Q]] 9%Q S 0%Q 5%Q eq_refl 9%Q S) as [_ K]. vm_compute in K. discriminate.
Qed.

Print Assumptions C85_limits.
Print Assumptions C85_shows.
Print Assumptions C85_nothing.
Print Assumptions C85_nan.
Print Assumptions C85_title.
Print Assumptions C85_all.
Print Assumptions C85_one.
Print Assumptions C85_all_refuted.
