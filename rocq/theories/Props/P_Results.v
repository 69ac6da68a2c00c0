(** C66: the results of benchmark runs. *)
From Coq Require Import List Ascii String ZArith Bool.
From Verif Require Import Lib.PyStr Spec.Lines Model.Results Spec.Results Proofs.ResultsP.
Import ListNotations.
Local Open Scope list_scope.

(** The run number of a metric is its last number after a separator. *)
Theorem C66_number : forall s, ~ In nl s ->
  match get_run_number s with Some n => IsResult s /\ RunOf s n | None => ~ IsResult s end.
Proof. exact run_number_ok. Qed.
Theorem C66_number_unique : forall s n n', RunOf s n -> RunOf s n' -> n = n'.
Proof. exact run_of_unique. Qed.
(** The run identifier is the text without its numbers after an underscore. *)
Theorem C66_id : forall s t, run_id s = t <-> Cut s t.
Proof. exact run_id_spec. Qed.
Theorem C66_id_clean : forall s a d b, run_id s = a ++ "_"%char :: d :: b -> is_digit d = false.
Proof. exact run_id_clean. Qed.
(** Each cell holds the first score said of its benchmark, identifier and run. *)
Theorem C66_results : forall (F : Type) (to_float : str -> option F) name rows t, get_results to_float name rows = Ok t ->
  forall b i n v, cell t b i n = Some v <-> FirstScore to_float name rows b i n v.
Proof. exact @results_ok. Qed.
(** The results can be read exactly if each row says something or is no result, and one says something. *)
Theorem C66_results_some : forall (F : Type) (to_float : str -> option F) name rows,
  (exists t, get_results to_float name rows = Ok t) <->
  Forall (fun r => Silent r \/ exists x, Says to_float name r x) rows /\ exists r x, In r rows /\ Says to_float name r x.
Proof. exact @results_some. Qed.
(** Combining results puts the runs of each benchmark side by side. *)
Theorem C66_combine : forall (F : Type) (data : list (list (str * list (str * list (Z * @score F))))) t,
  combine_results data = Ok t <->
  exists d0 ds, data = d0 :: ds /\
    Forall2 (fun b p => fst p = b /\ exists parts, Forall2 (fun d ids => dget eqs b d = Some ids) data parts /\ snd p = List.concat parts) (map fst d0) t.
Proof. exact @combine_ok. Qed.

Definition no_float (s : str) : option str := if eqs s $"17.5" then Some s else None.
Definition ex_rows : list (list str) :=
  [[$"id"; $"workload"; $"iteration"; $"metric"; $"value"];
   [$"1_4_iks"; $"glbench"; $"1"; $"score_1"; $"41"];
   [$"1_4_iks"; $"glbench"; $"1"; $"score_1"; $"42"];
   [$"ipa_12"; $"glbench"; $"1"; $"FPS_2"; $"17.5"];
   [$"ipa_13"; $"antutu"; $"1"; $"Overall_Score 2"; $"9"]].
Example C66_ex :
  exists t, get_results no_float None ex_rows = Ok t /\
    cell t $"glbench" $"1_iks" 1 = Some (SInt 41) /\ cell t $"glbench" $"ipa" 2 = Some (SFloat $"17.5") /\
    cell t $"antutu" $"ipa" 1 = Some (SInt 9) /\ cell t $"antutu" $"ipa" 2 = None.
Proof. eexists. split; [vm_compute; reflexivity|]. vm_compute. auto. Qed.
Example C66_number_ex : map get_run_number [$"score"; $"score_2"; $"Overall_Score 2"; $"Overall_Score_2_x"; $"FPS 3 4 fps"; $"other_3"; $"score_x12"] =
  [Some 0%Z; Some 2%Z; Some 1%Z; Some 1%Z; Some 4%Z; None; Some 0%Z].
Proof. vm_compute. reflexivity. Qed.
Example C66_id_ex : map run_id [$"ipa_12"; $"a_1_2b__3"; $"1_x_"] = [$"ipa"; $"ab_"; $"1_x_"].
Proof. vm_compute. reflexivity. Qed.
Example C66_combine_ex : combine_results [[($"b", [($"x", [(0%Z, SInt (F := nat) 1)])])]; [($"c", []); ($"b", [($"y", [(0%Z, SInt 2)])])]] =
  Ok [($"b", [($"x", [(0%Z, SInt 1)]); ($"y", [(0%Z, SInt 2)])])] /\
  combine_results [[($"c", []); ($"b", [($"y", [(0%Z, SInt (F := nat) 2)])])]; [($"b", [($"x", [(0%Z, SInt 1)])])]] = Err EKey.
Proof. vm_compute. auto. Qed.
(** Distinct metrics need not have distinct runs: the second score is lost. *)
Theorem C66_distinct_refuted : ~ (forall a b, a <> b -> get_run_number a <> None -> get_run_number a <> get_run_number b).
Proof. intros H. apply (H $"Overall_Score" $"Overall_Score_1"); [discriminate|vm_compute; discriminate|vm_compute; reflexivity]. Qed.
(** A later value of a run does not replace the first, and results without a score cannot be read. *)
Theorem C66_latest_refuted : ~ (forall rows row t b i n v, get_results no_float None (rows ++ [row]) = Ok t ->
  Says no_float None row (b, i, n, v) -> cell t b i n = Some v).
Proof.
  intros H. assert (E : Some (SInt (F := str) 41) = Some (SInt 42)); [|discriminate].
  refine (eq_trans _ (H (firstn 2 ex_rows) (nth 2 ex_rows []) _ $"glbench" $"1_iks" 1%Z (SInt 42) _ _)).
  2: vm_compute; reflexivity.
  - vm_compute. reflexivity.
  - exists $"score_1", $"42". repeat split; try (vm_compute; reflexivity). exists $"1_4_iks". split; [reflexivity|]. apply C66_id. vm_compute. reflexivity.
Qed.
Example C66_no_score_ex : get_results no_float None (firstn 1 ex_rows) = Err EValue.
Proof. vm_compute. reflexivity. Qed.

Print Assumptions C66_number.
Print Assumptions C66_number_unique.
Print Assumptions C66_id.
Print Assumptions C66_id_clean.
Print Assumptions C66_results.
Print Assumptions C66_results_some.
Print Assumptions C66_combine.
