(** C69: side by side comparison of runs. *)
From Coq Require Import List Ascii String ZArith Bool Arith Lia.
From Verif Require Import Lib.PyStr Model.AllFreqs Model.Compare Spec.Compare Proofs.CompareP.
Import ListNotations.
Local Open Scope list_scope.

Theorem C69_load : forall {R : Type} (runs : list R), runs <> [] -> exists out, plot_load runs = Ok out /\
  InColumns runs (fun _ k p => k = 0 /\ p = PLoad \/ k = 1 /\ p = PNormalized) out.
Proof. exact @load_ok. Qed.
Theorem C69_one : forall {R : Type} (runs : list R), runs <> [] -> exists out, plot_one runs = Ok out /\
  InColumns runs (fun _ k p => k = 0 /\ p = POne) out.
Proof. exact @one_ok. Qed.
Theorem C69_freqs : forall {R : Type} (dev_rows : R -> nat) (all_freqs : R -> list str) runs labels,
  runs <> [] -> 0 < number_freq_plots dev_rows runs labels ->
  (forall r, In r runs -> List.length (all_freqs r) <= labels + (if dev_rows r =? 0 then 0 else 1)) ->
  exists out, plot_allfreqs dev_rows all_freqs runs labels = Ok out /\
  InColumns runs (fun r k p => exists l, nth_error (all_freqs r) k = Some l /\ p = PFreqs l) out.
Proof. exact @allfreqs_ok. Qed.
(** The hypothesis on the number of plots holds for the frames of [get_all_freqs_data]. *)
Theorem C69_count : forall {T F : Type} (leb : T -> T -> bool) (div : Z -> Z -> F) in_cols out_cols map_label in_rows out_rows dev_in dev_out ret,
  get_all_freqs_data leb div in_cols out_cols map_label in_rows out_rows dev_in dev_out = Ok ret ->
  List.length ret <= List.length map_label + (match dev_in with Some _ => 1 | None => 0 end).
Proof. exact @all_freqs_count. Qed.
Theorem C69_hists : forall {R : Type} (dev_rows : R -> nat) (hist_out hist_in : R -> list str) runs labels,
  runs <> [] -> 0 < number_freq_plots dev_rows runs labels ->
  (forall r, In r runs -> List.length (hist_out r) <= labels + (if dev_rows r =? 0 then 0 else 1) /\
                          List.length (hist_in r) <= labels + (if dev_rows r =? 0 then 0 else 1)) ->
  exists out, plot_freq_hists dev_rows hist_out hist_in runs labels = Ok out /\
  InColumns runs (fun r k p =>
    (exists a, nth_error (hist_out r) k = Some a /\ p = PHist true a) \/
    (exists a i, nth_error (hist_in r) i = Some a /\ k = number_freq_plots dev_rows runs labels + i /\ p = PHist false a)) out.
Proof. exact @hists_ok. Qed.
(** Histograms of temperatures: as long as the runs with temperatures come first. *)
Theorem C69_temps : forall {R : Type} (thermal_rows : R -> nat) good rest,
  forallb (fun r => 0 <? thermal_rows r) good = true -> (forall r, In r rest -> thermal_rows r = 0) ->
  exists out, plot_temperature_hist thermal_rows (good ++ rest) = Ok out /\ InColumns good (fun _ k p => k = 0 /\ p = POne) out.
Proof. exact @temps_ok. Qed.
Theorem C69_temps_fail : forall {R : Type} (thermal_rows : R -> nat) good r rest r',
  forallb (fun r => 0 <? thermal_rows r) good = true -> thermal_rows r = 0 -> In r' rest -> thermal_rows r' <> 0 ->
  plot_temperature_hist thermal_rows (good ++ r :: rest) = Err EKey.
Proof. exact @temps_fail. Qed.

(** Three runs: number, rows of devfreq, rows of thermal, labels. *)
Record rn := Rn { rid : nat; rdev : nat; rth : nat; rfr : list str }.
Definition r0 := Rn 0 0 3 [$"A7"].
Definition r1 := Rn 1 5 2 [$"A7"; $"GPU"].
Definition r2 := Rn 2 0 0 [$"A7"].
Example C69_ex :
  plot_load [r0; r1] = Ok [((0, 0), r0, PLoad); ((1, 0), r0, PNormalized); ((0, 1), r1, PLoad); ((1, 1), r1, PNormalized)] /\
  plot_load [r0] = Ok [((0, 0), r0, PLoad); ((1, 0), r0, PNormalized)] /\
  plot_allfreqs rdev rfr [r0; r1] 1 = Ok [((0, 0), r0, PFreqs $"A7"); ((0, 1), r1, PFreqs $"A7"); ((1, 1), r1, PFreqs $"GPU")] /\
  plot_allfreqs rdev rfr [r0; r2] 1 = Ok [((0, 0), r0, PFreqs $"A7"); ((0, 1), r2, PFreqs $"A7")] /\
  plot_allfreqs rdev rfr [r1] 1 = Ok [((0, 0), r1, PFreqs $"A7"); ((1, 0), r1, PFreqs $"GPU")] /\
  plot_freq_hists rdev rfr rfr [r0; r1] 1 =
    Ok [((0, 0), r0, PHist true $"A7"); ((2, 0), r0, PHist false $"A7");
        ((0, 1), r1, PHist true $"A7"); ((1, 1), r1, PHist true $"GPU"); ((2, 1), r1, PHist false $"A7"); ((3, 1), r1, PHist false $"GPU")] /\
  plot_one [r0; r1; r2] = Ok [((0, 0), r0, POne); ((0, 1), r1, POne); ((0, 2), r2, POne)] /\
  plot_temperature_hist rth [r0; r1; r2] = Ok [((0, 0), r0, POne); ((0, 1), r1, POne)] /\
  plot_load (@nil rn) = Err EValue /\ plot_freq_hists rdev rfr rfr [r0] 0 = Err EValue.
Proof. vm_compute. repeat split. Qed.
Example C69_ex_hyps : [r0; r1] <> [] /\ 0 < number_freq_plots rdev [r0; r1] 1 /\
  (forall r, In r [r0; r1] -> List.length (rfr r) <= 1 + (if rdev r =? 0 then 0 else 1)) /\
  forallb (fun r => 0 <? rth r) [r0; r1] = true /\ (forall r, In r [r2] -> rth r = 0).
Proof.
  split; [discriminate|]. split; [vm_compute; lia|]. split; [intros r [<- | [<- | []]]; vm_compute; lia|].
  split; [reflexivity|]. intros r [<- | []]. reflexivity.
Qed.
(** A run with temperatures after one without them is not drawn. *)
Theorem C69_temps_refuted : ~ (forall {R : Type} (thermal_rows : R -> nat) runs, exists out,
  plot_temperature_hist thermal_rows runs = Ok out /\ forall r, In r runs -> thermal_rows r <> 0 -> exists c, In (c, r, POne) out).
Proof. intros H. destruct (H rn rth [r0; r2; r1]) as (out & E & _). vm_compute in E. discriminate. Qed.

Print Assumptions C69_load.
Print Assumptions C69_one.
Print Assumptions C69_freqs.
Print Assumptions C69_count.
Print Assumptions C69_hists.
Print Assumptions C69_temps.
Print Assumptions C69_temps_fail.
Print Assumptions C69_temps_refuted.
