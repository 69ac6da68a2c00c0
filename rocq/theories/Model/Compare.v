(** Model of trappy/plot_utils.py: which axis of a figure shows which plot of which run. *)
From Coq Require Import List Ascii String ZArith Bool Arith.
From Verif Require Import Lib.PyStr.
Import ListNotations.
Local Open Scope list_scope.

(** An axis is known by its row and column in the figure. *)
Definition cell := (nat * nat)%type.
(** Python values built from axes: an axis, or a list, tuple or array of values. *)
Inductive val := VAx (c : cell) | VSeq (l : list val).
(** [plt.subplots(nrows=nrows, ncols=ncols)]: dimensions of length one are squeezed out. *)
Definition subplots (nrows ncols : nat) : res val :=
  let row r := map (fun c => VAx (r, c)) (seq 0 ncols) in
  if (nrows =? 0) || (ncols =? 0) then Err EValue
  else if (nrows =? 1) && (ncols =? 1) then Ok (VAx (0, 0))
  else if nrows =? 1 then Ok (VSeq (row 0))
  else if ncols =? 1 then Ok (VSeq (map (fun r => VAx (r, 0)) (seq 0 nrows)))
  else Ok (VSeq (map (fun r => VSeq (row r)) (seq 0 nrows))).
(** Iteration over a value; an axis is no iterable. *)
Definition items (v : val) : res (list val) := match v with VAx _ => Err EType | VSeq l => Ok l end.
(** [v[i]] *)
Definition item (v : val) (i : nat) : res val :=
  do l <- items v ;; match nth_error l i with Some x => Ok x | None => Err EIndex end.
(** A value used as an axis; a sequence has no method [plot]. *)
Definition axis_of (v : val) : res cell := match v with VAx c => Ok c | VSeq _ => Err EAttribute end.
(** [zip] of several sequences, down to the shortest *)
Fixpoint zip_all {A} (ls : list (list A)) : list (list A) :=
  match ls with
  | [] => []
  | [l] => map (fun x => [x]) l
  | l :: r => map (fun p => fst p :: snd p) (combine l (zip_all r))
  end.
(** [zip( *v )] *)
Definition zip_star (v : val) : res val :=
  do l <- items v ;; do ls <- mapM items l ;; Ok (VSeq (map VSeq (zip_all ls))).

Section Compare.
  (** Runs: the number of rows of devfreq_in_power and of thermal; the labels of [get_all_freqs_data]; the columns
      of the tables of frequencies that [plot_freq_hists] draws (the column of the GPU is named "freq", see
      Loads.v). *)
  Context {R : Type} (dev_rows thermal_rows : R -> nat) (all_freqs hist_out hist_in : R -> list str).
  (** A drawing: the axis, the run and the plot. *)
  Inductive plot := PLoad | PNormalized | PFreqs (label : str) | PHist (out : bool) (actor : str) | POne.
  Definition drawing := (cell * R * plot)%type.

  Definition for_runs (axis : val) (runs : list R) (draw : val -> R -> res (list drawing)) : res (list drawing) :=
    do l <- items axis ;;
    do ds <- mapM (fun p => draw (fst p) (snd p)) (combine l runs) ;; Ok (List.concat ds).
  (** 127-144 [number_freq_plots]; [labels] is [len(map_label)] *)
  Definition number_freq_plots (runs : list R) (labels : nat) : nat :=
    labels + (if existsb (fun r => 0 <? dev_rows r) runs then 1 else 0).

  Definition on (v : val) (r : R) (p : plot) : res (list drawing) := do c <- axis_of v ;; Ok [(c, r, p)].
  (** 192-204 [plot_load] *)
  Definition plot_load (runs : list R) : res (list drawing) :=
    do axis <- subplots 2 (List.length runs) ;;
    do axis <- (if List.length runs =? 1 then Ok (VSeq [axis]) else zip_star axis) ;;
    for_runs axis runs (fun ax r =>
      do a0 <- item ax 0 ;; do d0 <- on a0 r PLoad ;;
      do a1 <- item ax 1 ;; do d1 <- on a1 r PNormalized ;; Ok (d0 ++ d1)).
  (** ftrace.py:711-738 [plot_allfreqs] with [ax] *)
  Definition run_allfreqs (ax : val) (r : R) : res (list drawing) :=
    do l <- items ax ;;
    do ds <- mapM (fun p => on (fst p) r (PFreqs (snd p))) (combine l (all_freqs r)) ;; Ok (List.concat ds).
  (** 206-225 [plot_allfreqs] *)
  Definition plot_allfreqs (runs : list R) (labels : nat) : res (list drawing) :=
    let num_runs := List.length runs in
    let nrows := number_freq_plots runs labels in
    do axis <- subplots nrows num_runs ;;
    do axis <- (if num_runs =? 1 then (if nrows =? 1 then Ok (VSeq [VSeq [axis]]) else Ok (VSeq [axis]))
                else if nrows =? 1 then do l <- items axis ;; Ok (VSeq (map (fun a => VSeq [a]) l))
                else zip_star axis) ;;
    for_runs axis runs run_allfreqs.
  (** 227-236 [plot_controller], 269-279 [plot_input_power] (its first figure), 283-293 [plot_output_power] *)
  Definition plot_one (runs : list R) : res (list drawing) :=
    do axis <- subplots 1 (List.length runs) ;;
    let axis := if List.length runs =? 1 then VSeq [axis] else axis in
    for_runs axis runs (fun ax r => on ax r POne).
  (** ftrace.py:46-62 [_plot_freq_hists] and 620-650 [plot_freq_hists] *)
  Definition hists (out : bool) (l : list val) (actors : list str) (r : R) : res (list drawing) :=
    do ds <- mapM (fun p => on (fst p) r (PHist out (snd p))) (combine l actors) ;; Ok (List.concat ds).
  Definition run_freq_hists (ax : val) (r : R) : res (list drawing) :=
    do l <- items ax ;;
    let base := List.length l / 2 in
    do d1 <- hists true (firstn base l) (hist_out r) r ;;
    do d2 <- hists false (skipn base l) (hist_in r) r ;; Ok (d1 ++ d2).
  (** 295-307 [plot_freq_hists] *)
  Definition plot_freq_hists (runs : list R) (labels : nat) : res (list drawing) :=
    do axis <- subplots (2 * number_freq_plots runs labels) (List.length runs) ;;
    do axis <- (if List.length runs =? 1 then Ok (VSeq [axis]) else zip_star axis) ;;
    for_runs axis runs run_freq_hists.
  (** 309-325 [plot_temperature_hist]; a frame without rows has no column "temp" (thermal.py:115) *)
  Definition plot_temperature_hist (runs : list R) : res (list drawing) :=
    let num_runs := List.length (filter (fun r => 0 <? thermal_rows r) runs) in
    if num_runs =? 0 then Ok []
    else do axis <- subplots 1 num_runs ;;
         let axis := if num_runs =? 1 then VSeq [axis] else axis in
         for_runs axis runs (fun ax r => if thermal_rows r =? 0 then Err EKey else on ax r POne).
End Compare.
Arguments drawing : clear implicits.
