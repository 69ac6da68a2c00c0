(** Model of trappy/ftrace.py:46-62 and 620-709 (the load plots and the histograms of frequencies), of
    trappy/plot_utils.py:180-190 [plot_hist] and of trappy/thermal.py:104-119 [plot_temperature_hist]. *)
From Coq Require Import List Ascii String ZArith Bool.
From Verif Require Import Lib.PyStr Lib.TotalOrder Model.Power Model.AllFreqs Model.Temperature.
Import ListNotations.
Local Open Scope list_scope.

Section Join.
  Context {T V : Type} (leb : T -> T -> bool).
  (** [pd.concat([table, column], axis=1)]: the index if both have the same one, else the union of the two, which
      needs each without repetitions.  [sorted]: the union is in order (pandas' own choice before 1.0); otherwise the
      new times come after those of the table. *)
  Definition union (sorted : bool) (a b : list T) : list T :=
    if sorted then sort_u leb (a ++ b) else a ++ filter (fun t => negb (mem leb t a)) b.
  Definition concat1 (sorted : bool) (f : list T * list (str * list (option V))) (l : str) (s : list (T * option V))
      : res (list T * list (str * list (option V))) :=
    let '(idx, tab) := f in
    if eq_list leb (map fst s) idx then Ok (idx, tab ++ [(l, map snd s)])
    else if nodup_b leb idx && nodup_b leb (map fst s) then
      let idx' := union sorted idx (map fst s) in
      Ok (idx', map (fun lc => (fst lc, map (at_time leb (combine idx (snd lc))) idx')) tab ++ [(l, map (at_time leb s) idx')])
    else Err EValue.
  Definition concat_opt (sorted : bool) (f : list T * list (str * list (option V))) (l : str) (s : option (list (T * option V))) :=
    match s with Some s => concat1 sorted f l s | None => Ok f end.
  (** [fillna(method="pad")] *)
  Definition filled (f : list T * list (str * list (option V))) := (fst f, map (fun lc => (fst lc, pad None (snd lc))) (snd f)).
End Join.

Section Loads.
  Context {T F : Type} (leb : T -> T -> bool) (div : Z -> Z -> F) (of_int : Z -> F).
  (** 652-679 [plot_load]: the title and the table drawn.  [gpu]: the column "load" of devfreq_in_power if it has
      one.  The axis (673-674, 678) is matplotlib's. *)
  Definition plot_load (sorted : bool) (cols : list str) (label : str -> option str) (rows : list (@irow T)) (gpu : option (list (T * option Z)))
      (title : str) : res (str * (list T * list (str * list (option Z)))) :=
    do d <- get_load_data leb eqs cols label rows ;;
    do j <- concat_opt leb sorted d $"GPU" gpu ;;
    Ok (normalize_title $"Utilization" title, filled j).

  (** 681-709 [plot_normalized_load].  [gpu]: the columns "freq" and "load" of devfreq_in_power if it has "load". *)
  Definition gpu_load (rows : list (T * Z * option Z)) : res (list (T * option F)) :=
    match map (fun r => snd (fst r)) rows with
    | [] => Err EValue
    | f :: fs => Ok (map (fun r => (fst (fst r), option_map (fun l => div (l * snd (fst r)) (max_list f fs)) (snd r))) rows)
    end.
  Definition plot_normalized_load (sorted : bool) (cols : list str) (mapping : list (str * str)) (rows : list (@irow T))
      (gpu : option (list (T * Z * option Z))) (title : str) : res (str * (list T * list (str * list (option F)))) :=
    do d <- get_normalized_load_data leb eqs div of_int cols mapping rows ;;
    do g <- match gpu with Some g => do s <- gpu_load g ;; Ok (Some s) | None => Ok None end ;;
    do j <- concat_opt leb sorted d $"GPU" g ;;
    Ok (normalize_title $"Normalized Utilization" title, filled j).

  (** plot_utils.py:180-190 [plot_hist]: what is on the axis.  [mean] and [std] are the two numbers as printed with
      two digits; [fleb] orders the values.  [max]: missing values do not count. *)
  Context {A : Type} (fleb : F -> F -> bool) (mean std : list (option F) -> str).
  Record hist := Hist { h_axis : A; h_title : str; h_xlabel : str; h_bins : nat; h_data : list (option F); h_top : option F }.
  Fixpoint top (m : option F) (l : list (option F)) : option F :=
    match l with
    | [] => m
    | None :: r => top m r
    | Some x :: r => top (match m with Some y => if fleb y x then Some x else Some y | None => Some x end) r
    end.
  Definition plot_hist (data : list (option F)) (ax : A) (title unit : str) (bins : nat) (xlabel : str) (xmax : option F) : hist :=
    Hist ax (title ++ $" (mean = " ++ mean data ++ unit ++ $", std = " ++ std data ++ $")") (xlabel ++ $" (" ++ unit ++ $")") bins data xmax.
  (** ftrace.py:46-62 [_plot_freq_hists] *)
  Definition freq_hists (tab : list (str * list (option F))) (what : str) (axis : list A) (title : str) : list hist :=
    map (fun p => let '(ax, (actor, data)) := p in
      plot_hist data ax (normalize_title ($"freq " ++ what ++ $" " ++ actor) title) $"KHz" 20 $"Frequency" (top None data)) (combine axis tab).
  (** 620-650 [plot_freq_hists].  devfreq_power.py:39-48 returns a frame with the column "freq", and 642 ("name") does not
      rename the column of a frame.  648 is given "out" for both. *)
  Definition plot_freq_hists (sorted : bool) (out_cols in_cols : list str) (map_label : list (str * str))
      (out_rows in_rows : list (T * str * option Z)) (dev_out dev_in : option (list (T * option Z))) (name : str) (ax : list A) : res (list hist) :=
    let label k := dget eqs k map_label in
    let base := Nat.div (List.length ax) 2 in
    let '(go, gi) := match dev_out, dev_in with
                     | Some o, Some i => (Some (gpu_freqs div o), Some (gpu_freqs div i))
                     | _, _ => (None, None)
                     end in
    do co <- cpu_freqs leb div out_cols label out_rows ;;
    do ci <- cpu_freqs leb div in_cols label in_rows ;;
    do jo <- concat_opt leb sorted co $"freq" go ;;
    do ji <- concat_opt leb sorted ci $"freq" gi ;;
    Ok (freq_hists (snd (filled jo)) $"out" (firstn base ax) name ++ freq_hists (snd (filled ji)) $"out" (skipn base ax) name).
  (** thermal.py:104-119 [plot_temperature_hist]; a frame without rows has no column "temp". *)
  Definition plot_temperature_hist (rows : list (option Z)) (ax : A) (title : str) : res hist :=
    match rows with
    | [] => Err EKey
    | _ => let temps := map (option_map (fun v => div v 1000)) rows in
           Ok (plot_hist temps ax (normalize_title $"Temperature" title) $"C" 30 $"Temperature" (top None temps))
    end.
End Loads.
