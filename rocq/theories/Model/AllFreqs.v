(** Model of trappy/ftrace.py:539-569 [get_all_freqs_data]. *)
From Coq Require Import List Ascii String ZArith Bool.
From Verif Require Import Lib.PyStr Lib.TotalOrder Model.Power.
Import ListNotations.
Local Open Scope list_scope.

Section AllFreqs.
  (** [div]: the division of a frequency. *)
  Context {T F : Type} (leb : T -> T -> bool) (div : Z -> Z -> F).
  Notation frame := (list T * list (str * list (option F)))%type.
  (** cpu_power.py:111-123, 188-198; a frame without rows has no column "cpus". *)
  Definition cpu_freqs (cols : list str) (label : str -> option str) (rows : list (T * str * option Z)) : res frame :=
    match rows with [] => Err EKey | _ => get_all_freqs leb eqs div cols label rows end.
  (** [freqs[label]] *)
  Definition column (l : str) (f : frame) : res (list (T * option F)) :=
    match dget eqs l (snd f) with Some c => Ok (combine (fst f) c) | None => Err EKey end.
  (** 552-554, 563-566: [pd.DataFrame({a: s1, b: s2}).fillna(method="pad")] *)
  Definition pair_frame (a b : str) (s1 s2 : list (T * option F)) : res frame :=
    do f <- frame_of leb [(a, s1); (b, s2)] ;;
    Ok (fst f, map (fun lc => (fst lc, pad None (snd lc))) (snd f)).
  (** devfreq_power.py:39-48, 65-74 [get_all_freqs]; [None]: no column "freq" *)
  Definition gpu_freqs (rows : list (T * option Z)) : list (T * option F) :=
    map (fun r => (fst r, option_map (fun v => div v 1000000%Z) (snd r))) rows.
  (** 539-569; [in_cols] and [out_cols]: the sets of masks in the order of iteration *)
  Definition get_all_freqs_data (in_cols out_cols : list str) (map_label : list (str * str))
      (in_rows out_rows : list (T * str * option Z)) (dev_in dev_out : option (list (T * option Z))) : res (list (str * frame)) :=
    let label k := dget eqs k map_label in
    do fi <- cpu_freqs in_cols label in_rows ;;
    do fo <- cpu_freqs out_cols label out_rows ;;
    do ret <- mapM (fun l =>
      do si <- column l fi ;; do so <- column l fo ;;
      do f <- pair_frame (l ++ $"_freq_in") (l ++ $"_freq_out") si so ;; Ok (l, f)) (map snd map_label) ;;
    match dev_in, dev_out with
    | Some i, Some o => do f <- pair_frame $"gpu_freq_in" $"gpu_freq_out" (gpu_freqs i) (gpu_freqs o) ;; Ok (ret ++ [($"GPU", f)])
    | _, _ => Ok ret
    end.
End AllFreqs.
