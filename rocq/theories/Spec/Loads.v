(** What the load plots and the histograms have to show. *)
From Coq Require Import List Ascii String ZArith Bool Sorted.
From Verif Require Import Lib.PyStr Lib.TotalOrder Model.Power Spec.Power Spec.AllFreqs Model.Loads.
Import ListNotations.
Local Open Scope list_scope.

(** A table over all the [times]: a column for each key, with at each time the last known value of the rows [Of] says
    the key has, and then the column [extra] with the last known value of its own rows. *)
Definition Joined {T K L V} (leb : T -> T -> bool) (times : T -> Prop) (Of : K -> list (T * K * option V) -> Prop) (label : K -> option L)
    (cols : list K) (extra : option (L * list (T * option V))) (f : list T * list (L * list (option V))) : Prop :=
  let '(idx, tab) := f in
  StronglySorted (lt leb) idx /\
  (forall t, In t idx <-> times t \/ match extra with Some (_, s) => In t (map fst s) | None => False end) /\
  exists ctab gtab, tab = ctab ++ gtab /\ map (fun lc => Some (fst lc)) ctab = map label cols /\
    (forall k l col rows, In (l, col) ctab -> label k = Some l -> In k cols -> Of k rows ->
      Forall2 (fun t c => CellOf (fun a b => leb a b = true) rows k t c) idx col) /\
    match extra with
    | Some (l, s) => exists col, gtab = [(l, col)] /\ Forall2 (fun t c => CellOf (fun a b => leb a b = true) (one_key s) tt t c) idx col
    | None => gtab = []
    end.
Definition time_in {T K V} (rows : list (T * K * V)) (t : T) : Prop := exists k v, In (t, k, v) rows.
Definition load_rows {T} (rows : list (@irow T)) : list (T * str * option Z) :=
  map (fun r => (i_time r, i_cpus r, sum_known (load_values (i_cols r)))) rows.
(** The load of a cluster times its frequency, of what its cpus could do at its highest frequency. *)
Definition norm_rows {T F} (div : Z -> Z -> F) (rows : list (@irow T)) (k : str) (rs : list (T * str * option F)) : Prop :=
  exists bits m, MaskText k bits /\ is_max m (map i_freq (filter (fun r => eqs (i_cpus r) k) rows)) /\
    rs = map (fun r => (i_time r, i_cpus r, option_map (fun s => div (s * i_freq r) (m * Z.of_nat (List.length (cpus_of bits))))%Z
                                              (sum_known (load_values (i_cols r))))) rows.
(** The greatest of the values that are there. *)
Definition greatest {F} (fleb : F -> F -> bool) (l : list (option F)) (m : option F) : Prop :=
  match m with
  | Some x => In (Some x) l /\ forall y, In (Some y) l -> fleb y x = true
  | None => forall y, ~ In (Some y) l
  end.
(** The histogram of a column: on the axis, its values, from 0 to the greatest. *)
Definition drawn_as {F A} (fleb : F -> F -> bool) (mean std : list (option F) -> str) (what name : str)
    (p : A * (str * list (option F))) (h : hist) : Prop :=
  h_axis h = fst p /\ h_data h = snd (snd p) /\ greatest fleb (snd (snd p)) (h_top h) /\ h_bins h = 20 /\ h_xlabel h = $"Frequency (KHz)" /\
  h_title h = (match name with [] => [] | _ => name ++ $" - " end) ++ $"freq " ++ what ++ $" " ++ fst (snd p) ++
    $" (mean = " ++ mean (snd (snd p)) ++ $"KHz, std = " ++ std (snd (snd p)) ++ $")".
