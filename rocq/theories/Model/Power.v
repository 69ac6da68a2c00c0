(** Model of trappy/cpu_power.py. *)
From Coq Require Import List Ascii String ZArith NArith Bool.
From Verif Require Import Lib.PyStr Lib.TotalOrder.
Import ListNotations.
Local Open Scope list_scope.

(** ** cpu_power.py:90-96 [num_cpus_in_mask] *)
(** [bin(value)] *)
Definition bin_text (z : Z) : str :=
  (if (z <? 0)%Z then $"-0b" else $"0b") ++ fmt_base 2 (Z.to_N (Z.abs z)).
Definition count_ch (c : ascii) (s : str) : nat := List.length (filter (is_ch c) s).
Definition num_cpus_in_mask (mask : str) : res nat :=
  match py_int16 (replace $"," [] mask) with
  | Some value => Ok (count_ch "1" (bin_text value))
  | None => Err EValue
  end.

(** ** cpu_power.py:26-88 [pivot_with_labels] *)
Section Pivot.
  (** Index values, masks (values of the column that becomes the columns), labels,
      and values of the data column ([None] is a missing value). *)
  Context {T K L V : Type} (leb : T -> T -> bool) (keq : K -> K -> bool) (leq : L -> L -> bool).
  Definition prow : Type := T * K * option V.
  Definition series : Type := list (T * option V).
  Definition p_time (r : prow) : T := fst (fst r).
  Definition p_key (r : prow) : K := snd (fst r).
  Definition p_val (r : prow) : option V := snd r.

  (** 84: the rows of one mask. *)
  Definition select (rows : list prow) (k : K) : series :=
    map (fun r => (p_time r, p_val r)) (filter (fun r => keq (p_key r) k) rows).
  (** 75-86; [cols] is the set of the values in the order in which Python
      iterates over it (any order). *)
  Fixpoint ret_series (label : K -> option L) (rows : list prow) (cols : list K) (acc : list (L * series))
      : res (list (L * series)) :=
    match cols with
    | [] => Ok acc
    | k :: rest =>
        match label k with
        | None => Err EKey
        | Some l => ret_series label rows rest (dset leq l (select rows k) acc)
        end
    end.
  (** [pandas.DataFrame(dict of series)]: the common index if all indexes are the
      same, else the sorted union; a repeated index value cannot be reindexed. *)
  Fixpoint at_time (s : series) (t : T) : option V :=
    match s with
    | [] => None
    | (t', v) :: r => if teq leb t t' then v else at_time r t
    end.
  Definition frame_of (d : list (L * series)) : res (list T * list (L * list (option V))) :=
    match d with
    | [] => Ok ([], [])
    | (_, s) :: rest =>
        if forallb (fun ls => eq_list leb (map fst (snd ls)) (map fst s)) rest
        then Ok (map fst s, map (fun ls => (fst ls, map snd (snd ls))) d)
        else if forallb (fun ls => nodup_b leb (map fst (snd ls))) d
        then let idx := sort_u leb (List.concat (map (fun ls => map fst (snd ls)) d)) in
             Ok (idx, map (fun ls => (fst ls, map (at_time (snd ls)) idx)) d)
        else Err EValue
    end.
  (** 88: [fillna(method="pad")] *)
  Fixpoint pad (last : option V) (l : list (option V)) : list (option V) :=
    match l with
    | [] => []
    | None :: r => last :: pad last r
    | Some v :: r => Some v :: pad (Some v) r
    end.
  Definition pivot_with_labels (cols : list K) (label : K -> option L) (rows : list prow)
      : res (list T * list (L * list (option V))) :=
    do d <- ret_series label rows cols [] ;;
    do f <- frame_of d ;;
    Ok (fst f, map (fun lc => (fst lc, pad None (snd lc))) (snd f)).
End Pivot.

(** ** cpu_power.py:125-198 [CpuInPower] *)
Section InPower.
  Context {T L F : Type} (leb : T -> T -> bool) (leq : L -> L -> bool).
  (** A row: time, column "cpus", column "freq", and the other columns by name.
      Columns are the same in every row. *)
  Record irow := IRow { i_time : T; i_cpus : str; i_freq : Z; i_cols : list (str * option Z) }.

  Definition oadd (a b : option Z) : option Z :=
    match a, b with Some x, Some y => Some (x + y)%Z | _, _ => None end.
  (** 141-151 [_get_load_series]: the sum of the columns whose name starts with
      "load"; IndexError without one. *)
  Definition load_cols (r : irow) : list (option Z) :=
    map snd (filter (fun c => is_prefix $"load" (fst c)) (i_cols r)).
  Definition load_of (r : irow) : res (option Z) :=
    match load_cols r with
    | [] => Err EIndex
    | x :: rest => Ok (fold_left oadd rest x)
    end.
  (** 153-164 [get_load_data]; a frame without rows has no columns. *)
  Definition get_load_data (cols : list str) (label : str -> option L) (rows : list irow) :=
    do _ <- (match rows with [] => Err EIndex | _ => Ok tt end) ;;
    do dat <- mapM (fun r => do l <- load_of r ;; Ok (i_time r, i_cpus r, l)) rows ;;
    pivot_with_labels leb eqs leq cols label dat.

  (** 166-186 [get_normalized_load_data].  [div] is the division of the two
      integers, [of_int] the conversion of a value left undivided.  [mapping] is
      the dictionary's items; a mask of it without rows makes [max] fail. *)
  Variables (div : Z -> Z -> F) (of_int : Z -> F).
  Fixpoint max_list (m : Z) (l : list Z) : Z := match l with [] => m | x :: r => max_list (Z.max m x) r end.
  Definition normalize_mask (mask : str) (rows : list (irow * option F)) (raw : list (option Z))
      : res (list (irow * option F)) :=
    do n <- num_cpus_in_mask mask ;;
    match map i_freq (filter (fun r => eqs (i_cpus r) mask) (map fst rows)) with
    | [] => Err EValue
    | f :: fs =>
        Ok (map (fun rv => let '((r, v), w) := rv in
                  (r, if eqs (i_cpus r) mask
                      then option_map (fun w => div w (max_list f fs * Z.of_nat n)%Z) w else v))
             (combine rows raw))
    end.
  Fixpoint normalize_all (masks : list str) (rows : list (irow * option F)) (raw : list (option Z)) :=
    match masks with
    | [] => Ok rows
    | m :: rest => do rows' <- normalize_mask m rows raw ;; normalize_all rest rows' raw
    end.
  Definition get_normalized_load_data (cols : list str) (mapping : list (str * L)) (rows : list irow) :=
    do _ <- (match rows with [] => Err EIndex | _ => Ok tt end) ;;
    do raw <- mapM (fun r => do l <- load_of r ;; Ok (option_map (fun x => x * i_freq r)%Z l)) rows ;;
    do out <- normalize_all (map fst mapping) (combine rows (map (option_map of_int) raw)) raw ;;
    pivot_with_labels leb eqs leq cols (fun k => dget eqs k mapping)
      (map (fun rv => (i_time (fst rv), i_cpus (fst rv), snd rv)) out).
End InPower.

(** 111-123 and 188-198 [get_all_freqs]: in MHz. *)
Definition get_all_freqs {T L F} leb leq (div : Z -> Z -> F) (cols : list str) (label : str -> option L)
    (rows : list (T * str * option Z)) :=
  do f <- pivot_with_labels leb eqs leq cols label rows ;;
  Ok (fst f, map (fun lc => (fst lc, map (option_map (fun v => div v 1000%Z)) (snd lc))) (snd f)).
