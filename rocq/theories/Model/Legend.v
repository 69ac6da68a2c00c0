(** Model of trappy/plotter/StaticPlot.py:180-285 and of the loops of LinePlot.plot_axis
    (LinePlot.py:157-174) and BarPlot.plot_axis (BarPlot.py:103-128): which lines are drawn
    on which axis, in which colour, and what the legend and the titles say. *)
From Coq Require Import List Ascii String ZArith Bool Arith.
From Verif Require Import Lib.PyStr Model.Governor Model.ILine Model.Layout.
Import ListNotations.
Local Open Scope list_scope.

Section Legend.
  (** Pivot values; [is_default p] for AttrConf.PIVOT_VAL; [plabel] is
      "{0}: {1}".format(pivot, map_label.get(p, p)); [columns] is str(self._attr["column"]). *)
  Context {P : Type} (peq : P -> P -> bool) (is_default : P -> bool) (plabel : P -> str) (columns : str).
  (** A constraint: what Model/Layout.v needs, the name of its trace ([None] for a
      DataFrame), its template and its column. *)
  Record scon := SCon { s_con : con P; s_name : option str; s_template : str; s_column : str }.
  Definition s_str (c : scon) : str := constraint_str (s_name c) (c_trace (s_con c)) (s_template c) (s_column c).
  Definition s_data (c : scon) : str := data_name (s_name c) (c_trace (s_con c)).

  Inductive mode := MNormal | MConcat | MPermute.
  (** 193-203 [make_title] *)
  Definition title_of (m : mode) (c : scon) (p : P) : str :=
    match m with
    | MConcat => s_str c
    | MPermute => s_data c
    | MNormal => if is_default p then [] else plabel p
    end.
  (** 205-225 [add_to_legend]: the label *)
  Definition label_of (m : mode) (c : scon) (p : P) : str :=
    match m with
    | MConcat => if is_default p then columns else plabel p
    | MPermute => s_template c ++ $":" ++ s_column c
    | MNormal => s_str c
    end.

  (** 245-250: the order of the constraints with [permute]; [sorted] is stable. *)
  Definition sort_key (c : scon) : str * str :=
    let parts := split_ch ":"%char (s_str c) in (last parts [], hd [] parts).
  Definition key_leb (a b : str * str) : bool :=
    if eqs (fst a) (fst b) then str_leb (snd a) (snd b) else str_leb (fst a) (fst b).
  Fixpoint insert_con (c : scon) (l : list scon) : list scon :=
    match l with
    | [] => [c]
    | d :: r => if key_leb (sort_key c) (sort_key d) then c :: l else d :: insert_con c r
    end.
  Definition sort_cons (l : list scon) : list scon := fold_right insert_con [] l.

  (** 243-256: the series.  With [permute] all pairs are taken; [pivots] is then
      sorted(set(pivots)). *)
  Definition pairs_of (m : mode) (cs : list scon) (pivots : list P) : list (scon * P) :=
    match m with
    | MPermute => flat_map (fun c => map (pair c) pivots) (sort_cons cs)
    | _ => flat_map (fun c => map (pair c) (filter (fun p => existsb (peq p) (c_keys (s_con c))) pivots)) cs
    end.

  (** 265-268 [figure_data]: the series of each axis; axes in the order in which they are met
      (the order of a dict). *)
  Definition same_cell (a b : cell) : bool := (fst a =? fst b)%Z && (snd a =? snd b)%Z.
  Fixpoint add_series {A} (a : cell) (x : A) (g : list (cell * list A)) : list (cell * list A) :=
    match g with
    | [] => [(a, [x])]
    | (b, xs) :: r => if same_cell a b then (b, xs ++ [x]) :: r else (b, xs) :: add_series a x r
    end.

  Record line := Line { n_colour : nat; n_con : scon; n_pivot : P }.
  Record axis := Axis { a_cell : cell; a_title : str; a_lines : list line }.
  (** A list assignment. *)
  Definition put {A} (i : nat) (x : A) (l : list A) : res (list A) :=
    if i <? List.length l then Ok (firstn i l ++ x :: skipn (S i) l) else Err EIndex.
  (** [plot_axis]: the lines, the last title and the legend. *)
  Fixpoint plot_lines (m : mode) (i : nat) (series : list (scon * P)) (title : str) (legend : list (option str)) :
      res (list line * str * list (option str)) :=
    match series with
    | [] => Ok ([], title, legend)
    | (c, p) :: r =>
        if existsb (peq p) (c_keys (s_con c)) then
          do legend <- put i (Some (label_of m c p)) legend ;;
          do x <- plot_lines m (S i) r (title_of m c p) legend ;;
          let '(ls, t, lg) := x in Ok (Line i c p :: ls, t, lg)
        else Err EKey
    end.
  Fixpoint plot_axes (m : mode) (g : list (cell * list (scon * P))) (legend : list (option str)) : res (list axis * list (option str)) :=
    match g with
    | [] => Ok ([], legend)
    | (a, series) :: r =>
        do x <- plot_lines m 0 series [] legend ;;
        let '(ls, t, lg) := x in
        do y <- plot_axes m r lg ;;
        Ok (Axis a t ls :: fst y, snd y)
    end.
  (** 227-285 [_resolve]; [ntraces] is the number of traces given and [max_len] the greatest number of
      traces, columns and templates. *)
  Definition view (m : mode) (per_line : Z) (ntraces max_len : nat) (cs : list scon) (pivots : list P) :
      res (list axis * list (option str)) :=
    let num := match m with MConcat => List.length cs | MNormal => List.length pivots | MPermute => List.length pivots * ntraces end in
    let len := match m with MConcat => List.length pivots | MNormal => List.length cs | MPermute => max_len end in
    do l <- mk_layout per_line (Z.of_nat num) ;;
    do out <- mapM (fun icp => let '(i, cp) := icp in
                     do a <- get_axis l (Z.of_nat (match m with MConcat => c_trace (s_con (fst cp)) | _ => i end)) ;; Ok (a, cp))
                   (enumerate 0 (pairs_of m cs pivots)) ;;
    plot_axes m (fold_left (fun g x => add_series (fst x) (snd x) g) out []) (repeat None len).
End Legend.
Arguments scon : clear implicits.
Arguments line : clear implicits.
Arguments axis : clear implicits.
