(** Model of trappy/plotter/ILinePlotGen.py: the page an interactive plot is shown on. *)
From Coq Require Import List Ascii String ZArith Bool.
From Verif Require Import Lib.PyStr.
Import ListNotations.
Local Open Scope list_scope.
Local Open Scope Z_scope.

Section Gen.
  (** Names of figures; [uuid i] is the [i]-th one drawn (144 [uuid.uuid4().hex]). *)
  Context {F : Type} (uuid : nat -> F).
  (** The pieces of HTML, 90-137 and 155-177; [TGraph] is the cell of a figure with its
      script, [TLegend] the cell of its legend. *)
  Inductive tok := TTable | TCaption (s : str) | TRow | TGraph (f : F) | TLegend (f : F) | TEndRow | TEndTable.
  Record gen := Gen { n_figs : nat; g_per_line : Z; g_rows : Z; g_html : list tok }.
  (** 162-175: one line of figures, starting at figure [i], [w] figures wide *)
  Definition line (i w : nat) : list tok :=
    [TRow] ++ map (fun k => TGraph (uuid k)) (seq i w) ++ [TEndRow; TRow] ++ map (fun k => TLegend (uuid k)) (seq i w) ++ [TEndRow].
  Fixpoint lines (rows i w : nat) : list tok :=
    match rows with O => [] | S r => line i w ++ lines r (i + w) w end.
  (** 179-201 [__init__] and 152-177 [_init_html] *)
  Definition init (num per_line : Z) (title : option str) : res gen :=
    if num =? 0 then Err ERuntime
    else let per := if num <? per_line then num else per_line in
         if per =? 0 then Err EZeroDiv
         else let rows := num / per in
              let rows := if num mod per =? 0 then rows else rows + 1 in
              let r := Z.to_nat rows in
              let w := Z.to_nat per in
              Ok (Gen (r * w) per rows
                   ([TTable] ++ match title with Some ((_ :: _) as t) => [TCaption t] | _ => [] end ++ lines r 0 w ++ [TEndTable])).

  (** A frame: index, labels and rows of values. *)
  Context {T V : Type}.
  Record frame := Frame { f_index : list T; f_labels : list str; f_values : list (list V) }.
  (** A cell of the table of data handed to the page. *)
  Inductive datum := DT (t : T) | DV (v : V).
  (** 43-60 [df_to_dygraph]: [data[idx] += val] for the rows that have values *)
  Fixpoint extend (data : list (list datum)) (values : list (list V)) : list (list datum) :=
    match data, values with
    | d :: ds, v :: vs => (d ++ map DV v) :: extend ds vs
    | _, _ => data
    end.
  Definition df_to_dygraph (f : frame) : list str * list (list datum) :=
    ($"index" :: f_labels f, extend (map (fun t => [DT t]) (f_index f)) (f_values f)).
  (** 216-269 [add_plot]: figure, title, labels and data. *)
  Definition script := (F * str * (list str * list (list datum)))%type.
  Definition add_plot (max : Z) (g : gen) (n : nat) (f : frame) (title : str) : res script :=
    if max <? fold_right Z.add 0 (map (fun v => Z.of_nat (List.length v)) (f_values f)) then Err EValue
    else if Nat.ltb n (n_figs g) then Ok (uuid n, title, df_to_dygraph f) else Err EKey.
  (** The callers, ILinePlot.py:220-289: one plot after the other. *)
  Fixpoint add_plots (max : Z) (g : gen) (n : nat) (fs : list (frame * str)) : res (list script) :=
    match fs with
    | [] => Ok []
    | (f, t) :: r => do s <- add_plot max g n f t ;; do ss <- add_plots max g (S n) r ;; Ok (s :: ss)
    end.
  Definition page (max per_line : Z) (title : option str) (fs : list (frame * str)) : res (list tok * list script) :=
    do g <- init (Z.of_nat (List.length fs)) per_line title ;;
    do ss <- add_plots max g 0 fs ;;
    Ok (g_html g, ss).
End Gen.
Arguments tok : clear implicits.
Arguments frame : clear implicits.
Arguments datum : clear implicits.
Arguments script : clear implicits.
