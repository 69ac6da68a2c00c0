(** Constraints over the traces that were read (trappy/plotter/Constraint.py, trappy/plotter/Utils.py:37-43,
    trappy/plotter/AttrConf.py:31-33). *)
From Coq Require Import List Ascii String ZArith QArith Qcanon Bool.
From Verif Require Import Lib.PyStr Model.Base Model.Tasks Model.Stats Model.Accessor Model.Solve Model.Constraint Model.ILine.
Import ListNotations.
Local Open Scope list_scope.

(** AttrConf.py:31, 33 *)
Definition PIVOT : str := $"__TRAPPY_PIVOT_DEFAULT".
Definition PIVOT_VAL : str := $"__TRAPPY_DEFAULT_PIVOT_VAL".
(** Utils.py:37-43: [val.strip(":")] *)
Definition decolonize (s : str) : str :=
  let colon := fun x => Ascii.eqb x ":" in rev (drop_while colon (rev (drop_while colon s))).

Section Order.
  (** In which order Python goes through the set of the members of a list. *)
  Context (order : list (option cell) -> list (option cell)).
  (** Constraint.py:170-187 [pivot_vals], for a pivot other than AttrConf.PIVOT. *)
  Definition pivot_vals (p : str) (filters : list (str * list cell)) (f : gframe Qc cell) : list (option cell) :=
    if has_col p (g_cols f) then
      order (filter (fun v => match dget eqs p filters with Some wanted => among cell_eqb wanted v | None => true end) (map (gcell p) (g_rows f)))
    else [].
  (** 160-168 [populate_data_frame] for a trace: [getattr(trace, decolonize(template.name)).data_frame].
      Simplified: attributes of the trace that are not tables are not there. *)
  Definition populate (frames : list (str * frame)) (template : str) : res (gframe Qc cell) :=
    match dget eqs (decolonize template) frames with Some f => Ok (gframe_of f) | None => Err EAttribute end.
  (** 100-118, 120-152: the result of a constraint; the slices by the window keep the columns. *)
  Definition constraint_result (frames : list (str * frame)) (pivot column template : str) (filters : list (str * list cell))
      (window : option (Qc * Qc)) : res (list (option cell * list (Qc * option cell))) :=
    do f <- populate frames template ;;
    let data := GFrame (g_cols f) (window_rows time_leb window (g_rows f)) in
    Ok (if eqs pivot PIVOT then apply_ cell_eqb (CStr PIVOT_VAL) column None filters data []
        else apply_ cell_eqb (CStr PIVOT_VAL) column (Some pivot) filters data (pivot_vals pivot filters data)).

  (** What a trace is here: its name and its tables. *)
  Notation ctrace := (str * list (str * frame))%type.
  (** A constraint that was made: its trace index, the name of its template, its label (189-214), its column and its result. *)
  Record made := Made { md_index : nat; md_template : str; md_label : str; md_column : str; md_result : list (option cell * list (Qc * option cell)) }.
  Definition make_constraint (pivot : str) (filters : list (str * list cell)) (window : option (Qc * Qc)) (x : ctrace * str * str * nat) : res made :=
    let '(tr, column, template, idx) := x in
    do r <- constraint_result (snd tr) pivot column template filters window ;;
    Ok (Made idx template (constraint_str (Some (fst tr)) idx template column) column r).
  (** 243-263 [ConstraintManager.__init__] *)
  Definition manager (traces : list ctrace) (columns templates : list str) (pivot : str) (filters : list (str * list cell))
      (window : option (Qc * Qc)) (zipped : bool) : res (list made) :=
    do xs <- (if zipped then zip_constraints traces columns templates else all_constraints traces columns templates) ;;
    mapM (make_constraint pivot filters window) xs.
  (** 382-388 *)
  Definition constraint_labels (cs : list made) : list str := map md_label cs.
  (** 331-332: [list.index], here [None] for a ValueError *)
  Fixpoint index_of (x : str) (l : list str) : option nat :=
    match l with [] => None | y :: r => if eqs x y then Some 0%nat else option_map S (index_of x r) end.
  Definition get_column_index (columns : list str) (c : made) : option nat := index_of (md_column c) columns.
  (** 368-374: [int(x)] and [int(x, 16)]; numbers have no [int(x, 16)] (a TypeError). *)
  Definition cell_int (c : cell) : option Z := match c with CInt z => Some z | CStr s => py_int10 s | CNone => None end.
  Definition cell_hex (c : cell) : option Z := match c with CStr s => py_int16 s | _ => None end.
  (** 361-380 [generate_pivots] *)
  Definition manager_pivots (cs : list made) : list cell :=
    sorted_pivots cell_int cell_hex cell_leb (present (order (flat_map (fun c => map fst (md_result c)) cs))).
End Order.
