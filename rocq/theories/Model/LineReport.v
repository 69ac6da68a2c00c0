(** An interactive line plot of traces that were read (trappy/plotter/ILinePlot.py:137-203, 220-289 with
    AbstractDataPlotter.py and Constraint.py). *)
From Coq Require Import List Ascii String ZArith QArith Qcanon Bool.
From Verif Require Import Lib.PyStr Model.Base Model.Registry Model.Tasks Model.Stats Model.Accessor Model.Solve Model.Dups Model.ILine Model.Signals Model.ConstraintReport.
Import ListNotations.
Local Open Scope list_scope.

(** The numbers that are drawn.  Simplified: a column with texts is an error (pandas cannot interpolate it). *)
Definition number (c : option cell) : res (option Q) :=
  match c with
  | None => Ok None
  | Some (CInt z) => Ok (Some (inject_Z z))
  | Some _ => Err EType
  end.
(** The keys of a result are never missing (C41). *)
Definition numbers (vs : option cell * list (Qc * option cell)) : res (cell * list (Qc * option Q)) :=
  do s <- mapM (fun x => do q <- number (snd x) ;; Ok (fst x, q)) (snd vs) ;;
  match fst vs with Some v => Ok (v, s) | None => Err EType end.
(** What ILinePlot.py uses of a constraint: 230-238. *)
Definition con_of (d : made) : res (con Qc cell) :=
  do r <- mapM numbers (md_result d) ;;
  Ok (Con (md_index d) (md_label d) (md_template d ++ $":" ++ md_column d) r).

(** A trace: name, class_definitions, tables. *)
Definition ltrace : Type := (str * list (str * klass) * list (str * frame))%type.
(** utils.py:31-32 [handle_duplicate_index] with max_delta 0.000001, over exact times. *)
Definition max_delta : Qc := Q2Qc (1 # 1000000).
Definition dedup_times : list Qc -> list Qc := handle_dups q_arith max_delta.

Section View.
  Context (order : list (option cell) -> list (option cell)) {F : Type} (uuid : nat -> F).
  (** 137-168: signals to templates and columns (the attribute [name] of a class is the name it was given), then the
      constraints; [xlim] is the window. *)
  Definition line_constraints (traces : list ltrace) (signals : list str) (pivot : str) (filters : list (str * list cell)) (xlim : option (Qc * Qc)) :
      res (list str * list made) :=
    do d <- describe false (map (fun t => snd (fst t)) traces) signals ;;
    let '(templates, columns, _) := d in
    do cs <- manager order (map (fun t => (fst (fst t), snd t)) traces) columns (map given_name templates) pivot filters xlim true ;;
    Ok (columns, cs).
  (** [view()] without [permute]; the colours are not modelled here (Model/Signals.v). *)
  Definition line_view (traces : list ltrace) (signals : list str) (pivot : str) (filters : list (str * list cell)) (xlim : option (Qc * Qc))
      (concat : bool) (draw : option str) (label : cell -> str) (max per_line : Z) (title : option str) :=
    do cc <- line_constraints traces signals pivot filters xlim ;;
    do cs <- mapM con_of (snd cc) ;;
    let pivots := manager_pivots order (snd cc) in
    if concat then plot_concat time_leb dedup_times cell_eqb (CStr PIVOT_VAL) uuid draw (fst cc) pivot label cs pivots max per_line title
    else plot time_leb dedup_times cell_eqb (CStr PIVOT_VAL) uuid draw pivot label cs pivots max per_line title.
End View.
