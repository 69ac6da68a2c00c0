(** Model of trappy/compare_runs.py: the summary of one or several runs, and of the
    table wa/sysfs_extractor.py:80-96 prints for each. *)
From Coq Require Import List Ascii String ZArith Bool.
From Verif Require Import Lib.PyStr Lib.TotalOrder Model.Sysfs Model.Governor.
Import ListNotations.
Local Open Scope list_scope.

(** Arguments as far as their type is looked at. *)
Inductive arg (A : Type) := Right (a : A) | Other.
Arguments Right {A} _. Arguments Other {A}.

(** The functions of plot_utils.py that are called. *)
Inductive figure := FTemperature | FLoad | FAllFreqs | FController | FInputPower | FOutputPower | FFreqHists | FTemperatureHist.
(** Their keyword parameters: plot_utils.py:146, 192, 206, 227, 269, 283, 295, 309. *)
Definition takes (f : figure) : list str :=
  match f with
  | FTemperature => [$"width"; $"height"; $"ylim"; $"tz_id"]
  | FFreqHists | FTemperatureHist => []
  | _ => [$"width"; $"height"]
  end.

Section Summary.
  (** Values of keyword arguments and traces. *)
  Context {V R : Type} (of_int : Z -> V) (of_str : str -> V).
  Notation kwords := (list (str * V)).
  (** [trappy.FTrace(name=name, path=path, scope="thermal")]; the parameters found beside a trace (C67); what drawing the
      runs with some keywords does. *)
  Variables (ftrace : V -> V -> res R) (params : V -> list (str * param)) (draw : figure -> list R -> kwords -> res unit).

  (** What has been done so far: traces read, tables shown, functions run. *)
  Inductive step := Read (name path : V) | Table (rows : list (str * param)) | Draw (f : figure) (runs : list R) (kw : kwords).
  Definition log := list step.

  (** sysfs_extractor.py:80-96 [pretty_print_in_ipython] ([IPython] is there). *)
  Definition sort_params (ps : list (str * param)) : list (str * param) :=
    flat_map (fun k => match dget eqs k ps with Some v => [(k, v)] | None => [] end) (sort_u str_leb (map fst ps)).
  Definition table (ps : list (str * param)) : log :=
    match ps with [] => [] | _ => [Table (sort_params ps)] end.
  (** 73-76 *)
  Fixpoint load (runs : list (V * V)) : log * res (list R) :=
    match runs with
    | [] => ([], Ok [])
    | (name, path) :: rest =>
        match ftrace name path with
        | Err e => ([Read name path], Err e)
        | Ok r => let '(l, rs) := load rest in (Read name path :: table (params path) ++ l, do rs <- rs ;; Ok (r :: rs))
        end
    end.
  (** A call: an unexpected keyword is a TypeError before anything is done. *)
  Definition call (f : figure) (rs : list R) (kw : kwords) : log * res unit :=
    if forallb (fun k => existsb (eqs (fst k)) (takes f)) kw then ([Draw f rs kw], draw f rs kw) else ([], Err EType).
  Fixpoint calls (fs : list (figure * kwords)) (rs : list R) : log * res unit :=
    match fs with
    | [] => ([], Ok tt)
    | (f, kw) :: rest =>
        let '(l, r) := call f rs kw in
        match r with
        | Ok _ => let '(l', r') := calls rest rs in (l ++ l', r')
        | Err e => (l, Err (match f, e with FLoad, EIndex => EValue | _, _ => e end))       (* 82-85 *)
        end
    end.
  Definition default (k : str) (v : Z) (kw : kwords) : kwords := if dmem eqs k kw then kw else kw ++ [(k, of_int v)].
  (** 21-96 [compare_runs]; [actor_order] and [map_label] reach the functions that draw. *)
  Definition compare_runs (actor_order : arg (list str)) (map_label : arg (list (str * str))) (runs : list (V * V)) (kw : kwords)
      : log * res unit :=
    match actor_order, map_label with
    | Right _, Right _ =>
        let kw := default $"height" 5 (default $"width" 20 kw) in
        let '(l, rs) := load runs in
        match rs with
        | Err e => (l, Err e)
        | Ok rs =>
            let kw' := ddel eqs $"tz_id" kw in
            let '(l', r) := calls [(FTemperature, kw); (FLoad, kw'); (FAllFreqs, kw'); (FController, kw'); (FInputPower, kw');
                                   (FOutputPower, kw'); (FFreqHists, []); (FTemperatureHist, [])] rs in
            (l ++ l', r)
        end
    | _, _ => ([], Err EType)
    end.
  (** 98-109 [summary_plots] *)
  Definition or_str (k : str) (d : str) (kw : kwords) : V := match dget eqs k kw with Some v => v | None => of_str d end.
  Definition summary_plots (actor_order : arg (list str)) (map_label : arg (list (str * str))) (kw : kwords) : log * res unit :=
    let path := or_str $"path" $"." kw in let kw := ddel eqs $"path" kw in
    let title := or_str $"title" [] kw in let kw := ddel eqs $"title" kw in
    if dmem eqs $"runs" kw then ([], Err EType) else compare_runs actor_order map_label [(title, path)] kw.
End Summary.
