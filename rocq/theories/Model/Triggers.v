(** Model of triggers and aggregators over the frames of a trace (trappy/stats/Trigger.py, Indexer.py, Aggregator.py). *)
From Coq Require Import List Ascii String ZArith QArith Qcanon Bool.
From Verif Require Import Lib.PyStr Lib.F64 Model.Base Model.Populate Model.Tasks Model.Topology Model.Stats Model.Solve.
Import ListNotations.
Local Open Scope list_scope.

(** A data frame as Trigger.py reads it: its columns are those of all rows. *)
Definition eframe_of (f : frame) : eframe Qc :=
  EFrame (flat_map (fun r => map fst (snd r)) f) (map (fun r => (time (fst r), snd r)) f).
Section Triggers.
  Context {V : Type}.
  (** Trigger.py:75-81 with a number for a value; [r_event]: the [name] of the template. *)
  Record rtrigger := RTrig { r_event : str; r_filters : list (str * tfilter); r_value : V; r_pivot : str }.
  Context (frames : list (str * frame)).
  (** 90-91 [getattr(self.trace, self.template.name).data_frame], then [generate] (Model/Stats). *)
  Definition r_generate (g : rtrigger) (node : cell) : res (list (Qc * V)) :=
    match dget eqs (r_event g) frames with
    | None => Err EAttribute
    | Some f =>
        do r <- generate (Trig (eframe_of f) (r_filters g) (VNum (r_value g)) (r_pivot g)) node ;;
        match r with RSeries s => Ok s | RColumn _ => Err EType end
    end.
  (** Indexer.py:95-106 over the frames of the triggers *)
  Definition r_index (gs : list rtrigger) : res (list Qc) :=
    do l <- mapM (fun g => match dget eqs (r_event g) frames with Some f => Ok (map (fun r => time (fst r)) f) | None => Err EAttribute end) gs ;;
    Ok (unify time_leb l).
  (** Aggregator.py:160-177 of an aggregator just made *)
  Definition r_base (zero : V) (gs : list rtrigger) (nodes : list cell) : res (list (cell * list (Qc * V))) :=
    do idx <- r_index gs ;; aggregate_base time_leb cell_eqb idx zero (map r_generate gs) nodes [].
  (** 106-110 the constructor, then 112-158 [aggregate(level=name)] with an aggregation function, the first call *)
  Definition r_aggregate {R} (enum : list cell -> list cell) (zero : V) (gs : list rtrigger) (topo : topology (A := cell)) (f : list (Qc * V) -> R) (add : R -> R -> R)
      (name : str) : res (list R) :=
    do idx <- r_index gs ;;
    do groups <- get_level enum topo name ;;
    do st <- r_base zero gs (flatten enum topo) ;; fst (aggregate_fun cell_eqb f add groups st).
End Triggers.
Arguments rtrigger : clear implicits.
