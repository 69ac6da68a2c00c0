(** What a plot of a trace has to show. *)
From Coq Require Import List Ascii String ZArith QArith Bool Sorted.
From Verif Require Import Lib.PyStr Model.Base Model.Residency Model.EventPlot Model.EventBars Model.PlotTrace Spec.Residency Spec.EventBars.
Import ListNotations.
Local Open Scope list_scope.

(** Whom the caller chose; nobody in particular: all. *)
Definition Chosen {A} (null : A) (s : sel A) (l : list A) : Prop :=
  match s with
  | SelNone => l = []
  | SelOne a => a = null /\ l = [] \/ a <> null /\ l = [a]
  | SelMany l' => l = l'
  end.
Definition InTime (rows : list (switch Q)) : Prop := StronglySorted Qle (map s_time rows).
(** Every time a chosen task ran for a hundredth of a pixel inside the window there is its bar, on the row of the cpu. *)
Definition AllRuns (execnames : list str) (pids : list Z) (rows : list (switch Q)) (x y : scale) (ps : list (str * list stroke)) : Prop :=
  forall n i s e cpu, Resides execnames pids rows n i (s, e, cpu) -> ~ NoBar x (s, e) ->
    exists p from to, In (n, p) ps /\ In (Stroke (y_pos y (LZ cpu)) from to) p /\ Bar x (s, e) from to.
(** Whatever is drawn shows a time at which the task ran. *)
Definition OnlyRuns (execnames : list str) (pids : list Z) (rows : list (switch Q)) (x y : scale) (ps : list (str * list stroke)) : Prop :=
  forall n p st, In (n, p) ps -> In st p ->
    exists i s e cpu, Resides execnames pids rows n i (s, e, cpu) /\ s_y st = y_pos y (LZ cpu) /\
      (Bar x (s, e) (s_from st) (s_to st) \/ (s_from st == fst (part x (s, e)) /\ s_to st == snd (part x (s, e)))%Q).
