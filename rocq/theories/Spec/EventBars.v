(** What an EventPlot has to draw. *)
From Coq Require Import List Ascii String ZArith QArith Qminmax Bool.
From Verif Require Import Lib.PyStr Model.EventPlot Model.EventBars Spec.EventPlot.
Import ListNotations.
Local Open Scope list_scope.

(** Intervals of one lane: each begins before it ends, and none begins before the one before it has ended. *)
Fixpoint Disjoint (l : list (Q * Q)) : Prop :=
  match l with
  | [] => True
  | d :: r => (fst d <= snd d)%Q /\ match r with [] => True | e :: _ => (snd d <= fst e)%Q end /\ Disjoint r
  end.
(** A scale that shows a window from left to right. *)
Definition Rising (x : scale) : Prop := (d0 x <= d1 x /\ r0 x <= r1 x)%Q.

(** The part of an interval inside the window of [x], in pixels. *)
Definition part (x : scale) (d : Q * Q) : Q * Q := (sc x (Qmax (fst d) (d0 x)), sc x (Qmin (snd d) (d1 x))).
(** Parts shorter than a hundredth of a pixel do not show, others are at least a pixel long. *)
Definition Bar (x : scale) (d : Q * Q) (from to : Q) : Prop :=
  let p := part x d in
  ((1 # 100) <= snd p - fst p)%Q /\ (from == fst p)%Q /\ (to == Qmax (snd p) (fst p + 1))%Q.
Definition NoBar (x : scale) (d : Q * Q) : Prop := (snd (part x d) - fst (part x d) < 1 # 100)%Q.
(** Strokes for a list of intervals, one for each that shows. *)
Inductive Bars (x : scale) (pos : option Q) : list (Q * Q) -> list stroke -> Prop :=
| Bars_nil : Bars x pos [] []
| Bars_no d ds ss : NoBar x d -> Bars x pos ds ss -> Bars x pos (d :: ds) ss
| Bars_yes d ds ss from to : Bar x d from to -> Bars x pos ds ss -> Bars x pos (d :: ds) (Stroke pos from to :: ss).
(** The last interval of a lane is drawn once more, however short and without widening it, when all before it
    have ended before the window and some of it is inside. *)
Definition Alone (x : scale) (r : list (Q * Q)) (d : Q * Q) : Prop :=
  Forall (fun e => snd e <= d0 x)%Q r /\ (Qmax (fst d) (d0 x) < Qmin (snd d) (d1 x))%Q.
Definition Again (x : scale) (pos : option Q) (ds : list (Q * Q)) (ss : list stroke) : Prop :=
  exists r d, ds = r ++ [d] /\
    (Alone x r d /\ (exists from to, ss = [Stroke pos from to] /\ (from == fst (part x d))%Q /\ (to == snd (part x d))%Q) \/
     ~ Alone x r d /\ ss = []).
(** The lane on which events that name the lane [l] are drawn. *)
Definition LaneId (input : list lane) (l id : lane) : Prop :=
  match input with [] => id = l | _ => exists i, LastAt input l i /\ id = LZ (Z.of_nat i) end.
(** The intervals of each name on each lane follow each other. *)
Definition Ordered (d : data) : Prop := forall n evs l, In (n, evs) d -> Disjoint (intervals (is_lane l) evs).
Definition span (e : event) : Q * Q := (e_start e, e_end e).
(** Every event of which a hundredth of a pixel is in the window has its bar, in the path of its name and on its lane. *)
Definition AllShown (d : data) (input : list lane) (x y : scale) (ps : list (str * list stroke)) : Prop :=
  forall n evs e id, In (n, evs) d -> In e evs -> LaneId input (e_lane e) id -> ~ NoBar x (span e) ->
    exists p from to, In (n, p) ps /\ In (Stroke (y_pos y id) from to) p /\ Bar x (span e) from to.
(** Whatever is drawn is the bar of such an event, or what the window shows of one. *)
Definition OnlyShown (d : data) (input : list lane) (x y : scale) (ps : list (str * list stroke)) : Prop :=
  forall n p, In (n, p) ps -> p <> [] /\ forall s, In s p ->
    exists evs e id, In (n, evs) d /\ In e evs /\ LaneId input (e_lane e) id /\ s_y s = y_pos y id /\
      (Bar x (span e) (s_from s) (s_to s) \/
       (s_from s == fst (part x (span e)) /\ s_to s == snd (part x (span e)) /\
        Qmax (e_start e) (d0 x) < Qmin (e_end e) (d1 x))%Q).
