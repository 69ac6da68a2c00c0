(** When a printed event fires a trigger. *)
From Coq Require Import List Ascii String ZArith QArith Qcanon Bool Sorted.
From Verif Require Import Lib.PyStr Lib.F64 Model.Base Model.Registry Model.Classes Model.Stats Model.Solve Model.Triggers Spec.Lines Spec.Interval Spec.Parts Spec.Classes Spec.Solve.
Import ListNotations.
Local Open Scope list_scope.

Section Fires.
  Context (c : Spec.Classes.columns) (L : str -> nat) (ms : list mark).
  (** A filter lets the event through; [ms] are the events of its class. *)
  Definition Lets (m : mark) (kf : str * tfilter) : Prop :=
    match snd kf with
    | FFun p => (exists v, CellIn c L m (fst kf) v /\ p v = true) \/ ((forall v, ~ CellIn c L m (fst kf) v) /\ p CNone = true)
    | FVal v => Has c L ms (fst kf) -> CellIn c L m (fst kf) v
    | FVals vs => Has c L ms (fst kf) -> forall v, In v vs -> CellIn c L m (fst kf) v
    end.
  Definition Fires {V} (g : rtrigger V) (node : cell) (m : mark) : Prop :=
    CellIn c L m (r_pivot g) node /\ forall kf, In kf (r_filters g) -> Lets m kf.
  (** The pivot, and the columns that functions look at, are printed with some event. *)
  Definition Usable {V} (g : rtrigger V) : Prop :=
    Has c L ms (r_pivot g) /\ forall k p, In (k, FFun p) (r_filters g) -> Has c L ms k.
End Fires.

Section Shown.
  Context {V : Type} (defs : list (str * klass)) (shift : F64.float -> F64.float) (marks : str -> list mark) (len : str -> str -> nat).
  (** The event fires the trigger. *)
  Definition Shot (g : rtrigger V) (node : cell) (m : mark) : Prop :=
    exists k, In (r_event g, k) defs /\ Fires (snd (kind_of k)) (len (r_event g)) (marks (r_event g)) g node m.
  (** At each time the value is that of the last trigger which an event of this time fires, and [zero] if there is none. *)
  Definition Shown (zero : V) (gs : list (rtrigger V)) (n : cell) (idx : list Qc) (s : list (Qc * V)) : Prop :=
    map fst s = idx /\
    forall t v, In (t, v) s ->
      (exists pre g post m, gs = pre ++ g :: post /\ v = r_value g /\ In m (marks (r_event g)) /\ Shot g n m /\ time (shift (m_time m)) = t /\
         forall g' m', In g' post -> In m' (marks (r_event g')) -> Shot g' n m' -> time (shift (m_time m')) <> t) \/
      (v = zero /\ forall g m, In g gs -> In m (marks (r_event g)) -> Shot g n m -> time (shift (m_time m)) <> t).
  (** [idx]: the times of the events of the classes of the triggers, each once and in order *)
  Definition Times (gs : list (rtrigger V)) (idx : list Qc) : Prop :=
    StronglySorted (fun x y => (x < y)%Qc) idx /\ forall t, In t idx <-> exists g m, In g gs /\ In m (marks (r_event g)) /\ time (shift (m_time m)) = t.
End Shown.
