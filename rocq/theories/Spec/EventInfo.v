(** What an EventPlot has to tell and how its rows and colours lie. *)
From Coq Require Import List Ascii String ZArith QArith Bool.
From Verif Require Import Lib.PyStr Model.EventPlot Model.EventBars Model.EventInfo.
Import ListNotations.
Local Open Scope list_scope.

(** An event [d] of the name [n] is at the time [x0] on the lane [y0]. *)
Definition Under (items : list (str * list (lane * list iv))) (x0 : Q) (y0 : Z) (n : str) (d : iv) : Prop :=
  exists m ds, In (n, m) items /\ In (LZ y0, ds) m /\ In d ds /\ (fst d <= x0 <= snd d)%Q.
(** No events of a name are on the lane 0. *)
Definition NoLane0 (m : list (lane * list iv)) : Prop := forall l ds, In (l, ds) m -> l <> LZ 0 /\ l <> LS $"0".

(** The user gave a colour to each of these names. *)
Definition AllGiven (names : list str) (m : list (str * str)) : Prop := forall n, In n names -> exists c, dget eqs n m = Some c.

(** The rows a stroke covers. *)
Definition Covers (pos w p : Q) : Prop := (pos - w / 2 <= p <= pos + w / 2)%Q.
