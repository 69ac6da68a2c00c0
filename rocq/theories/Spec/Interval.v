(** Closed time intervals and the documented meaning of the windows. *)
From Coq Require Import List Bool Sorted.
From Verif Require Import Lib.F64.
Import ListNotations.

(** Times from [s] to [e], both included; no end means no upper limit. *)
Definition inside (s : float) (e : option float) (t : float) : bool :=
  fle s t && match e with Some e => fle t e | None => true end.
(** A window whose end is zero has no end. *)
Definition upper (e : option float) : option float :=
  match e with Some e => if ftruthy e then Some e else None | None => None end.
(** The end of a window moved by the base time. *)
Definition moved (e : option float) (base : float) : option float :=
  match e with Some e => Some (fadd e base) | None => None end.
(** The documented selection: inside [window] (relative) and inside [abs_window]. *)
Definition in_both (win abs : float * option float) (base t : float) : bool :=
  inside (fadd (fst win) base) (moved (snd win) base) t && inside (fst abs) (snd abs) t.
(** Rows in time order. *)
Definition time_sorted {R} (f : list (float * R)) : Prop :=
  StronglySorted (fun a b => fle (fst a) (fst b) = true) f.
