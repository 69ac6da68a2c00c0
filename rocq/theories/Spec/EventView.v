(** What the view of an EventPlot has to show. *)
From Coq Require Import List ZArith QArith Bool.
From Verif Require Import Lib.PyStr Model.EventBars Model.EventView.
Import ListNotations.
Local Open Scope list_scope.

Definition same (a b : Q * Q) : Prop := (fst a == fst b /\ snd a == snd b)%Q.
(** A chart that is wide enough and whose width is the one [width] holds. *)
Definition Good (c : chart) : Prop := (c_lo c < c_hi c /\ 0 < c_w0 c /\ c_wg c == c_w0 c)%Q.
(** Actions that keep the width: gestures enlarge, the brush covers a part of the domain, not too small a one if
    the factor is limited. *)
Definition Fits (c : chart) (a : act) : Prop :=
  match a with
  | Zoom _ k => (1 <= k)%Q
  | Brush e0 e1 => c_summary c = true /\ (c_lo c <= e0 /\ e0 < e1 /\ e1 <= c_hi c)%Q /\
                   (c_clamps c = true -> (c_hi c - c_lo c <= 4096 * (e1 - e0))%Q)
  | Click _ _ => True
  | Resize w => (w == c_w0 c)%Q
  end.
(** The view lies inside the domain of the data, and the axis and the brush agree with it. *)
Definition Consistent (c : chart) (v : view) : Prop :=
  (c_lo c <= fst (v_dom v) /\ fst (v_dom v) < snd (v_dom v) /\ snd (v_dom v) <= c_hi c)%Q /\
  same (v_axis v) (v_dom v) /\ (c_summary c = true -> same (v_ext v) (v_dom v)).
(** A gesture moves what was drawn at pixel [p] of the whole chart to [k * p + t]: the window it asks for. *)
Definition Asked (c : chart) (t k a b : Q) : Prop :=
  let x0 := Scale (c_lo c) (c_hi c) 0 (c_w0 c) in
  (k * sc x0 a + t == 0 /\ k * sc x0 b + t == c_w0 c)%Q.
(** The window of the same length inside the domain that is nearest to it. *)
Inductive Nearest (c : chart) (a b : Q) : Q * Q -> Prop :=
| Near_left w : (a < c_lo c)%Q -> same w (c_lo c, c_lo c + (b - a))%Q -> Nearest c a b w
| Near_right w : (c_lo c <= a)%Q -> (c_hi c < b)%Q -> same w (c_hi c - (b - a), c_hi c)%Q -> Nearest c a b w
| Near_in w : (c_lo c <= a)%Q -> (b <= c_hi c)%Q -> same w (a, b) -> Nearest c a b w.

Definition guide_of (ctrl : bool) (v : view) : option guide := if ctrl then v_b v else v_a v.
Definition is_click (ctrl : bool) (a : act) : Prop := exists px, a = Click ctrl px.
(** Where a guide is drawn: only inside the view. *)
Definition DrawnAt (v : view) (g : guide) : Prop :=
  (fst (v_dom v) <= g_pos g <= snd (v_dom v))%Q /\ g_at g = Some (sc (zoom_scale v) (g_pos g)) \/
  ~ (fst (v_dom v) <= g_pos g <= snd (v_dom v))%Q /\ g_at g = None.
(** Actions that leave the view where it is. *)
Definition clicks (a : act) : Prop := exists ctrl px, a = Click ctrl px.
