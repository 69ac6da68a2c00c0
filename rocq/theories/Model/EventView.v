(** Model of the view of an EventPlot: zooming, the brush of the summary and
    the two guides, trappy/plotter/js/EventPlot.js:89-451, 649-690.  Numbers are
    rationals.  [d3.behavior.zoom] of d3 3.5.6 is taken to be: a translation
    and a factor, from which the domain of the zoomed scale is computed with
    the scale it was given.  The drawing itself is in EventBars. *)
From Coq Require Import List ZArith QArith Bool.
From Verif Require Import Lib.PyStr Model.EventBars.
Import ListNotations.
Local Open Scope list_scope.

Definition invert (s : scale) (p : Q) : Q := (d0 s + (p - r0 s) / (r1 s - r0 s) * (d1 s - d0 s))%Q.

(** What does not change: the domain of the data; the width when the plot was
    made, kept by the zoom behaviour; the variable [width] of 103, which is
    global; whether there is a summary; whether [zoom.scale] respects [scaleExtent]. *)
Record chart := Chart { c_lo : Q; c_hi : Q; c_w0 : Q; c_wg : Q; c_summary : bool; c_clamps : bool }.
(** A guide: its time and the pixel at which its line is drawn, if it is. *)
Record guide := Guide { g_pos : Q; g_at : option Q }.
Record view := View {
  v_w : Q;              (* the present width *)
  v_t : Q; v_k : Q;     (* zoom.translate()[0], zoom.scale() *)
  v_dom : Q * Q;        (* zoomScale.domain() *)
  v_axis : Q * Q;       (* brushScale.domain() *)
  v_ext : Q * Q;        (* brush.extent() *)
  v_a : option guide; v_b : option guide;
  v_delta : option Q    (* the number after DELTA_PREFIX *)
}.

Definition x_scale (c : chart) (v : view) : scale := Scale (c_lo c) (c_hi c) 0 (v_w v).
Definition zoom_scale (v : view) : scale := Scale (fst (v_dom v)) (snd (v_dom v)) 0 (v_w v).

(** d3: [x1.domain(x0.range().map(x => (x - view.x) / view.k).map(x0.invert))] *)
Definition rescale (c : chart) (t k : Q) : Q * Q :=
  let x0 := Scale (c_lo c) (c_hi c) 0 (c_w0 c) in
  (invert x0 ((0 - t) / k), invert x0 ((c_w0 c - t) / k))%Q.
(** [zoom.translate([t, _])] *)
Definition translate (c : chart) (t : Q) (v : view) : view :=
  View (v_w v) t (v_k v) (rescale c t (v_k v)) (v_axis v) (v_ext v) (v_a v) (v_b v) (v_delta v).
(** [zoom.scale(k)], 418 [scaleExtent([1, 4096])] *)
Definition set_scale (c : chart) (k : Q) (v : view) : view :=
  let k := if c_clamps c then js_max 1 (js_min 4096 k) else k in
  View (v_w v) (v_t v) k (rescale c (v_t v) k) (v_axis v) (v_ext v) (v_a v) (v_b v) (v_delta v).

(** 649-656, 658-682 [updateInfo] *)
Definition update (v : view) (g : guide) : guide :=
  if Qle_bool (fst (v_dom v)) (g_pos g) && Qle_bool (g_pos g) (snd (v_dom v))
  then Guide (g_pos g) (Some (sc (zoom_scale v) (g_pos g))) else Guide (g_pos g) None.
Definition update_info (v : view) : view :=
  View (v_w v) (v_t v) (v_k v) (v_dom v) (v_axis v) (v_ext v) (option_map (update v) (v_a v)) (option_map (update v) (v_b v)) (v_delta v).

(** 251-294 [zoomed] *)
Definition zoomed (c : chart) (v : view) : view :=
  let v :=
    if qlt (fst (v_dom v)) (c_lo c) then translate c (v_t v - sc (zoom_scale v) (c_lo c) + 0)%Q v
    else if qlt (c_hi c) (snd (v_dom v)) then translate c (v_t v - sc (zoom_scale v) (c_hi c) + v_w v)%Q v
    else v in
  let ext := if c_summary c then v_dom v else v_ext v in
  update_info (View (v_w v) (v_t v) (v_k v) (v_dom v) (v_dom v) ext (v_a v) (v_b v) (v_delta v)).

(** 354-395 [_brushed_event] *)
Definition brushed (c : chart) (ext : Q * Q) (v : view) : view :=
  let x := x_scale c v in
  let scale := (c_wg c / sc x (c_lo c + snd ext - fst ext))%Q in
  let v := set_scale c scale v in
  let v := translate c (0 - sc x (fst ext) * scale)%Q v in
  update_info (View (v_w v) (v_t v) (v_k v) (v_dom v) ext ext (v_a v) (v_b v) (v_delta v)).

(** 312-347 [contextMenuHandler], [px] pixels from the left of the chart; the
    combination with Alt is in EventInfo. *)
Definition click (ctrl : bool) (px : Q) (v : view) : view :=
  let g := Some (Guide (invert (zoom_scale v) px) (Some px)) in
  let a := if ctrl then v_a v else g in
  let b := if ctrl then g else v_b v in
  let delta := match a, b with Some a, Some b => Some (g_pos b - g_pos a)%Q | _, _ => v_delta v end in
  View (v_w v) (v_t v) (v_k v) (v_dom v) (v_axis v) (v_ext v) a b delta.

(** 425-441 [resize]: without a summary [resize_mini] fails before [zoomed] is called. *)
Definition resize (c : chart) (w : Q) (v : view) : view :=
  let v := View w (v_t v) (v_k v) (v_dom v) (v_axis v) (v_ext v) (v_a v) (v_b v) (v_delta v) in
  if c_summary c then zoomed c v else v.

(** What the user can do.  A gesture sets the translation and the factor; the
    brush is there only with a summary. *)
Inductive act := Zoom (t k : Q) | Brush (e0 e1 : Q) | Click (ctrl : bool) (px : Q) | Resize (w : Q).
Definition step (c : chart) (v : view) (a : act) : view :=
  match a with
  | Zoom t k => zoomed c (View (v_w v) t k (rescale c t k) (v_axis v) (v_ext v) (v_a v) (v_b v) (v_delta v))
  | Brush e0 e1 => brushed c (e0, e1) v
  | Click ctrl px => click ctrl px v
  | Resize w => resize c w v
  end.
(** 103-141, 397-420: the view at first *)
Definition start (c : chart) : view :=
  View (c_w0 c) 0 1 (c_lo c, c_hi c) (c_lo c, c_hi c) (c_lo c, c_hi c) None None None.
Definition run (c : chart) (acts : list act) : view := fold_left (step c) acts (start c).
