(** Properties C16-C19: windows, normalisation, duration. *)
From Coq Require Import List Ascii String Arith ZArith Bool Sorted Permutation Reals.
From Flocq Require Import BinarySingleNaN.
From Verif Require Import Lib.PyStr Lib.F64 Lib.F64Facts Lib.F64Ord Model.Base Model.Line Model.Registry Model.Populate
  Model.Window Spec.Trace Spec.Interval Proofs.WindowP Proofs.TraceWinP.
Import ListNotations.
Local Open Scope nat_scope.

(** ** C16 *)
(** The rows left in a frame are, in time order, exactly those inside the closed
    window; a missing or zero end is no limit.  [num]: not NaN, [nn]: not negative. *)
Theorem C16_rows : forall (R : Type) (w : window) (f : list (F64.float * R)),
  num (fst w) = true -> match snd w with Some e => num e = true | None => True end ->
  Forall (fun r => nn (fst r) = true) f ->
  exists f', Permutation f' f /\ time_sorted f' /\ (time_sorted f -> f' = f) /\
    windowify w f = filter (fun r => inside (fst w) (upper (snd w)) (fst r)) f'.
Proof. exact window_rows. Qed.
(** On the frames of a parsed trace: no row is moved, changed or duplicated. *)
Theorem C16_trace : forall ws base body st, populate ws base body = Ok st -> forall attr w,
  Forall (fun e => ev_time e <> finf) (arr attr st) ->
  num (fst w) = true -> match snd w with Some e => num e = true | None => True end ->
  windowify w (map (fun e => (ev_time e, e)) (arr attr st)) =
  map (fun e => (ev_time e, e)) (filter (fun e => inside (fst w) (upper (snd w)) (ev_time e)) (arr attr st)).
Proof. exact trace_window. Qed.

Definition secs (n : N) : F64.float := f_of_N n.
Definition ex_frame : list (F64.float * nat) := [(secs 1, 10); (secs 2, 20); (secs 3, 30); (secs 4, 40)].
Example C16_ex :
  map snd (windowify (secs 2, Some (secs 3)) ex_frame) = [20; 30] /\
  map snd (windowify (secs 2, None) ex_frame) = [20; 30; 40] /\
  map snd (windowify (secs 2, Some fzero) ex_frame) = [20; 30; 40] /\
  map snd (windowify (secs 5, Some (secs 3)) ex_frame) = [] /\
  map snd (windowify (fzero, None) (rev ex_frame)) = [10; 20; 30; 40].
Proof. vm_compute. auto 10. Qed.
Example C16_ex_hyp : num (secs 2) = true /\ Forall (fun r : F64.float * nat => nn (fst r) = true) ex_frame.
Proof. split; [reflexivity|]. repeat constructor. Qed.

(** ** C17 *)
(** Times inside both windows are always kept. *)
Theorem C17_superset : forall win abs base t,
  num (fadd (fst win) base) = true -> num (fst abs) = true -> num t = true ->
  match moved (snd win) base with Some e => num e = true | None => True end ->
  match snd abs with Some e => num e = true | None => True end ->
  let w := calc_max_window win abs base in
  in_both win abs base t = true -> inside (fst w) (upper (snd w)) t = true.
Proof. exact in_both_kept. Qed.
(** Unless both ends are given (or the end is zero), nothing else is. *)
Theorem C17_exact : forall win abs base t,
  num (fadd (fst win) base) = true -> num (fst abs) = true -> num t = true ->
  match moved (snd win) base with Some e => num e = true | None => True end ->
  match snd abs with Some e => num e = true | None => True end ->
  let w := calc_max_window win abs base in
  (snd win = None \/ snd abs = None) -> match snd w with Some e => ftruthy e = true | None => True end ->
  inside (fst w) (upper (snd w)) t = in_both win abs base t.
Proof. exact in_both_exact. Qed.
(** Exactly: a time passes when it is after both starts and before one of the ends. *)
Theorem C17_kept : forall win abs base t,
  num (fadd (fst win) base) = true -> num (fst abs) = true -> num t = true ->
  match moved (snd win) base with Some e => num e = true | None => True end ->
  match snd abs with Some e => num e = true | None => True end ->
  let w := calc_max_window win abs base in
  num (fst w) = true /\ match snd w with Some e => num e = true | None => True end /\
  inside (fst w) (snd w) t =
    (fle (fadd (fst win) base) t && fle (fst abs) t) &&
    match snd win, snd abs with
    | Some e, Some a => fle t (fadd e base) || fle t a
    | Some e, None => fle t (fadd e base)
    | None, Some a => fle t a
    | None, None => true
    end.
Proof. exact max_window_spec. Qed.
(** With both ends given a time outside one of the windows can be kept. *)
Theorem C17_intersection_refuted : exists win abs base t,
  snd win <> None /\ snd abs <> None /\ num t = true /\
  (let w := calc_max_window win abs base in
   inside (fst w) (upper (snd w)) t = true /\ in_both win abs base t = false).
Proof.
  exists (fzero, Some (secs 1)), (fzero, Some (secs 20)), (secs 10), (secs 15).
  split; [discriminate|]. split; [discriminate|]. split; [reflexivity|]. vm_compute. auto.
Qed.
(** An end of zero is taken for no end. *)
Theorem C17_zero_end_refuted : exists win abs base t,
  snd win = None /\ num t = true /\
  (let w := calc_max_window win abs base in
   inside (fst w) (upper (snd w)) t = true /\ in_both win abs base t = false).
Proof. exists (fzero, None), (fzero, Some fzero), (secs 10), (secs 15). repeat split; reflexivity. Qed.
Example C17_ex : in_both (secs 1, Some (secs 3)) (fzero, None) (secs 10) (secs 12) = true /\
  in_both (secs 1, Some (secs 3)) (fzero, None) (secs 10) (secs 14) = false /\
  feq (fst (calc_max_window (secs 1, Some (secs 3)) (fzero, None) (secs 10))) (secs 11) = true.
Proof. vm_compute. auto. Qed.

(** ** C18 *)
(** One offset for all rows of all events; nothing else changes. *)
Theorem C18_offset : forall (R : Type) (base : F64.float) (w : window) (fs : list (list (F64.float * R))),
  apply_user true base w fs =
  map (map (fun r => (if ftruthy base then fsub (fst r) base else fst r, snd r))) (apply_user false base w fs).
Proof. exact apply_user_norm. Qed.
(** Later events never get an earlier time, and no time is negative. *)
Theorem C18_order : forall ws base body st, populate ws base body = Ok st -> forall a1 a2 e1 e2,
  ftruthy base = false -> In e1 (arr a1 st) -> In e2 (arr a2 st) -> (ev_line e1 < ev_line e2)%Z ->
  ev_time e1 <> finf -> ev_time e2 <> finf ->
  fle (fsub (ev_time e1) (p_base st)) (fsub (ev_time e2) (p_base st)) = true /\
  fle fzero (fsub (ev_time e1) (p_base st)) = true.
Proof. exact trace_norm_order. Qed.
(** Up to twice the base the subtraction is exact, so different times stay different. *)
Theorem C18_exact : forall base a b, is_finite base = true -> is_finite a = true -> is_finite b = true ->
  nn base = true -> fle base a = true -> flt a b = true -> fle b (fadd base base) = true ->
  flt (fsub a base) (fsub b base) = true /\
  (B2R (fsub a base) = B2R a - B2R base)%R /\ (B2R (fsub b base) = B2R b - B2R base)%R.
Proof. exact norm_exact. Qed.
(** Beyond that bound two events can end up at the same time. *)
Theorem C18_distinct_refuted : exists ws body st, populate ws fzero body = Ok st /\
  exists attr e1 e2 rest, arr attr st = rest ++ [e1; e2] /\ flt (ev_time e1) (ev_time e2) = true /\
    feq (fsub (ev_time e1) (p_base st)) (fsub (ev_time e2) (p_base st)) = true.
Proof. exact norm_collapse. Qed.
Example C18_ex_hyp : is_finite (secs 10) = true /\ nn (secs 10) = true /\ fle (secs 10) (secs 12) = true /\
  flt (secs 12) (secs 20) = true /\ fle (secs 20) (fadd (secs 10) (secs 10)) = true.
Proof. vm_compute. auto 10. Qed.
Example C18_ex : match apply_user true (secs 10) (fzero, None) [[(secs 10, 1); (secs 15, 2)]; []; [(secs 12, 3)]] with
  | [[(a, 1); (b, 2)]; []; [(c, 3)]] => feq a fzero = true /\ feq b (secs 5) = true /\ feq c (secs 2) = true
  | _ => False end.
Proof. vm_compute. auto. Qed.

(** ** C19 *)
Theorem C19_span : forall (R : Type) (fs : list (list (F64.float * R))),
  Forall (fun f => Forall (fun r => num (fst r) = true) f) fs -> Forall time_sorted fs -> List.concat fs <> [] ->
  exists lo hi, In lo (List.concat fs) /\ In hi (List.concat fs) /\
    (forall r, In r (List.concat fs) -> fle (fst lo) (fst r) = true /\ fle (fst r) (fst hi) = true) /\
    get_duration fs = fsub (fst hi) (fst lo).
Proof. exact (@duration_spec). Qed.
Theorem C19_empty : forall (R : Type) (fs : list (list (F64.float * R))), List.concat fs = [] -> get_duration fs = fzero.
Proof. exact (@duration_empty). Qed.
Theorem C19_bounds : forall (R : Type) (fs : list (list (F64.float * R))),
  Forall (fun f => Forall (fun r => nn (fst r) = true /\ is_finite (fst r) = true) f) fs -> Forall time_sorted fs ->
  fle fzero (get_duration fs) = true /\
  (forall f a b, In f fs -> In a f -> In b f -> fle (fst a) (fst b) = true ->
     fle (fsub (fst b) (fst a)) (get_duration fs) = true).
Proof. exact (@duration_bounds). Qed.
Example C19_ex : feq (get_duration [[(secs 3, 1); (secs 5, 2)]; []; [(secs 2, 3); (secs 4, 4)]]) (secs 3) = true.
Proof. vm_compute. reflexivity. Qed.
Example C19_ex_hyp : Forall time_sorted [[(secs 3, 1); (secs 5, 2)]; []; [(secs 2, 3); (secs 4, 4)]].
Proof. repeat constructor. Qed.

Print Assumptions C16_rows.
Print Assumptions C16_trace.
Print Assumptions C17_superset.
Print Assumptions C17_exact.
Print Assumptions C17_kept.
Print Assumptions C17_intersection_refuted.
Print Assumptions C17_zero_end_refuted.
Print Assumptions C18_offset.
Print Assumptions C18_order.
Print Assumptions C18_exact.
Print Assumptions C18_distinct_refuted.
Print Assumptions C19_span.
Print Assumptions C19_empty.
Print Assumptions C19_bounds.
