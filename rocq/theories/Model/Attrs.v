(** Model of the attributes of plots: trappy/plotter/__init__.py:33-53, AttrConf.py, StaticPlot.py:119-174, LinePlot.py:118-175,
    BarPlot.py:74-86, ILinePlot.py:132-218 and ILinePlotGen.py:179-268. *)
From Coq Require Import List Ascii String ZArith QArith Bool.
From Verif Require Import Lib.PyStr.
Import ListNotations.
Local Open Scope list_scope.

(** Values of keywords; [VObj] is any other object, with its truth value. *)
Inductive val := VNone | VBool (b : bool) | VInt (z : Z) | VNum (q : Q) | VStr (s : str) | VObj (t : bool) (o : nat).
Definition truthy (v : val) : bool :=
  match v with
  | VNone => false
  | VBool b => b
  | VInt z => negb (z =? 0)%Z
  | VNum q => negb (Qeq_bool q 0)
  | VStr s => match s with [] => false | _ => true end
  | VObj t _ => t
  end.
Notation attrs := (list (str * val)).
Definition get (a : attrs) (k : str) : val := match dget eqs k a with Some v => v | None => VNone end.

(** ** AttrConf.py:105-112 and __init__.py:33-53: the keywords passed on to matplotlib, a list changed in place *)
Definition ARGS_TO_FORWARD : list str := [$"marker"; $"markersize"; $"markevery"; $"linestyle"; $"linewidth"; $"drawstyle"].
Inductive change := Register (a : str) | Unregister (a : str).
Fixpoint remove_first (a : str) (l : list str) : list str :=
  match l with [] => [] | x :: r => if eqs a x then r else x :: remove_first a r end.
Definition step (l : list str) (c : change) : list str :=
  match c with
  | Register a => if existsb (eqs a) l then l else l ++ [a]
  | Unregister a => remove_first a l
  end.
Definition forwards (h : list change) : list str := fold_left step h ARGS_TO_FORWARD.

(** ** Static plots *)
(** StaticPlot.py:157-174, without [args_to_forward]; an empty dictionary is [VObj false 0], an empty list [VObj false 1] *)
Definition static_defaults : attrs :=
  [($"width", VInt 7); ($"length", VInt 7); ($"per_line", VInt 2); ($"concat", VBool false); ($"filters", VObj false 0);
   ($"style", VBool true); ($"permute", VBool false); ($"pivot", VStr $"__TRAPPY_PIVOT_DEFAULT"); ($"xlim", VNone); ($"ylim", VNone);
   ($"title", VNone); ($"map_label", VObj false 0); ($"_legend_handles", VObj false 1); ($"_legend_labels", VObj false 1);
   ($"legend_ncol", VInt 3)].
(** LinePlot.py:127-131 and BarPlot.py:82-86 *)
Definition line_defaults : attrs := dset eqs $"fill" (VBool false) (dset eqs $"scatter" (VBool false) static_defaults).
Definition bar_defaults : attrs := dset eqs $"stacked" (VBool false) (dset eqs $"spacing" (VNum (2 # 10)) static_defaults).
(** StaticPlot.py:125-131: attributes and arguments to forward.  A keyword [args_to_forward], which would replace the
    dictionary, is not modelled. *)
Definition take (fwd : list str) (st : attrs * attrs) (kv : str * val) : attrs * attrs :=
  if existsb (eqs (fst kv)) fwd then (fst st, dset eqs (fst kv) (snd kv) (snd st)) else (dset eqs (fst kv) (snd kv) (fst st), snd st).
Definition static_init (fwd : list str) (defaults kw : attrs) : attrs * attrs := fold_left (take fwd) kw (defaults, []).
(** LinePlot.py:133-142 [_check_add_scatter] *)
Definition check_add_scatter (st : attrs * attrs) : attrs * attrs :=
  if truthy (get (fst st) $"scatter") then
    let args := dset eqs $"marker" (VStr $"o") (dset eqs $"linestyle" (VStr []) (snd st)) in
    (fst st, match dget eqs $"point_size" (fst st) with Some v => dset eqs $"markersize" v args | None => args end)
  else st.
Definition line_init (fwd : list str) (kw : attrs) : attrs * attrs := check_add_scatter (static_init fwd line_defaults kw).
Definition bar_init (fwd : list str) (kw : attrs) : attrs * attrs := static_init fwd bar_defaults kw.
(** LinePlot.py:144-175: drawing the lines of one axis; how many were drawn and how it ended.  [color=..., **args] is a TypeError
    if [args] has a colour; filling under steps is a UserWarning, raised. *)
Inductive outcome := Done | Twice | Steps.
Definition stepped (args : attrs) : bool := match get args $"drawstyle" with VStr s => is_prefix $"steps" s | _ => false end.
Fixpoint plot_axis (attr args : attrs) (lines : nat) : nat * outcome :=
  match lines with
  | O => (O, Done)
  | S n =>
      if dmem eqs $"color" args then (O, Twice)
      else if truthy (get attr $"fill") && stepped args then (1%nat, Steps)
      else let '(k, o) := plot_axis attr args n in (S k, o)
  end.

(** ** Interactive plots *)
(** ILinePlot.py:205-218 *)
Definition iline_defaults : attrs :=
  [($"per_line", VInt 2); ($"concat", VBool false); ($"filters", VObj false 0); ($"pivot", VStr $"__TRAPPY_PIVOT_DEFAULT");
   ($"permute", VBool false); ($"drawstyle", VNone); ($"step_plot", VBool false); ($"fill", VBool false); ($"scatter", VBool false);
   ($"point_size", VInt 2); ($"map_label", VObj false 0); ($"title", VNone)].
(** [drawstyle and drawstyle.startswith("steps")] *)
Definition draws_steps (v : val) : res bool :=
  if truthy v then match v with VStr s => Ok (is_prefix $"steps" s) | _ => Err EAttribute end else Ok false.
(** ILinePlot.py:132-155 *)
Definition iline_init (kw : attrs) : res attrs :=
  let attr := fold_left (fun a kv => dset eqs (fst kv) (snd kv) a) kw iline_defaults in
  do s <- draws_steps (get attr $"drawstyle") ;;
  Ok (if s then dset eqs $"step_plot" (VBool true) attr else attr).
(** ILinePlotGen.py:179-201, for whole numbers [per_line] *)
Definition gen_init (num : Z) (attr : attrs) : res attrs :=
  if (num =? 0)%Z then Err ERuntime
  else match get attr $"per_line" with
       | VInt p => let p := if (num <? p)%Z then num else p in
                   if (p =? 0)%Z then Err EZeroDiv
                   else Ok (ddel eqs $"colors" (dset eqs $"height" (VInt 400) (dset eqs $"per_line" (VInt p) attr)))
       | _ => Err EType
       end.
(** ILinePlotGen.py:203-263: what the page is told about one figure, but for its data and name; [own] is [str(hash(self))] *)
Definition fig_params (attr : attrs) (title own : str) : attrs :=
  let ps := [($"rangesel", VBool false); ($"logscale", VBool false); ($"title", VStr title);
             ($"step_plot", get attr $"step_plot"); ($"fill_graph", get attr $"fill")] in
  let ps := match dget eqs $"fill_alpha" attr with
            | Some v => dset eqs $"fill_graph" (VBool true) (dset eqs $"fill_alpha" v ps)
            | None => ps
            end in
  let ps := dset eqs $"height" (get attr $"height") (dset eqs $"per_line" (get attr $"per_line") ps) in
  let scatter := truthy (get attr $"scatter") in
  let ps := dset eqs $"strokeWidth" (if scatter then VNum 0 else VNum 1) (dset eqs $"drawPoints" (VBool scatter) ps) in
  let ps := dset eqs $"pointSize" (get attr $"point_size") ps in
  let ps := dset eqs $"syncGroup" (match dget eqs $"group" attr with Some v => v | None => VStr own end) ps in
  let ps := dset eqs $"syncZoom" (match dget eqs $"sync_zoom" attr with Some v => v | None => VBool false end) ps in
  let ps := match dget eqs $"ylim" attr with Some v => dset eqs $"valueRange" v ps | None => ps end in
  match dget eqs $"xlim" attr with Some v => dset eqs $"dateWindow" v ps | None => ps end.
(** All of it: the parameters of a figure of [num] with the keywords [kw]. *)
Definition iline (kw : attrs) (num : Z) (title own : str) : res attrs :=
  do a <- iline_init kw ;; do g <- gen_init num a ;; Ok (fig_params g title own).
