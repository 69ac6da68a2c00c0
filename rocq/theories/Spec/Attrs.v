(** What the keywords of a plot should do. *)
From Coq Require Import List Ascii String ZArith QArith Bool.
From Verif Require Import Lib.PyStr Model.Attrs.
Import ListNotations.
Local Open Scope list_scope.

Definition about (a : str) (c : change) : Prop := match c with Register b | Unregister b => a = b end.
(** The last word about [a] was that it be forwarded; matplotlib's six are from the beginning. *)
Definition Forwarded (h : list change) (a : str) : Prop :=
  (exists pre post, h = pre ++ Register a :: post /\ forall c, In c post -> ~ about a c) \/
  ((forall c, In c h -> ~ about a c) /\ In a [$"marker"; $"markersize"; $"markevery"; $"linestyle"; $"linewidth"; $"drawstyle"]).

(** What was given for [k], or else [d]. *)
Definition given (kw : list (str * val)) (k : str) (d : val) : val := match dget eqs k kw with Some v => v | None => d end.
(** Attribute [k] of a plot whose forwarded keywords are [F]: as given unless it is forwarded, or the default. *)
Definition attribute (F : list str) (defaults kw : list (str * val)) (k : str) : option val :=
  if existsb (eqs k) F then dget eqs k defaults else match dget eqs k kw with Some v => Some v | None => dget eqs k defaults end.
(** The attributes of a plot nobody said anything about. *)
Definition static_attrs : list (str * val) :=
  [($"width", VInt 7); ($"length", VInt 7); ($"per_line", VInt 2); ($"concat", VBool false); ($"filters", VObj false 0);
   ($"style", VBool true); ($"permute", VBool false); ($"pivot", VStr $"__TRAPPY_PIVOT_DEFAULT"); ($"xlim", VNone); ($"ylim", VNone);
   ($"title", VNone); ($"map_label", VObj false 0); ($"_legend_handles", VObj false 1); ($"_legend_labels", VObj false 1); ($"legend_ncol", VInt 3)].
Definition bar_attrs : list (str * val) := static_attrs ++ [($"spacing", VNum (2 # 10)); ($"stacked", VBool false)].
Definition line_attrs : list (str * val) := static_attrs ++ [($"scatter", VBool false); ($"fill", VBool false)].
(** Argument [k] of the calls to matplotlib. *)
Definition plain (F : list str) (kw : list (str * val)) (k : str) : option val := if existsb (eqs k) F then dget eqs k kw else None.
Definition scattered (F : list str) (kw : list (str * val)) (k : str) : option val :=
  if eqs k $"linestyle" then Some (VStr [])
  else if eqs k $"marker" then Some (VStr $"o")
  else if eqs k $"markersize" && negb (existsb (eqs $"point_size") F) && dmem eqs $"point_size" kw then dget eqs $"point_size" kw
  else plain F kw k.

(** A draw style, and whether it is one of steps. *)
Definition styled (v : val) (steps : bool) : Prop := match v with VNone => steps = false | VStr s => steps = is_prefix $"steps" s | _ => False end.
(** The page of an interactive plot with [num] figures: name and value of each parameter. *)
Definition parameters (kw : list (str * val)) (per_line : Z) (steps : bool) (title own : str) : list (str * option val) :=
  [($"title", Some (VStr title));
   ($"rangesel", Some (VBool false));
   ($"logscale", Some (VBool false));
   ($"step_plot", Some (if steps then VBool true else given kw $"step_plot" (VBool false)));
   ($"fill_graph", Some (if dmem eqs $"fill_alpha" kw then VBool true else given kw $"fill" (VBool false)));
   ($"fill_alpha", dget eqs $"fill_alpha" kw);
   ($"per_line", Some (VInt per_line));
   ($"height", Some (VInt 400));
   ($"drawPoints", Some (VBool (truthy (given kw $"scatter" VNone))));
   ($"strokeWidth", Some (VNum (if truthy (given kw $"scatter" VNone) then 0 else 1)));
   ($"pointSize", Some (given kw $"point_size" (VInt 2)));
   ($"syncGroup", Some (given kw $"group" (VStr own)));
   ($"syncZoom", Some (given kw $"sync_zoom" (VBool false)));
   ($"valueRange", dget eqs $"ylim" kw);
   ($"dateWindow", dget eqs $"xlim" kw)].
