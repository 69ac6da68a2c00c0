(** What publishing a notebook and installing the scripts of a plot should do. *)
From Coq Require Import List Ascii String Bool.
From Verif Require Import Lib.PyStr Model.Publish.
Import ListNotations.
Local Open Scope list_scope.

(** Below which path the server serves the scripts, and what stands for them on the web. *)
Definition base (v4 : bool) : str := if v4 then $"/nbextensions/plotter_scripts/" else $"/static/plotter_scripts/".
Definition replaced (v4 : bool) : list (str * str) :=
  [(base v4 ++ $"EventPlot/d3.tip.v0.6.3", $"https://labratrevenge.com/d3-tip/javascripts/d3.tip.v0.6.3.js");
   (base v4 ++ $"EventPlot/d3.v3.min", $"https://cdnjs.cloudflare.com/ajax/libs/d3/3.5.6/d3.min.js");
   (base v4 ++ $"EventPlot/EventPlot", $"https://rawgit.com/sinkap/7f89de3e558856b81f10/raw/46144f8f8c5da670c54f826f0c634762107afc66/EventPlot");
   (base v4 ++ $"ILinePlot/synchronizer", $"https://github.com/danvk/dygraphs/blob/v2.1.0/src/extras/synchronizer.js");
   (base v4 ++ $"ILinePlot/dygraph-combined", $"https://cdnjs.cloudflare.com/ajax/libs/dygraph/1.1.1/dygraph-combined.js");
   (base v4 ++ $"ILinePlot/ILinePlot", $"https://rawgit.com/sinkap/648927dfd6985d4540a9/raw/69d6f1f9031ae3624c15707315ce04be1a9d1ac3/ILinePlot");
   (base v4 ++ $"ILinePlot/underscore-min", $"https://cdnjs.cloudflare.com/ajax/libs/underscore.js/1.8.3/underscore-min.js")].
(** What the two plots need, and what their pages ask for. *)
Definition needs : list (str * list str) :=
  [($"ILinePlot", [$"https://cdnjs.cloudflare.com/ajax/libs/dygraph/1.1.1/dygraph-combined.js"; $"js/ILinePlot.js";
      $"https://github.com/danvk/dygraphs/blob/v2.1.0/src/extras/synchronizer.js";
      $"https://cdnjs.cloudflare.com/ajax/libs/underscore.js/1.8.3/underscore-min.js"]);
   ($"EventPlot", [$"https://cdnjs.cloudflare.com/ajax/libs/d3/3.5.6/d3.min.js";
      $"https://labratrevenge.com/d3-tip/javascripts/d3.tip.v0.6.3.js"; $"js/EventPlot.js"; $"css/EventPlot_help.jpg"])].
Definition asks : list (str * list str) :=
  [($"EventPlot", [$"EventPlot/EventPlot"; $"EventPlot/d3.tip.v0.6.3"; $"EventPlot/d3.min"]);
   ($"ILinePlot", [$"ILinePlot/synchronizer"; $"ILinePlot/dygraph-combined"; $"ILinePlot/ILinePlot"; $"ILinePlot/underscore-min"])].

(** The text with all local paths replaced at once, read from the left: a path becomes its URL, any other character stays. *)
Inductive Published (rs : list (str * str)) : str -> str -> Prop :=
| P_end : Published rs [] []
| P_ref k u r r' : In (k, u) rs -> Published rs r r' -> Published rs (k ++ r) (u ++ r')
| P_chr c r r' : (forall k u t, In (k, u) rs -> c :: r <> k ++ t) -> Published rs r r' -> Published rs (c :: r) (c :: r').
(** [p] occurs in [s]. *)
Definition Occurs (p s : str) : Prop := exists a b, s = a ++ p ++ b.

(** The file of a script of a page below the directory [home] that the server serves. *)
Definition script_file (home script : str) : str := home ++ $"/" ++ script ++ $".js".
(** The last part of a path or URL. *)
Definition LastPart (p n : str) : Prop := ~ In "/"%char n /\ (p = n \/ exists d, p = d ++ $"/" ++ n).
(** A resource fetched from the web. *)
Definition Remote (r : str) : Prop := exists t, r = $"http" ++ t.
(** The directories the installation makes below [home], and the place of the file [n] of a plot. *)
Definition scripts_dir (home : str) : str := home ++ $"/" ++ $"plotter_scripts".
Definition plot_dir (home module : str) : str := scripts_dir home ++ $"/" ++ module.
Definition place (home module n : str) : str := plot_dir home module ++ $"/" ++ n.
(** No file to be installed is hidden by a directory of its name. *)
Definition NoDirs (home module : str) (resources : list str) (s : fs) : Prop :=
  forall r n, In r resources -> LastPart r n -> dget eqs (place home module n) s <> Some Dir.
