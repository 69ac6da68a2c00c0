(** What is left of the pages of interactive plots when a notebook is exported. *)
From Coq Require Import List Ascii String ZArith Bool.
From Verif Require Import Lib.PyStr Model.ILineGen Model.Page Spec.Export.
Import ListNotations.
Local Open Scope list_scope.

(** Text that does not mention the marks of the exporter. *)
Definition Calm (t : str) : Prop := ~ Has $"TRAPPY_PUBLISH_" t.
(** Names of figures. *)
Definition hex_digit (c : ascii) : Prop := In c $"0123456789abcdef".
Definition FigName (f : str) : Prop := exists h, f = $"fig_" ++ h /\ List.length h = 32 /\ Forall hex_digit h.

(** The outputs of a notebook: pages of line plots (the table with the names of the figures, the data of the figures), pages of
    event plots, and others. *)
Inductive page :=
| LinePage (colours : option str) (table : list (tok str)) (data : list (str * str))
| EventPage (fig data : str)
| Other (t : str).
Definition text (v4 : bool) (css : str) (p : page) : str :=
  match p with
  | LinePage c ts d => line_html v4 c ts d
  | EventPage f d => event_html v4 css f d
  | Other t => t
  end.
Definition tok_ok (t : tok str) : Prop :=
  match t with TCaption s => Calm s | TGraph f | TLegend f => FigName f | _ => True end.
Definition page_ok (p : page) : Prop :=
  match p with
  | LinePage c ts d => match c with Some t => Calm t | None => True end /\ Forall tok_ok ts /\ graphs ts <> [] /\
      Forall (fun s => FigName (fst s) /\ Calm (snd s)) d
  | EventPage f d => FigName f /\ Calm d
  | Other t => Calm t
  end.

(** The scripts of a page: the libraries, the file and the call of the plot. The libraries and the file come with the first plot
    of the kind in the notebook. *)
Definition line_script (libs file : list str) (colours : option str) (fig : str) : list str :=
  libs ++ [$""; $"            <script>"] ++ file ++
  [$"                ILinePlot.generate(" ++ fig ++ $"_data" ++ match colours with Some c => $", " ++ c | None => [] end ++ $");";
   $"            </script>"; $"        "].
Definition line_libs : list str :=
  map tag [$"https://cdnjs.cloudflare.com/ajax/libs/dygraph/1.1.1/dygraph-combined.js";
           $"https://github.com/danvk/dygraphs/blob/v2.1.0/src/extras/synchronizer.js";
           $"https://cdnjs.cloudflare.com/ajax/libs/underscore.js/1.8.3/underscore-min.js"].
Definition event_libs : list str :=
  map tag [$"https://cdnjs.cloudflare.com/ajax/libs/d3/3.5.6/d3.min.js";
           $"https://labratrevenge.com/d3-tip/javascripts/d3.tip.v0.6.3.js"].
Definition event_script (libs file : list str) (v4 : bool) (fig data : str) : list str :=
  [$"<div id=""" ++ fig ++ $""" class=""eventplot"">"] ++ libs ++ [$""; $"        <script>"] ++ file ++
  [$"            ";
   $"            EventPlot.generate('" ++ fig ++ $"', '" ++ (if v4 then $"/nbextensions/" else $"/static/") ++ $"', " ++ data ++ $");";
   $"        </script>"; $"        </div>"].
Section Exported.
  (** The lines of the two scripts of the package and of the style sheet. *)
  Variables (v4 : bool) (js_line js_event css : list str).
  (** [l] and [e]: a page of line plots, of an event plot, came before. *)
  Definition exported (l e : bool) (p : page) : list str :=
    match p with
    | LinePage c ts d =>
        map tok_html ts ++
        flat_map (fun s => [$"<script>"; $"var " ++ fst s ++ $"_data = " ++ snd s ++ $";"; $"</script>"]) d ++
        match graphs ts with
        | [] => []
        | f :: fs => (if l then line_script [] [] c f else line_script line_libs js_line c f) ++ flat_map (line_script [] [] c) fs
        end
    | EventPage f d =>
        [$"<style>"] ++ css ++ [$"</style>"] ++ (if e then event_script [] [] v4 f d else event_script event_libs js_event v4 f d)
    | Other t => [t]
    end.
  Definition is_line (p : page) : bool := match p with LinePage _ _ _ => true | _ => false end.
  Definition is_event (p : page) : bool := match p with EventPage _ _ => true | _ => false end.
  Fixpoint exported_all (l e : bool) (ps : list page) : list str :=
    match ps with
    | [] => []
    | p :: r => join [LF] (exported l e p) :: exported_all (l || is_line p) (e || is_event p) r
    end.
End Exported.

(** ** Publishing *)
(** The lines of the pages that publishing changes: the paths of the server become URLs. *)
Definition changed_lines (v4 : bool) : list (str * str) :=
  let local p := (if v4 then $"/nbextensions/plotter_scripts/" else $"/static/plotter_scripts/") ++ p in
  let entry key path := $"                    """ ++ key ++ $""": '" ++ path ++ $"'," in
  [(entry $"dygraph-sync" (local $"ILinePlot/synchronizer"), entry $"dygraph-sync" $"https://github.com/danvk/dygraphs/blob/v2.1.0/src/extras/synchronizer.js");
   (entry $"dygraph" (local $"ILinePlot/dygraph-combined"), entry $"dygraph" $"https://cdnjs.cloudflare.com/ajax/libs/dygraph/1.1.1/dygraph-combined.js");
   (entry $"ILinePlot" (local $"ILinePlot/ILinePlot"),
    entry $"ILinePlot" $"https://rawgit.com/sinkap/648927dfd6985d4540a9/raw/69d6f1f9031ae3624c15707315ce04be1a9d1ac3/ILinePlot");
   (entry $"underscore" (local $"ILinePlot/underscore-min"), entry $"underscore" $"https://cdnjs.cloudflare.com/ajax/libs/underscore.js/1.8.3/underscore-min.js");
   (entry $"EventPlot" (local $"EventPlot/EventPlot"),
    entry $"EventPlot" $"https://rawgit.com/sinkap/7f89de3e558856b81f10/raw/46144f8f8c5da670c54f826f0c634762107afc66/EventPlot");
   (entry $"d3-tip" (local $"EventPlot/d3.tip.v0.6.3"), entry $"d3-tip" $"https://labratrevenge.com/d3-tip/javascripts/d3.tip.v0.6.3.js")].
Definition published_line (v4 : bool) (l : str) : str := match dget eqs l (changed_lines v4) with Some l' => l' | None => l end.
(** Text that does not mention the directory of the scripts. *)
Definition Remote_text (t : str) : Prop := ~ Has $"/plotter_scripts/" t.
Definition page_remote (css : str) (p : page) : Prop :=
  match p with
  | LinePage c ts d => match c with Some t => Remote_text t | None => True end /\
      Forall (fun t => match t with TCaption s => Remote_text s | TGraph f | TLegend f => FigName f | _ => True end) ts /\
      Forall (fun s => FigName (fst s) /\ Remote_text (snd s)) d
  | EventPage f d => FigName f /\ Remote_text d /\ Remote_text css
  | Other t => Remote_text t
  end.
