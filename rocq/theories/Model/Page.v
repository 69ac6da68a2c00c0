(** Model of the text of the pages of interactive plots (trappy/plotter/ILinePlotGen.py and EventPlot.py), as it is handed to
    the notebook.

    Simplified: the JSON text of the data of a plot ([json.dumps], which has no line breaks) and the lines of EventPlot.css are given. *)
From Coq Require Import List Ascii String ZArith Bool.
From Verif Require Import Lib.PyStr Model.ILineGen Model.Export Model.Publish.
Import ListNotations.
Local Open Scope list_scope.

(** ILinePlotGen.py 84 and EventPlot.py 229 *)
Definition source_line (url : str) : str := $"<!-- TRAPPY_PUBLISH_SOURCE_LIB = """ ++ url ++ $""" -->".
(** ILinePlotGen.py 76-119 [_add_graph_cell]: the lines of the script of a figure; [colours] is the text of [to_dygraph_colors] *)
Definition graph_js (v4 : bool) (fig : str) (colours : option str) : str :=
  let opt := match colours with Some c => $", " ++ c | None => [] end in
  join [nl] (map source_line [DYGRAPH_COMBINED_URL; DYGRAPH_SYNC_URL; UNDERSCORE_URL] ++
   [$"";
    $"            <script>";
    $"            /* TRAPPY_PUBLISH_IMPORT = ""plotter/js/ILinePlot.js"" */";
    $"            /* TRAPPY_PUBLISH_REMOVE_START */";
    $"            var ilp_req = require.config( {";
    $"";
    $"                paths: {";
    $"                    ""dygraph-sync"": '" ++ add_web_base v4 $"plotter_scripts/ILinePlot/synchronizer" ++ $"',";
    $"                    ""dygraph"": '" ++ add_web_base v4 $"plotter_scripts/ILinePlot/dygraph-combined" ++ $"',";
    $"                    ""ILinePlot"": '" ++ add_web_base v4 $"plotter_scripts/ILinePlot/ILinePlot" ++ $"',";
    $"                    ""underscore"": '" ++ add_web_base v4 $"plotter_scripts/ILinePlot/underscore-min" ++ $"',";
    $"                },";
    $"";
    $"                shim: {";
    $"                    ""dygraph-sync"": [""dygraph""],";
    $"                    ""ILinePlot"": {";
    $"";
    $"                        ""deps"": [""dygraph-sync"", ""dygraph"", ""underscore""],";
    $"                        ""exports"":  ""ILinePlot""";
    $"                    }";
    $"                }";
    $"            });";
    $"                /* TRAPPY_PUBLISH_REMOVE_STOP */";
    $"                ilp_req([""require"", ""ILinePlot""], function() { /* TRAPPY_PUBLISH_REMOVE_LINE */";
    $"                ILinePlot.generate(" ++ fig ++ $"_data" ++ opt ++ $");";
    $"            }); /* TRAPPY_PUBLISH_REMOVE_LINE */";
    $"            </script>";
    $"        "]).
(** ILinePlotGen.py 114, 124-125, 129-142, 155-159: the HTML of the table *)
Definition tok_html (t : tok str) : str :=
  match t with
  | TTable => $"<table style=""border-style: hidden;"">"
  | TCaption s => $"<caption style=""text-align:center; font: 24px sans-serif bold; color: black"">" ++ s ++ $"</caption>"
  | TRow => $"<tr>"
  | TGraph f => $"<td style=""border-style: hidden;""><div class=""ilineplot"" id=""" ++ f ++ $"""></div></td>"
  | TLegend f => $"<td style=""border-style: hidden;""><div style=""text-align:center"" id=""" ++ f ++ $"_legend" ++ $"""></div></td>"
  | TEndRow => $"</tr>"
  | TEndTable => $"</table>"
  end.
(** The figures, in the order in which their cells are added. *)
Definition graphs (ts : list (tok str)) : list str := flat_map (fun t => match t with TGraph f => [f] | _ => [] end) ts.
(** ILinePlotGen.py 263-269: the data of a plot; [s] is a figure and the JSON text *)
Definition data_lines (s : str * str) : list str :=
  [$"<script>"; $"var " ++ fst s ++ $"_data = " ++ snd s ++ $";"; $"</script>"].
(** ILinePlotGen.py 276-279 [html] *)
Definition line_html (v4 : bool) (colours : option str) (ts : list (tok str)) (data : list (str * str)) : str :=
  join [nl] (map tok_html ts ++ flat_map data_lines data ++ map (fun f => graph_js v4 f colours) (graphs ts)).

(** EventPlot.py 225-268 [_init_html]; [data] is the JSON text of the graph *)
Definition event_div (v4 : bool) (fig data : str) : str :=
  $"<div id=""" ++ fig ++ $""" class=""eventplot"">" ++ [nl] ++
  join [nl] (map source_line [D3_PLOTTER_URL; D3_TIP_URL] ++
   [$"";
    $"        <script>";
    $"            /* TRAPPY_PUBLISH_IMPORT = ""plotter/js/EventPlot.js"" */";
    $"            /* TRAPPY_PUBLISH_REMOVE_START */";
    $"            var req = require.config( {";
    $"";
    $"                paths: {";
    $"";
    $"                    ""EventPlot"": '" ++ add_web_base v4 $"plotter_scripts/EventPlot/EventPlot" ++ $"',";
    $"                    ""d3-tip"": '" ++ add_web_base v4 $"plotter_scripts/EventPlot/d3.tip.v0.6.3" ++ $"',";
    $"                    ""d3-plotter"": '" ++ add_web_base v4 $"plotter_scripts/EventPlot/d3.min" ++ $"'";
    $"                },";
    $"                waitSeconds: 15,";
    $"                shim: {";
    $"                    ""d3-plotter"" : {";
    $"                        ""exports"" : ""d3""";
    $"                    },";
    $"                    ""d3-tip"": [""d3-plotter""],";
    $"                    ""EventPlot"": {";
    $"";
    $"                        ""deps"": [""d3-tip"", ""d3-plotter"" ],";
    $"                        ""exports"":  ""EventPlot""";
    $"                    }";
    $"                }";
    $"            });";
    $"            /* TRAPPY_PUBLISH_REMOVE_STOP */";
    $"            ";
    $"        req([""require"", ""EventPlot""], function() { /* TRAPPY_PUBLISH_REMOVE_LINE */";
    $"            EventPlot.generate('" ++ fig ++ $"', '" ++ add_web_base v4 [] ++ $"', " ++ data ++ $");";
    $"        }); /* TRAPPY_PUBLISH_REMOVE_LINE */";
    $"        </script>";
    $"        "]) ++ $"</div>".
(** EventPlot.py 270-280 [_add_css] and 282-285 [html]; [css] is the text of css/EventPlot.css *)
Definition event_html (v4 : bool) (css fig data : str) : str :=
  join [nl] ([$"<style>"] ++ readlines_chopped css ++ [$"</style>"] ++ [event_div v4 fig data]).
