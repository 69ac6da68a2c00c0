(** Model of the resources of interactive plots: the paths the pages ask for, their installation
    (trappy/plotter/IPythonConf.py) and their replacement when a notebook is published
    (scripts/publish_interactive_plots.py).

    Simplified: the version of IPython is a flag, the directory of the profile is given; an object of the file system is
    a directory or a file with its contents, keyed by its path; what the web and the package hold is given. *)
From Coq Require Import List Ascii String ZArith Bool.
From Verif Require Import Lib.PyStr.
Import ListNotations.
Local Open Scope list_scope.

(** IPythonConf.py 30-34 *)
Definition D3_PLOTTER_URL : str := $"https://cdnjs.cloudflare.com/ajax/libs/d3/3.5.6/d3.min.js".
Definition D3_TIP_URL : str := $"https://labratrevenge.com/d3-tip/javascripts/d3.tip.v0.6.3.js".
Definition DYGRAPH_COMBINED_URL : str := $"https://cdnjs.cloudflare.com/ajax/libs/dygraph/1.1.1/dygraph-combined.js".
Definition DYGRAPH_SYNC_URL : str := $"https://github.com/danvk/dygraphs/blob/v2.1.0/src/extras/synchronizer.js".
Definition UNDERSCORE_URL : str := $"https://cdnjs.cloudflare.com/ajax/libs/underscore.js/1.8.3/underscore-min.js".
(** publish_interactive_plots.py 52 and 61 *)
Definition EVENTPLOT_URL : str := $"https://rawgit.com/sinkap/7f89de3e558856b81f10/raw/46144f8f8c5da670c54f826f0c634762107afc66/EventPlot".
Definition ILINEPLOT_URL : str := $"https://rawgit.com/sinkap/648927dfd6985d4540a9/raw/69d6f1f9031ae3624c15707315ce04be1a9d1ac3/ILinePlot".
(** IPythonConf.py 36-46 *)
Definition IPLOT_RESOURCES : list (str * list str) :=
  [($"ILinePlot", [DYGRAPH_COMBINED_URL; $"js/ILinePlot.js"; DYGRAPH_SYNC_URL; UNDERSCORE_URL]);
   ($"EventPlot", [D3_PLOTTER_URL; D3_TIP_URL; $"js/EventPlot.js"; $"css/EventPlot_help.jpg"])].
(** IPythonConf.py 49-53 *)
Definition IPYTHON_V4_BASE : str := $"/nbextensions".
Definition IPYTHON_V3_BASE : str := $"/static".
Definition PLOTTER_SCRIPTS : str := $"plotter_scripts".

(** [os.path.join] of a non-empty path not ending in a slash and a relative path *)
Definition pjoin (a b : str) : str := a ++ $"/" ++ b.
(** IPythonConf.py 188-200 [add_web_base]; [v4]: the version of IPython is at least 4 *)
Definition add_web_base (v4 : bool) (path : str) : str := pjoin (if v4 then IPYTHON_V4_BASE else IPYTHON_V3_BASE) path.

(** [s.strip("/")] *)
Definition strip_slash (s : str) : str := rev (drop_while (is_ch "/") (rev (drop_while (is_ch "/") s))).
(** IPythonConf.py 162-186 [get_ipython_dir]; [root] is jupyter_data_dir(), or the directory of the profile *)
Definition get_ipython_dir (v4 : bool) (root : str) : str :=
  if v4 then pjoin root (strip_slash IPYTHON_V4_BASE) else pjoin root (strip_slash IPYTHON_V3_BASE).

(** publish_interactive_plots.py 43-64: what is replaced by what, in order *)
Definition refs (v4 : bool) : list (str * str) :=
  [(add_web_base v4 $"plotter_scripts/EventPlot/d3.tip.v0.6.3", D3_TIP_URL);
   (add_web_base v4 $"plotter_scripts/EventPlot/d3.v3.min", D3_PLOTTER_URL);
   (add_web_base v4 $"plotter_scripts/EventPlot/EventPlot", EVENTPLOT_URL);
   (add_web_base v4 $"plotter_scripts/ILinePlot/synchronizer", DYGRAPH_SYNC_URL);
   (add_web_base v4 $"plotter_scripts/ILinePlot/dygraph-combined", DYGRAPH_COMBINED_URL);
   (add_web_base v4 $"plotter_scripts/ILinePlot/ILinePlot", ILINEPLOT_URL);
   (add_web_base v4 $"plotter_scripts/ILinePlot/underscore-min", UNDERSCORE_URL)].
(** publish_interactive_plots.py 38-67 [change_resource_paths] *)
Definition change_resource_paths (v4 : bool) (txt : str) : str :=
  fold_left (fun t r => replace (fst r) (snd r) t) (refs v4) txt.

(** EventPlot.py 239-241 and ILinePlotGen.py 94-97: the scripts a page asks for, without the extension *)
Definition page_scripts (module : str) : list str :=
  if eqs module $"EventPlot" then
    [$"plotter_scripts/EventPlot/EventPlot"; $"plotter_scripts/EventPlot/d3.tip.v0.6.3"; $"plotter_scripts/EventPlot/d3.min"]
  else if eqs module $"ILinePlot" then
    [$"plotter_scripts/ILinePlot/synchronizer"; $"plotter_scripts/ILinePlot/dygraph-combined";
     $"plotter_scripts/ILinePlot/ILinePlot"; $"plotter_scripts/ILinePlot/underscore-min"]
  else [].
(** The paths of a page: the same with the base of the server. *)
Definition page_paths (v4 : bool) (module : str) : list str := map (add_web_base v4) (page_scripts module).

(** ** Installation *)
Inductive node := Dir | File (contents : str).
Definition fs := list (str * node).
Definition isdir (s : fs) (p : str) : bool := match dget eqs p s with Some Dir => true | _ => false end.
Definition isfile (s : fs) (p : str) : bool := match dget eqs p s with Some (File _) => true | _ => false end.
(** How an installation ends: normally, with an ImportError for a web resource, with an OSError, or with a KeyError. *)
Inductive outcome := Done | NoResource (to_path : str) | OsErr | NoModule.
(** [os.path.basename] *)
Definition basename (p : str) : str := last (split_ch "/"%char p) [].
(** [os.mkdir]/[os.makedirs] of a path that is not a directory: an OSError if it is a file. Not modelled: parents that cannot be made. *)
Definition mkdir (s : fs) (p : str) : fs * outcome :=
  match dget eqs p s with Some _ => (s, OsErr) | None => (dset eqs p Dir s, Done) end.
Definition ensure_dir (s : fs) (p : str) : fs * outcome := if isdir s p then (s, Done) else mkdir s p.

Section Install.
  (** What can be fetched from the web, and the files of the package beside IPythonConf.py. *)
  Variables (web package : str -> option str).
  (** 57-71 [install_http_resource]: a directory cannot be written to *)
  Definition install_http (s : fs) (url to_path : str) : fs * outcome :=
    match web url with
    | Some c => if isdir s to_path then (s, NoResource to_path) else (dset eqs to_path (File c) s, Done)
    | None => (s, NoResource to_path)
    end.
  (** 74-86 [install_local_resource]: [shutil.copy] into a directory keeps the name of the source *)
  Definition install_local (s : fs) (from_path to_path : str) : fs * outcome :=
    match package from_path with
    | Some c => let dst := if isdir s to_path then pjoin to_path (basename from_path) else to_path in
                if isdir s dst then (s, OsErr) else (dset eqs dst (File c) s, Done)
    | None => (s, OsErr)
    end.
  (** 89-103 [install_resource] *)
  Definition install_resource (s : fs) (from_path to_path : str) : fs * outcome :=
    if is_prefix $"http" from_path
    then if isfile s to_path then (s, Done) else install_http s from_path to_path
    else install_local s from_path to_path.
  (** 118-128: one resource; 202-212 [get_scripts_path]: [home] is [get_ipython_dir()] *)
  Definition install_one (home module : str) (s : fs) (resource : str) : fs * outcome :=
    let scripts := pjoin home PLOTTER_SCRIPTS in
    match ensure_dir s scripts with
    | (s1, Done) =>
        let dest := pjoin scripts module in
        match ensure_dir s1 dest with
        | (s2, Done) => install_resource s2 resource (pjoin dest (basename resource))
        | e => e
        end
    | e => e
    end.
  Fixpoint install_all (home module : str) (s : fs) (l : list str) : fs * outcome :=
    match l with
    | [] => (s, Done)
    | r :: l' => match install_one home module s r with (s1, Done) => install_all home module s1 l' | e => e end
    end.
  (** 106-128 [iplot_install] *)
  Definition iplot_install (home module : str) (s : fs) : fs * outcome :=
    match dget eqs module IPLOT_RESOURCES with
    | Some l => install_all home module s l
    | None => (s, NoModule)
    end.
End Install.
