(** C74, C75: publishing a notebook with interactive plots and installing their scripts. *)
From Coq Require Import List Ascii String ZArith Bool.
From Verif Require Import Lib.PyStr Lib.PyStrFacts Model.Publish Spec.Publish Proofs.PublishP Proofs.PublishQ.
Import ListNotations.
Local Open Scope list_scope.

Theorem C74_published : forall v4 txt out, change_resource_paths v4 txt = out <-> Published (replaced v4) txt out.
Proof. exact replaced_iff. Qed.
Theorem C74_none_left : forall v4 txt path url, In (path, url) (replaced v4) -> ~ Occurs path (change_resource_paths v4 txt).
Proof. exact replaced_clean. Qed.
Theorem C74_twice : forall v4 txt, change_resource_paths v4 (change_resource_paths v4 txt) = change_resource_paths v4 txt.
Proof. exact publish_twice. Qed.
Theorem C74_untouched : forall v4 txt, (forall path url, In (path, url) (replaced v4) -> ~ Occurs path txt) -> change_resource_paths v4 txt = txt.
Proof. exact replaced_keeps. Qed.
Theorem C74_iline : forall v4 txt path, In path (page_paths v4 $"ILinePlot") -> ~ Occurs path (change_resource_paths v4 txt).
Proof. exact publish_iline. Qed.

Example C74_ex : change_resource_paths true $"paths: ['/nbextensions/plotter_scripts/ILinePlot/underscore-min', '/nbextensions/plotter_scripts/EventPlot/d3.tip.v0.6.3'] /nbextensions/x"
  = $"paths: ['https://cdnjs.cloudflare.com/ajax/libs/underscore.js/1.8.3/underscore-min.js', 'https://labratrevenge.com/d3-tip/javascripts/d3.tip.v0.6.3.js'] /nbextensions/x"
  /\ change_resource_paths false $"'/static/plotter_scripts/ILinePlot/ILinePlot'" = $"'" ++ ILINEPLOT_URL ++ $"'".
Proof. vm_compute. auto. Qed.
(** The pages of event plots ask for "d3.min", the script replaces "d3.v3.min": their path to d3 stays local. *)
Theorem C74_event_refuted : ~ (forall v4 txt path, In path (page_paths v4 $"EventPlot") -> ~ Occurs path (change_resource_paths v4 txt)).
Proof.
  intros H. apply (H true (add_web_base true $"plotter_scripts/EventPlot/d3.min") (add_web_base true $"plotter_scripts/EventPlot/d3.min")).
  - cbn. auto.
  - exists [], []. vm_compute. reflexivity.
Qed.
(** The scripts of a page are asked for with ".js" added to their paths (see C75_served); most of the URLs that take
    their places end in ".js" already. *)
Theorem C74_extension_refuted : ~ (forall v4 path url, In (path, url) (replaced v4) -> ~ exists u, url = u ++ $".js").
Proof.
  intros H. apply (H true _ $"https://labratrevenge.com/d3-tip/javascripts/d3.tip.v0.6.3.js" (or_introl eq_refl)).
  exists $"https://labratrevenge.com/d3-tip/javascripts/d3.tip.v0.6.3". reflexivity.
Qed.
(** The picture of the help is taken for the script whose name begins its name. *)
Example C74_help_ex : change_resource_paths true (add_web_base true $"plotter_scripts/EventPlot/EventPlot_help.jpg") = EVENTPLOT_URL ++ $"_help.jpg".
Proof. vm_compute. reflexivity. Qed.

Theorem C75_installed : forall web package home module resources, In (module, resources) needs -> forall s s',
  iplot_install web package home module s = (s', Done) -> NoDirs home module resources s -> forall r n, In r resources -> LastPart r n ->
  exists c, dget eqs (place home module n) s' = Some (File c) /\
    (Remote r -> dget eqs (place home module n) s = Some (File c) \/
      (forall c0, dget eqs (place home module n) s <> Some (File c0)) /\ web r = Some c) /\
    (~ Remote r -> package r = Some c).
Proof. exact installed_ok. Qed.
(** Every script a page asks for is then a file. *)
Theorem C75_scripts : forall web package home module s s' resources, In (module, resources) needs ->
  iplot_install web package home module s = (s', Done) -> NoDirs home module resources s ->
  forall script, In script (page_scripts module) -> exists c, dget eqs (script_file home script) s' = Some (File c).
Proof. exact scripts_ok. Qed.
(** The server answers a path below its base from [root]: every path of a page is then a file there. *)
Theorem C75_served : forall web package v4 root module s s' resources, In (module, resources) needs ->
  iplot_install web package (get_ipython_dir v4 root) module s = (s', Done) -> NoDirs (get_ipython_dir v4 root) module resources s ->
  forall path, In path (page_paths v4 module) ->
  (exists script, path = (if v4 then $"/nbextensions/" else $"/static/") ++ script) /\
  exists c, dget eqs (root ++ path ++ $".js") s' = Some (File c).
Proof. exact served_ok. Qed.
(** What the pages ask for. *)
Theorem C75_asked : forall v4 module scripts, In (module, scripts) asks -> page_paths v4 module = map (fun s => base v4 ++ s) scripts.
Proof. exact page_asks. Qed.
Theorem C75_ends : forall web package home module resources, In (module, resources) needs -> forall s,
  (forall c, dget eqs (scripts_dir home) s <> Some (File c)) -> (forall c, dget eqs (plot_dir home module) s <> Some (File c)) ->
  NoDirs home module resources s ->
  (forall r n, In r resources -> LastPart r n -> Remote r -> web r = None -> exists c, dget eqs (place home module n) s = Some (File c)) ->
  (forall r, In r resources -> ~ Remote r -> package r <> None) ->
  exists s', iplot_install web package home module s = (s', Done).
Proof. exact ends_ok. Qed.
Theorem C75_missing : forall web package home module resources, In (module, resources) needs -> forall s s' p,
  iplot_install web package home module s = (s', NoResource p) -> NoDirs home module resources s ->
  exists r n, In r resources /\ LastPart r n /\ Remote r /\ web r = None /\ p = place home module n /\ dget eqs p s = None.
Proof. exact noresource_ok. Qed.
(** However it ends, nothing disappears and only the places of the plot change. *)
Theorem C75_kept : forall web package home module resources, In (module, resources) needs -> forall s p,
  (dget eqs p s = Some Dir -> dget eqs p (fst (iplot_install web package home module s)) = Some Dir) /\
  (forall c, dget eqs p s = Some (File c) -> exists c', dget eqs p (fst (iplot_install web package home module s)) = Some (File c')).
Proof. exact grown_ok. Qed.
Theorem C75_frame : forall web package home module resources, In (module, resources) needs -> forall s p,
  p <> scripts_dir home -> p <> plot_dir home module ->
  (forall r n, In r resources -> LastPart r n -> p <> place home module n /\ p <> place home module n ++ $"/" ++ n) ->
  dget eqs p (fst (iplot_install web package home module s)) = dget eqs p s.
Proof. exact frame_ok. Qed.
(** A second installation needs no web and changes nothing. *)
Theorem C75_again : forall web web2 package home module s s' resources, In (module, resources) needs ->
  iplot_install web package home module s = (s', Done) -> NoDirs home module resources s ->
  exists s2, iplot_install web2 package home module s' = (s2, Done) /\ forall p, dget eqs p s2 = dget eqs p s'.
Proof. exact again_ok. Qed.
Theorem C75_unknown : forall web package home module s, (forall resources, ~ In (module, resources) needs) ->
  iplot_install web package home module s = (s, NoModule).
Proof. exact unknown_ok. Qed.

Definition ex_web (u : str) : option str := Some ($"from " ++ u).
Definition ex_package (p : str) : option str := Some ($"local " ++ p).
Definition ex_old : fs := [($"/data", Dir); ($"/data/plotter_scripts", Dir); ($"/data/plotter_scripts/EventPlot", Dir);
  ($"/data/plotter_scripts/EventPlot/d3.min.js", File $"old"); ($"/data/plotter_scripts/EventPlot/EventPlot.js", File $"old")].
Definition ex_new : fs * outcome := Eval vm_compute in iplot_install ex_web ex_package $"/data" $"EventPlot" ex_old.
(** The fetched file is kept, the local one is replaced. *)
Example C75_ex : iplot_install ex_web ex_package $"/data" $"EventPlot" ex_old = (fst ex_new, Done) /\
  dget eqs $"/data/plotter_scripts/EventPlot/d3.min.js" (fst ex_new) = Some (File $"old") /\
  dget eqs $"/data/plotter_scripts/EventPlot/EventPlot.js" (fst ex_new) = Some (File $"local js/EventPlot.js") /\
  dget eqs (script_file $"/data" $"plotter_scripts/EventPlot/d3.tip.v0.6.3") (fst ex_new) = Some (File ($"from " ++ D3_TIP_URL)) /\
  snd (iplot_install (fun _ => None) ex_package $"/data" $"EventPlot" ex_old) = NoResource $"/data/plotter_scripts/EventPlot/d3.tip.v0.6.3.js" /\
  snd (iplot_install ex_web ex_package $"/data" $"ILinePlot" (fst ex_new)) = Done.
Proof. vm_compute. auto 10. Qed.
Example C75_nodirs_ex : NoDirs $"/data" $"EventPlot" [D3_PLOTTER_URL; D3_TIP_URL; $"js/EventPlot.js"; $"css/EventPlot_help.jpg"] ex_old.
Proof.
  intros r n Hi Hn. apply basename_last in Hn as <-. destruct Hi as [<- |[<- |[<- |[<- |[]]]]]; vm_compute; discriminate.
Qed.
Example C75_served_ex : let r := iplot_install ex_web ex_package (get_ipython_dir true $"/data") $"ILinePlot" [] in snd r = Done /\
  dget eqs $"/data/nbextensions/plotter_scripts/ILinePlot/synchronizer.js" (fst r) = Some (File ($"from " ++ DYGRAPH_SYNC_URL)) /\
  In $"/nbextensions/plotter_scripts/ILinePlot/synchronizer" (page_paths true $"ILinePlot").
Proof. split; [|split]; vm_compute; auto. Qed.
(** A file fetched incompletely is never fetched again: the page's script is what stood there, whatever the web holds. *)
Theorem C75_fresh_refuted : ~ (forall web package home module s s' resources r n c, In (module, resources) needs ->
  iplot_install web package home module s = (s', Done) -> In r resources -> LastPart r n -> web r = Some c -> Remote r ->
  dget eqs (place home module n) s' = Some (File c)).
Proof.
  intros H. specialize (H ex_web ex_package $"/data" $"EventPlot" ex_old (fst ex_new) _ D3_PLOTTER_URL $"d3.min.js" ($"from " ++ D3_PLOTTER_URL) (or_intror (or_introl eq_refl))).
  assert (E : Some (File $"old") = Some (File ($"from " ++ D3_PLOTTER_URL))); [|discriminate].
  rewrite <- H; [vm_compute; reflexivity|vm_compute; reflexivity|now left|apply basename_last; vm_compute; reflexivity|reflexivity|].
  eexists. reflexivity.
Qed.

Print Assumptions C74_published.
Print Assumptions C74_none_left.
Print Assumptions C74_twice.
Print Assumptions C74_untouched.
Print Assumptions C74_iline.
Print Assumptions C75_installed.
Print Assumptions C75_scripts.
Print Assumptions C75_served.
Print Assumptions C75_ends.
Print Assumptions C75_missing.
Print Assumptions C75_kept.
Print Assumptions C75_frame.
Print Assumptions C75_again.
Print Assumptions C75_unknown.
Print Assumptions C75_asked.
