(** C94: exporting the pages of interactive plots. *)
From Coq Require Import List Ascii String ZArith Bool.
From Verif Require Import Lib.PyStr Lib.PyStrFacts Model.ILineGen Model.Export Model.Page Spec.Export Spec.Page Model.Publish Proofs.ExportP Proofs.PageP Proofs.PageQ.
Import ListNotations.
Local Open Scope list_scope.

(** The outputs of a notebook of such pages become what is said of them: the tables, the data and the calls of the plots; the
    libraries and the script of the package with the first plot of each kind. *)
Theorem C94_export : forall X w v4 css jsl jse fl fe cl ce cc ps (cs : list (cell X)),
  FileOf (e_base w) $"plotter/js/ILinePlot.js" fl -> e_file w fl = Some jsl -> Lines jsl cl ->
  FileOf (e_base w) $"plotter/js/EventPlot.js" fe -> e_file w fe = Some jse -> Lines jse ce ->
  Calm css -> Lines css cc -> Forall page_ok ps -> texts cs = map (text v4 css) ps ->
  exists cs', export w cs = Ok cs' /\ blank cs' = blank cs /\ texts cs' = exported_all v4 cl ce cc false false ps.
Proof. exact export_pages. Qed.
(** No mark is left, and a second export changes nothing. *)
Theorem C94_done : forall X w v4 css jsl jse fl fe ps (cs cs' : list (cell X)),
  FileOf (e_base w) $"plotter/js/ILinePlot.js" fl -> e_file w fl = Some jsl ->
  FileOf (e_base w) $"plotter/js/EventPlot.js" fe -> e_file w fe = Some jse ->
  Calm css -> Calm jsl -> Calm jse -> Forall page_ok ps -> texts cs = map (text v4 css) ps -> export w cs = Ok cs' ->
  Forall Calm (texts cs') /\ exists cs2, export w cs' = Ok cs2 /\ blank cs2 = blank cs' /\ texts cs2 = texts cs'.
Proof. exact export_done. Qed.
(** The pages that are generated are such pages; the figures with data are the first ones. *)
Theorem C94_page : forall T V (uuid : nat -> str) max per title (fs : list (frame T V * str)) ts ss, (1 <= per)%Z ->
  ILineGen.page uuid max per title fs = Ok (ts, ss) ->
  (exists n, graphs ts = map uuid (seq 0 n) /\ List.length fs <= n) /\ map (fun s => fst (fst s)) ss = map uuid (seq 0 (List.length fs)) /\
  forall c dump, match c with Some t => Calm t | None => True end -> match title with Some t => Calm t | None => True end ->
    (forall i, FigName (uuid i)) -> (forall s, In s ss -> Calm (dump s)) ->
    page_ok (LinePage c ts (map (fun s => (fst (fst s), dump s)) ss)).
Proof. exact @page_made. Qed.

(** Publishing a page instead changes six lines, if they are there, and nothing else. *)
Theorem C94_publish : forall v4 css p, page_remote css p ->
  change_resource_paths v4 (text v4 css p) = join [LF] (map (published_line v4) (split_ch LF (text v4 css p))).
Proof. exact publish_page. Qed.

Definition ex_fig (n : nat) : str := $"fig_" ++ ($"0123456789abcdef0123456789abcde" ++ str_of_Z (Z.of_nat n)).
Definition ex_w : env := Env $"/trappy" (fun f => if eqs f $"/trappy/plotter/js/ILinePlot.js" then Some ($"var ILinePlot;" ++ [LF])
  else if eqs f $"/trappy/plotter/js/EventPlot.js" then Some ($"var EventPlot;" ++ [LF]) else None).
Definition ex_css : str := $".d3-tip { }" ++ [LF].
Definition ex_pages : list Spec.Page.page :=
  [LinePage None [TTable; TCaption $"Power"; TRow; TGraph (ex_fig 0); TGraph (ex_fig 1); TEndRow; TRow; TLegend (ex_fig 0); TLegend (ex_fig 1); TEndRow; TEndTable]
     [(ex_fig 0, $"{}"); (ex_fig 1, $"{""title"": ""b""}")];
   Other $"<b>text</b>"; EventPage (ex_fig 2) $"{""lanes"": []}"; LinePage (Some $"[""red""]") [TGraph (ex_fig 3)] [(ex_fig 3, $"{}")]; EventPage (ex_fig 4) $"{}"].
Example C94_ex_ok : Forall page_ok ex_pages /\ Calm ex_css /\ FileOf (e_base ex_w) $"plotter/js/ILinePlot.js" $"/trappy/plotter/js/ILinePlot.js".
Proof.
  assert (FigName (ex_fig 0) /\ FigName (ex_fig 1) /\ FigName (ex_fig 2) /\ FigName (ex_fig 3) /\ FigName (ex_fig 4)) as (F0 & F1 & F2 & F3 & F4)
    by (repeat apply conj; unfold ex_fig; (eapply fig_by; [reflexivity|vm_compute; reflexivity|vm_compute; reflexivity])).
  assert (Calm $"Power" /\ Calm $"{}" /\ Calm $"{""title"": ""b""}" /\ Calm $"<b>text</b>" /\ Calm $"{""lanes"": []}" /\ Calm $"[""red""]") as (K1 & K2 & K3 & K4 & K5 & K6)
    by (repeat apply conj; apply calm_by; reflexivity).
  split; [|split; [now apply calm_by|now apply file_of_iff]]. unfold ex_pages.
  repeat apply Forall_cons; try apply Forall_nil; cbn [page_ok]; repeat apply conj; repeat apply Forall_cons; try apply Forall_nil; cbn [tok_ok fst snd]; try discriminate; auto.
Qed.
Example C94_ex : forall cs, cs = [Cell $"code" (Some (map (fun p => Out $"display_data" (Some (text true ex_css p)) 0) ex_pages)) 1] ->
  texts cs = map (text true ex_css) ex_pages /\
  match export ex_w cs with
  | Ok cs' => texts cs' = exported_all true [$"var ILinePlot;"] [$"var EventPlot;"] [$".d3-tip { }"] false false ex_pages
  | Err _ => False
  end.
Proof. intros cs ->. split; vm_compute; reflexivity. Qed.
Example C94_ex_text : exported_all true [$"var ILinePlot;"] [$"var EventPlot;"] [$".d3-tip { }"] false true
   [LinePage (Some $"[""red""]") [TGraph (ex_fig 3)] [(ex_fig 3, $"{}")]; EventPage (ex_fig 4) $"{}"]
  = [join [LF] [$"<td style=""border-style: hidden;""><div class=""ilineplot"" id=""fig_0123456789abcdef0123456789abcde3""></div></td>";
      $"<script>"; $"var fig_0123456789abcdef0123456789abcde3_data = {};"; $"</script>";
      $"<script src=""https://cdnjs.cloudflare.com/ajax/libs/dygraph/1.1.1/dygraph-combined.js"" type=""text/javascript"" charset=""utf-8""></script>";
      $"<script src=""https://github.com/danvk/dygraphs/blob/v2.1.0/src/extras/synchronizer.js"" type=""text/javascript"" charset=""utf-8""></script>";
      $"<script src=""https://cdnjs.cloudflare.com/ajax/libs/underscore.js/1.8.3/underscore-min.js"" type=""text/javascript"" charset=""utf-8""></script>";
      $""; $"            <script>"; $"var ILinePlot;";
      $"                ILinePlot.generate(fig_0123456789abcdef0123456789abcde3_data, [""red""]);"; $"            </script>"; $"        "];
     join [LF] [$"<style>"; $".d3-tip { }"; $"</style>"; $"<div id=""fig_0123456789abcdef0123456789abcde4"" class=""eventplot"">"; $""; $"        <script>"; $"            ";
      $"            EventPlot.generate('fig_0123456789abcdef0123456789abcde4', '/nbextensions/', {});"; $"        </script>"; $"        </div>"]].
Proof. vm_compute. reflexivity. Qed.
Example C94_publish_ex : let t := text true ex_css (LinePage None [TGraph (ex_fig 0)] [(ex_fig 0, $"{}")]) in
  nth 14 (split_ch LF t) [] = $"                    ""dygraph-sync"": '/nbextensions/plotter_scripts/ILinePlot/synchronizer'," /\
  nth 14 (split_ch LF (change_resource_paths true t)) [] = $"                    ""dygraph-sync"": 'https://github.com/danvk/dygraphs/blob/v2.1.0/src/extras/synchronizer.js',".
Proof. split; vm_compute; reflexivity. Qed.
Example C94_page_ex : match ILineGen.page ex_fig 100 2 (Some $"t") [(Frame [1%Z] [$"a"] [[2%Z]], $"x"); (Frame [1%Z] [$"a"] [[2%Z]], $"y"); (Frame [] [] [], $"z")] with
  | Ok (ts, ss) => List.length (graphs ts) = 4 /\ List.length ss = 3
  | Err _ => False
  end.
Proof. vm_compute. auto. Qed.

(** Findings. A title with a mark of the exporter takes the data of the plot with it; the call that needs them stays. *)
Theorem C94_title_refuted : exists title, let data := $"{""title"": """ ++ title ++ $"""}" in
  match filter_output ex_w ps_init (text true ex_css (LinePage None [TGraph (ex_fig 0)] [(ex_fig 0, data)])) with
  | Ok (out, _) => ~ Has ($"var " ++ ex_fig 0 ++ $"_data") out /\ Has ($"ILinePlot.generate(" ++ ex_fig 0 ++ $"_data)") out
  | Err _ => False
  end.
Proof.
  exists $"/* TRAPPY_PUBLISH_REMOVE_LINE */". cbv zeta.
  match goal with |- match ?x with _ => _ end => let y := eval vm_compute in x in replace x with y by (vm_compute; reflexivity) end.
  split; [rewrite has_iff; vm_compute; discriminate|rewrite has_iff; vm_compute; reflexivity].
Qed.
(** When the plots do not fill the last row, scripts of the page use data that are nowhere declared. *)
Theorem C94_declared_refuted : ~ (forall T V (uuid : nat -> str) max per title (fs : list (frame T V * str)) ts ss, (1 <= per)%Z ->
  ILineGen.page uuid max per title fs = Ok (ts, ss) -> forall f, In f (graphs ts) -> In f (map (fun s => fst (fst s)) ss)).
Proof.
  intros H. specialize (H Z Z ex_fig 100%Z 2%Z None [(Frame [] [] [], $"x"); (Frame [] [] [], $"y"); (Frame [] [] [], $"z")] _ _ ltac:(discriminate) eq_refl (ex_fig 3)).
  assert (In (ex_fig 3) [ex_fig 0; ex_fig 1; ex_fig 2]) as K by (apply H; vm_compute; auto).
  destruct K as [K|[K|[K|[]]]]; vm_compute in K; discriminate.
Qed.
(** An exported event plot still names the path of the server it was made on (for the picture of its help). *)
Theorem C94_local_refuted : ~ (forall v4 cl ce cc l e f d, FigName f -> ~ Has $"/nbextensions/" d -> Forall (fun x => ~ Has $"/nbextensions/" x) (cl ++ ce ++ cc) ->
  ~ Has $"/nbextensions/" (join [LF] (exported v4 cl ce cc l e (EventPage f d)))).
Proof.
  intros H. assert (~ Has $"/nbextensions/" (join [LF] (exported true [] [] [] true true (EventPage (ex_fig 0) $"{}")))) as K.
  { apply H; [|rewrite has_iff; vm_compute; discriminate|constructor]. unfold ex_fig. eapply fig_by; [reflexivity|vm_compute; reflexivity|vm_compute; reflexivity]. }
  apply K. apply has_iff. vm_compute. reflexivity.
Qed.

Print Assumptions C94_export.
Print Assumptions C94_done.
Print Assumptions C94_page.
Print Assumptions C94_publish.
