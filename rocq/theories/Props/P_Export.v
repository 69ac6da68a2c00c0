(** C46: the notebook export filter. *)
From Coq Require Import List Ascii String ZArith Bool.
From Verif Require Import Lib.PyStr Model.Export Spec.Export Proofs.ExportP.
Import ListNotations.
Local Open Scope list_scope.

(** A successful export changes nothing but the html texts of the display data
    of code cells, and each of these becomes the concatenation, in order, of what its lines
    become: nothing for removed lines and repeated imports, the file or the
    script tag for the first import, the line itself otherwise. *)
Theorem C46_export : forall X w (cs cs' : list (cell X)), export w cs = Ok cs' ->
  blank cs' = blank cs /\ List.length (texts cs') = List.length (texts cs) /\
  forall k t o, nth_error (texts cs) k = Some t -> nth_error (texts cs') k = Some o ->
     exists ls, o = join [LF] ls /\ Made (e_base w) (e_file w) (map (split_ch LF) (texts cs)) k (split_ch LF t) ls.
Proof. exact @export_ok. Qed.
(** What a line becomes is determined. *)
Theorem C46_determined : forall base file ts k i o o', Becomes base file ts k i o -> Becomes base file ts k i o' -> o = o'.
Proof. exact becomes_fun. Qed.
(** The second import of a file, or of a library, anywhere in the export leaves nothing. *)
Theorem C46_once : forall base file ts k i k' i' l l' f f' p o, Before k i k' i' -> LiveLine ts k i l -> LiveLine ts k' i' l' ->
  Imports l f -> Imports l' f' -> FileOf base f p -> FileOf base f' p -> Becomes base file ts k' i' o -> o = [].
Proof. exact becomes_again. Qed.
Theorem C46_once_lib : forall base file ts k i k' i' l l' u o, Before k i k' i' -> LiveLine ts k i l -> LiveLine ts k' i' l' ->
  Sources l u -> Sources l' u -> Becomes base file ts k' i' o -> o = [].
Proof. exact becomes_again_lib. Qed.
(** It fails exactly when some import that is not removed names an unreadable file. *)
Theorem C46_fails : forall X w (cs : list (cell X)) e, export w cs = Err e <->
  e = EIO /\ Unreadable (e_base w) (e_file w) (map (split_ch LF) (texts cs)).
Proof. exact @export_err. Qed.

Definition ls (l : list string) : str := join [LF] (map list_ascii_of_string l).
Definition ex_env : env := Env $"/trappy" (fun p => if eqs p $"/trappy/js/a.js" then Some (ls ["function a() {"; "}"; ""]%string) else None).
Definition ex_text1 : str := ls [
  "<div>"; "/* TRAPPY_PUBLISH_IMPORT = ""js/a.js"" */"; "/* TRAPPY_PUBLISH_REMOVE_START */"; "require();";
  "/* TRAPPY_PUBLISH_IMPORT = ""no.js"" */"; "/* TRAPPY_PUBLISH_REMOVE_STOP */"; "x; /* TRAPPY_PUBLISH_REMOVE_LINE */"; "</div>"]%string.
Definition ex_text2 : str := ls [
  "<!-- TRAPPY_PUBLISH_SOURCE_LIB = ""http://d3"" -->"; "/* TRAPPY_PUBLISH_IMPORT = ""/trappy/js/a.js"" */"; "";
  "<!-- TRAPPY_PUBLISH_SOURCE_LIB = ""http://d3"" -->"; "<p>"]%string.
Definition ex_cells : list (cell nat) :=
  [Cell $"markdown" None 1; Cell $"code" (Some [Out $"stream" (Some ex_text1) 2; Out $"display_data" (Some ex_text1) 3]) 4;
   Cell $"raw" (Some [Out $"display_data" (Some ex_text1) 5]) 6; Cell $"code" (Some [Out $"display_data" (Some ex_text2) 7; Out $"display_data" None 8]) 9].
Example C46_ex : texts ex_cells = [ex_text1; ex_text2] /\
  export ex_env ex_cells = Ok
  [Cell $"markdown" None 1; Cell $"code" (Some [Out $"stream" (Some ex_text1) 2;
     Out $"display_data" (Some (ls ["<div>"; "function a() {"; "}"; "</div>"]%string)) 3]) 4;
   Cell $"raw" (Some [Out $"display_data" (Some ex_text1) 5]) 6;
   Cell $"code" (Some [Out $"display_data" (Some (ls ["<script src=""http://d3"" type=""text/javascript"" charset=""utf-8""></script>"; ""; "<p>"]%string)) 7;
                       Out $"display_data" None 8]) 9].
Proof. split; vm_compute; reflexivity. Qed.
Example C46_fails_ex : export (X := nat) ex_env [Cell $"code" (Some [Out $"display_data" (Some $"/* TRAPPY_PUBLISH_IMPORT = ""no.js"" */") 1]) 2] = Err EIO.
Proof. vm_compute. reflexivity. Qed.
Example C46_once_ex : exists l l' f f' p, let ts := map (split_ch LF) (texts ex_cells) in
  Before 0 1 1 1 /\ LiveLine ts 0 1 l /\ LiveLine ts 1 1 l' /\ Imports l f /\ Imports l' f' /\ f <> f' /\ FileOf $"/trappy" f p /\ FileOf $"/trappy" f' p.
Proof.
  assert (L : forall ls i l, nth_error ls i = Some l -> (forall j m, (j <= i)%nat -> nth_error ls j = Some m -> contains START m = false) ->
              contains STOP l = false -> contains LINE l = false -> ~ Removed ls i).
  { intros s i l E H1 H2 H3 [(j & m & Hj & E' & [a [b ->]] & _)|(m & E' & H)].
    - enough (contains START (a ++ START ++ b) = true) by (rewrite (H1 j _ (Nat.lt_le_incl _ _ Hj) E') in *; discriminate).
      apply PyStrFacts.contains_spec. eauto.
    - rewrite E in E'. injection E' as <-. destruct H as [H|[H|H]]; apply has_iff in H; try congruence.
      rewrite (H1 i l (Nat.le_refl _) E) in H. discriminate. }
  do 5 eexists. cbn zeta. split; [left; constructor|]. split; [|split; [|split; [|split; [|split; [|split]]]]].
  - eexists. split; [reflexivity|]. split; [reflexivity|]. eapply L; [reflexivity| |reflexivity|reflexivity].
    intros [|[|j]] m Hj E; [injection E as <-; reflexivity|injection E as <-; reflexivity|exfalso; apply le_S_n in Hj; inversion Hj].
  - eexists. split; [reflexivity|]. split; [reflexivity|]. eapply L; [reflexivity| |reflexivity|reflexivity].
    intros [|[|j]] m Hj E; [injection E as <-; reflexivity|injection E as <-; reflexivity|exfalso; apply le_S_n in Hj; inversion Hj].
  - apply imports_iff. eexists. split; [vm_compute; reflexivity|reflexivity].
  - apply imports_iff. eexists. split; [vm_compute; reflexivity|reflexivity].
  - discriminate.
  - apply file_of_iff. reflexivity.
  - apply file_of_iff. reflexivity.
Qed.
(** Finding: the last character of an imported file is lost when the file does not
    end with a newline. *)
Theorem C46_chop_refuted : filter_output (Env $"/b" (fun _ => Some $"f();")) ps_init $"/* TRAPPY_PUBLISH_IMPORT = ""a.js"" */" = Ok ($"f()", PS [$"/b/a.js"] []).
Proof. vm_compute. reflexivity. Qed.
(** Finding: two names of one file are two files, so it can appear twice. *)
Theorem C46_alias_refuted : exists t, t = ls ["/* TRAPPY_PUBLISH_IMPORT = ""a.js"" */"; "/* TRAPPY_PUBLISH_IMPORT = ""./a.js"" */"]%string /\
  filter_output (Env $"/b" (fun _ => Some (ls ["f();"; ""]%string))) ps_init t = Ok (ls ["f();"; "f();"]%string, PS [$"/b/a.js"; $"/b/./a.js"] []).
Proof. eexists. split; [reflexivity|]. vm_compute. reflexivity. Qed.
(** Finding: a region opened in one output is not closed with it: nothing but the text in which it
    is opened is removed, so an unclosed region ends with its output. *)
Theorem C46_region_refuted : forall w s, filter_output w s $"/* TRAPPY_PUBLISH_REMOVE_START */" = Ok ([], s) /\ filter_output w s $"secret" = Ok ($"secret", s).
Proof. intros w s. split; reflexivity. Qed.

Print Assumptions C46_export.
Print Assumptions C46_determined.
Print Assumptions C46_once.
Print Assumptions C46_once_lib.
Print Assumptions C46_fails.
