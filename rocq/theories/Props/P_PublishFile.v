(** C108: the files of publishing a notebook. *)
From Coq Require Import List Ascii String ZArith Bool.
From Verif Require Import Lib.PyStr Lib.PyStrFacts Model.Publish Model.PublishFile Spec.Publish Spec.PublishFile Proofs.PublishFileP.
Import ListNotations.
Local Open Scope list_scope.

(** The name of the output: "published_" and the name of the notebook, or the given one, with the extension of notebooks. *)
Theorem C108_name : forall outfile notebook t, output_name outfile notebook = t <-> Output outfile notebook t.
Proof. exact output_ok. Qed.
(** The output holds the notebook with the paths replaced; all other files stay.  It is written before it is signed. *)
Theorem C108_published : forall v4 writable signs s outfile notebook t txt, Output outfile notebook t ->
  dget eqs notebook s = Some (File txt) -> writable t = true -> dget eqs t s <> Some Dir ->
  exists s' out e, publish_main v4 writable signs s outfile notebook = (s', e) /\ Published (replaced v4) txt out /\ dget eqs t s' = Some (File out) /\
    (forall p, p <> t -> dget eqs p s' = dget eqs p s) /\ ((e = Finished /\ signs out = true) \/ (e = NotSigned /\ signs out = false)).
Proof. exact publish_ok. Qed.
(** Without a notebook, or an output that can be written, nothing changes. *)
Theorem C108_fails : forall v4 writable signs s outfile notebook t, Output outfile notebook t ->
  (publish_main v4 writable signs s outfile notebook = (s, IoErr) <->
   (forall txt, dget eqs notebook s <> Some (File txt)) \/ writable t = false \/ dget eqs t s = Some Dir).
Proof. exact publish_fails. Qed.
(** Unless an output is given the notebook itself stays. *)
Theorem C108_apart : forall notebook t, Output [] notebook t -> t <> notebook.
Proof. exact default_apart. Qed.
(** Publishing the output onto itself changes nothing. *)
Theorem C108_again : forall v4 writable signs s outfile notebook s' e, publish_main v4 writable signs s outfile notebook = (s', e) -> e <> IoErr ->
  let t := output_name outfile notebook in exists s2, publish v4 writable signs s' t t = (s2, e) /\ forall p, dget eqs p s2 = dget eqs p s'.
Proof. exact publish_again. Qed.

Definition ex_fs : fs := [($"/home/a/run.ipynb", File $"x '/nbextensions/plotter_scripts/ILinePlot/ILinePlot'"); ($"/home/b/run.ipynb", File $"y"); ($"out.ipynb", Dir)].
Definition yes (_ : str) : bool := true.
Example C108_ex :
  publish_main true yes yes ex_fs [] $"/home/a/run.ipynb" = (ex_fs ++ [($"published_run.ipynb", File ($"x '" ++ ILINEPLOT_URL ++ $"'"))], Finished) /\
  output_name $"new" $"/home/a/run.ipynb" = $"new.ipynb" /\ output_name $"d/new.ipynb" $"/home/a/run.ipynb" = $"d/new.ipynb" /\
  publish_main true yes yes ex_fs $"out" $"/home/a/run.ipynb" = (ex_fs, IoErr) /\ publish_main true yes yes ex_fs [] $"none.ipynb" = (ex_fs, IoErr).
Proof. vm_compute. repeat split; reflexivity. Qed.
Example C108_ex_meets : Output [] $"/home/a/run.ipynb" $"published_run.ipynb" /\ Output $"new" $"run.ipynb" $"new.ipynb" /\ Output $"new.ipynb" $"run.ipynb" $"new.ipynb".
Proof. repeat split; apply C108_name; vm_compute; reflexivity. Qed.
(** Findings: the default output is in the working directory, so notebooks of one name in two directories overwrite each other's;
    the output may be the notebook, whose own text is then lost; the default output of other files is not a notebook. *)
Theorem C108_clash_refuted : ~ (forall v4 s a b ta tb s1 s2, a <> b -> dget eqs a s = Some (File ta) -> dget eqs b s = Some (File tb) ->
  publish_main v4 yes yes s [] a = (s1, Finished) -> publish_main v4 yes yes s1 [] b = (s2, Finished) ->
  dget eqs (output_name [] a) s2 = dget eqs (output_name [] a) s1).
Proof.
  intros H. specialize (H true ex_fs $"/home/a/run.ipynb" $"/home/b/run.ipynb" _ _ _ _ ltac:(discriminate) eq_refl eq_refl eq_refl eq_refl). vm_compute in H. discriminate H.
Qed.
Theorem C108_onto_refuted : exists s', publish_main true yes yes ex_fs $"/home/a/run.ipynb" $"/home/a/run.ipynb" = (s', Finished) /\
  dget eqs $"/home/a/run.ipynb" s' <> dget eqs $"/home/a/run.ipynb" ex_fs.
Proof. eexists. split; [reflexivity|]. vm_compute. discriminate. Qed.
Theorem C108_extension_refuted : Output [] $"run.json" $"published_run.json" /\ ~ Notebook $"published_run.json".
Proof.
  split; [apply C108_name; vm_compute; reflexivity|]. intros K. assert (J : is_suffix $".ipynb" $"published_run.json" = true) by (apply suffix_iff; exact K). vm_compute in J. discriminate J.
Qed.

Print Assumptions C108_name.
Print Assumptions C108_published.
Print Assumptions C108_fails.
Print Assumptions C108_apart.
Print Assumptions C108_again.
Print Assumptions C108_clash_refuted.
Print Assumptions C108_onto_refuted.
Print Assumptions C108_extension_refuted.
