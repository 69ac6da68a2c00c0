(** C28, C29: the file that is read and its header. *)
From Coq Require Import List Ascii String ZArith NArith Bool.
From Verif Require Import Lib.PyStr Lib.PyStrFacts Model.Line Model.Files Spec.Lines Spec.Files Proofs.LineReadP Proofs.FilesP.
Import ListNotations.
Local Open Scope list_scope.

(** ** C28 *)
(** The trace name is well defined for every path and file system. *)
Theorem C28_named : forall isfile base, exists stem, Named isfile base stem /\
  forall stem', Named isfile base stem' -> stem' = stem.
Proof.
  intros isfile base. destruct (named_total isfile base) as (stem & H). exists stem. split; auto.
  intros stem' H'. apply named_iff in H, H'. congruence.
Qed.
(** What is read: the .dat if it exists, else the .txt. *)
Theorem C28_choice : forall isfile base p dat, process_path isfile base = Ok (p, dat) <->
  exists stem, Named isfile base stem /\ isfile p = true /\
    ((dat = true /\ p = stem ++ $".dat") \/ (dat = false /\ p = stem ++ $".txt" /\ isfile (stem ++ $".dat") = false)).
Proof. exact choice. Qed.
Theorem C28_fails : forall isfile base, (exists e, process_path isfile base = Err e) <->
  exists stem, Named isfile base stem /\ isfile (stem ++ $".dat") = false /\ isfile (stem ++ $".txt") = false.
Proof. exact choice_fails. Qed.
(** Giving a file with extension .dat, .txt or another one. *)
Theorem C28_given_dat : forall isfile p, plain p -> isfile (p ++ $".dat") = true ->
  process_path isfile (p ++ $".dat") = Ok (p ++ $".dat", true).
Proof. exact given_dat. Qed.
Theorem C28_given_txt : forall isfile p, plain p -> isfile (p ++ $".txt") = true ->
  process_path isfile (p ++ $".txt") = if isfile (p ++ $".dat") then Ok (p ++ $".dat", true) else Ok (p ++ $".txt", false).
Proof. exact given_txt. Qed.
Theorem C28_given_other : forall isfile p e dat q, plain p -> extension e -> e <> $"dat" -> e <> $"txt" ->
  isfile (p ++ $"." ++ e) = true -> process_path isfile (p ++ $"." ++ e) = Ok (q, dat) ->
  q <> p ++ $"." ++ e /\ (q = p ++ $".dat" \/ q = p ++ $".txt").
Proof. exact given_other. Qed.

Definition ex_fs (l : list str) (p : str) : bool := existsb (eqs p) l.
Example C28_ex : process_path (ex_fs [$"d/trace.txt"]) $"d" = Ok ($"d/trace.txt", false) /\
  process_path (ex_fs [$"d/trace.txt"; $"d/trace.dat"]) $"d/" = Ok ($"d/trace.dat", true) /\
  process_path (ex_fs [$"d.1/x.y.log"; $"d.1/x.y.txt"]) $"d.1/x.y.log" = Ok ($"d.1/x.y.txt", false) /\
  process_path (ex_fs [$"d/x.raw.txt"; $"d/x.log"]) $"d/x.log" = Err ERuntime /\
  process_path (ex_fs []) $"d" = Err EIO.
Proof. vm_compute. auto. Qed.
Example C28_ex_plain : plain $"d.1/.x.y" /\ extension $"log".
Proof.
  split; [|split; vm_compute; intuition discriminate]. exists $"d.1/", $".", "x"%char, $".y". split; [reflexivity|].
  split; [right; exists $"d.1"; reflexivity|]. split; [vm_compute; intuition discriminate|]. split; [repeat constructor|discriminate].
Qed.
(** Finding: asked to read an existing .txt file, FTrace reads the .dat beside it. *)
Theorem C28_txt_refuted : exists isfile base p dat, isfile base = true /\
  process_path isfile base = Ok (p, dat) /\ p <> base.
Proof.
  exists (ex_fs [$"t.txt"; $"t.dat"]), $"t.txt", $"t.dat", true. split; [reflexivity|]. split; [vm_compute; reflexivity|discriminate].
Qed.
(** Finding: an existing file with another extension is not read even if it is
    the only trace there, and a hidden file ".txt" is not read either. *)
Theorem C28_only_file_refuted : exists isfile base1 base2, isfile base1 = true /\ isfile base2 = true /\
  base1 = $"my.trace" /\ base2 = $".txt" /\
  process_path isfile base1 = Err EIO /\ process_path isfile base2 = Err EIO.
Proof. exists (ex_fs [$"my.trace"; $".txt"]), $"my.trace", $".txt". vm_compute. repeat split; reflexivity. Qed.

(** ** C29 *)
(** The values of version and cpus are those of the first header line for each,
    and nothing else is recorded. *)
Theorem C29_value : forall file k v, k = $"version" \/ k = $"cpus" ->
  (dget eqs k (trace_metadata file) = Some v <-> HeaderValue file k v).
Proof. exact metadata_spec. Qed.
Theorem C29_only : forall file k v, dget eqs k (trace_metadata file) = Some v -> k = $"version" \/ k = $"cpus".
Proof. exact metadata_only. Qed.
(** The specification gives at most one value per key. *)
Theorem C29_unique : forall file k v v', k = $"version" \/ k = $"cpus" ->
  HeaderValue file k v -> HeaderValue file k v' -> v = v'.
Proof. intros file k v v' Hk. exact (value_unique k v v' file Hk). Qed.
(** Lines after the first trace line never matter. *)
Theorem C29_after : forall pre l post post', TraceLine l ->
  trace_metadata (pre ++ l :: post) = trace_metadata (pre ++ l :: post').
Proof. exact metadata_after_line. Qed.
Example C29_ex : trace_metadata [$"# x"; $"cpus = 8"; $"cpus=4"; $"version=6."; $"a-1 [000] 1.5: ev: x=1"; $"version=9"] =
  [($"cpus", $"8"); ($"version", $"6")].
Proof. vm_compute. reflexivity. Qed.
Example C29_ex_hyp : TraceLine $"a-1 [000] 1.5: ev: x=1" /\ HeaderLine $"cpus" $"8" $"cpus = 8".
Proof.
  split; [apply is_trace_line_iff; vm_compute; reflexivity|]. exists $" ", $" ", []. split; [reflexivity|]. split; [repeat constructor|]. split; [repeat constructor|].
  split; [split; [discriminate|repeat constructor]|discriminate].
Qed.
(** Finding: the first trace line itself is still searched, so a task named
    "cpus=2" decides the number of cpus. *)
Theorem C29_before_refuted : exists line, TraceLine line /\
  trace_metadata [line] = [($"cpus", $"2")].
Proof. exists $"cpus=2-17 [000] 1.5: ev: x=1". split; [apply is_trace_line_iff|]; vm_compute; reflexivity. Qed.

Print Assumptions C28_named.
Print Assumptions C28_choice.
Print Assumptions C28_fails.
Print Assumptions C28_given_dat.
Print Assumptions C28_given_txt.
Print Assumptions C28_given_other.
Print Assumptions C28_txt_refuted.
Print Assumptions C28_only_file_refuted.
Print Assumptions C29_value.
Print Assumptions C29_only.
Print Assumptions C29_unique.
Print Assumptions C29_after.
Print Assumptions C29_before_refuted.
