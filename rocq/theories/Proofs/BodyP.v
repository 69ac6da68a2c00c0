(** Where the body of a file starts. *)
From Coq Require Import List Ascii String ZArith NArith Bool.
From Verif Require Import Lib.PyStr Model.Line Model.Populate Spec.Lines Proofs.PopulateP Proofs.LineReadP.
Import ListNotations.
Local Open Scope list_scope.

Lemma body_starts file : exists pre, file = pre ++ ftrace_body file /\ Forall (fun l => ~ TraceLine l) pre /\
  (forall l rest, ftrace_body file = l :: rest -> TraceLine l).
Proof.
  destruct (drop_until_spec is_trace_line file) as (pre & E & F & H). exists pre. split; [exact E|]. split.
  - eapply Forall_impl; [|exact F]. cbv beta. intros l Hl. rewrite <- is_trace_line_iff. congruence.
  - intros l rest El. apply is_trace_line_iff. eauto.
Qed.
