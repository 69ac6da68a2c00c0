From Coq Require Import List Ascii String ZArith Bool Lia.
From Verif Require Import Lib.PyStr Lib.PyStrFacts Model.Publish Model.PublishFile Spec.Publish Spec.PublishFile Proofs.PublishP Proofs.PublishQ.
Import ListNotations.
Local Open Scope list_scope.

Lemma suffix_iff p s : is_suffix p s = true <-> exists t, s = t ++ p.
Proof. exact (is_suffix_spec p s). Qed.
Lemma output_ok outfile notebook t : output_name outfile notebook = t <-> Output outfile notebook t.
Proof.
  unfold output_name. split.
  - destruct (eqs outfile []) eqn:E; [apply eqs_eq in E; subst outfile; intros <-; constructor; now apply basename_last|].
    assert (N : outfile <> []) by (intros ->; discriminate E). destruct (is_suffix $".ipynb" outfile) eqn:S; cbn [negb]; intros <-.
    + apply out_named; [exact N|]. now apply suffix_iff.
    + apply out_extended; [exact N|]. intros K. apply suffix_iff in K. congruence.
  - intros H. destruct H as [notebook n L|outfile notebook N K|outfile notebook N K].
    + cbn [eqs]. f_equal. now apply basename_last.
    + destruct (eqs outfile []) eqn:E; [apply eqs_eq in E; congruence|]. apply suffix_iff in K. now rewrite K.
    + destruct (eqs outfile []) eqn:E; [apply eqs_eq in E; congruence|]. destruct (is_suffix $".ipynb" outfile) eqn:S; [|reflexivity]. now apply suffix_iff in S.
Qed.
Section Publish.
  Variables (v4 : bool) (writable signs : str -> bool).
  Notation main := (publish_main v4 writable signs).
  Lemma publish_ok s outfile notebook t txt : Output outfile notebook t -> dget eqs notebook s = Some (File txt) -> writable t = true -> dget eqs t s <> Some Dir ->
    exists s' out e, main s outfile notebook = (s', e) /\ Published (replaced v4) txt out /\ dget eqs t s' = Some (File out) /\
      (forall p, p <> t -> dget eqs p s' = dget eqs p s) /\ ((e = Finished /\ signs out = true) \/ (e = NotSigned /\ signs out = false)).
  Proof.
    intros O E W D. apply output_ok in O. unfold publish_main, publish. rewrite O, E, W. unfold isdir.
    exists (dset eqs t (File (change_resource_paths v4 txt)) s), (change_resource_paths v4 txt), (if signs (change_resource_paths v4 txt) then Finished else NotSigned).
    split; [destruct (dget eqs t s) as [[|c]|]; [congruence|reflexivity|reflexivity]|]. split; [now apply replaced_iff|].
    split; [rewrite (dget_dset eqs eqs_eq), eqs_refl; reflexivity|]. split.
    - intros p N. rewrite (dget_dset eqs eqs_eq). destruct (eqs p t) eqn:X; [apply eqs_eq in X; congruence|reflexivity].
    - destruct (signs _); auto.
  Qed.
  Lemma publish_fails s outfile notebook t : Output outfile notebook t ->
    (main s outfile notebook = (s, IoErr) <-> (forall txt, dget eqs notebook s <> Some (File txt)) \/ writable t = false \/ dget eqs t s = Some Dir).
  Proof.
    intros O. split.
    - intros H. destruct (dget eqs notebook s) as [[|txt]|] eqn:E; [left; congruence| |left; congruence]. right.
      destruct (writable t) eqn:W; [right|now left]. destruct (dget eqs t s) as [[|c]|] eqn:D; [reflexivity| |];
        exfalso; (destruct (publish_ok s outfile notebook t txt O E W) as (s' & out & e & M & _ & _ & _ & X); [congruence|]); rewrite M in H; injection H as _ ->; destruct X as [[X _]|[X _]]; discriminate.
    - apply output_ok in O. unfold publish_main, publish. rewrite O. intros H. destruct (dget eqs notebook s) as [[|txt]|] eqn:E; try reflexivity.
      unfold isdir. destruct H as [H|[H|H]]; [now elim (H txt)|rewrite H; now rewrite orb_true_r|rewrite H; reflexivity].
  Qed.
  Lemma default_apart notebook t : Output [] notebook t -> t <> notebook.
  Proof.
    intros O E. inversion O as [? n L| |]; subst; try congruence. destruct L as [N [K|(d & K)]].
    - apply (f_equal (@List.length ascii)) in K. rewrite app_length in K. change (List.length $"published_") with 10 in K. lia.
    - apply N. assert (J : In "/"%char ($"published_" ++ n)) by (rewrite K; apply in_or_app; right; now left).
      apply in_app_or in J as [J|J]; [|exact J]. exfalso. revert J. clear. cbn. intuition discriminate.
  Qed.
  Lemma publish_again s outfile notebook : forall s' e, main s outfile notebook = (s', e) -> e <> IoErr ->
    let t := output_name outfile notebook in exists s2, publish v4 writable signs s' t t = (s2, e) /\ forall p, dget eqs p s2 = dget eqs p s'.
  Proof.
    intros s' e H N t. unfold publish_main, publish in H. fold t in H. destruct (dget eqs notebook s) as [[|txt]|]; [congruence| |congruence].
    destruct (isdir s t || negb (writable t)) eqn:W; [congruence|]. injection H as <- <-. apply orb_false_elim in W as [_ W].
    unfold publish, isdir. rewrite (dget_dset eqs eqs_eq), eqs_refl, W, publish_twice. cbn [orb]. eexists. split; [reflexivity|].
    intros p. rewrite !(dget_dset eqs eqs_eq). destruct (eqs p t) eqn:X; reflexivity.
  Qed.
End Publish.
