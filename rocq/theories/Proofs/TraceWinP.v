(** Windows and normalisation on parsed traces. *)
From Coq Require Import List Ascii String Arith ZArith Bool Sorted Permutation Lia Reals.
From Flocq Require Import Core BinarySingleNaN.
From Verif Require Import Lib.PyStr Lib.F64 Lib.F64Facts Lib.F64Ord Model.Base Model.Line Model.Registry Model.Populate
  Model.Window Spec.Trace Spec.Interval Proofs.PopulateP Proofs.WindowP.
Import ListNotations.
Local Open Scope nat_scope.

Section Trace.
  Variables (ws : words) (base : F64.float) (body : list str) (st : pstate).
  Hypothesis Hst : populate ws base body = Ok st.
  Lemma events_nn attr e : In e (arr attr st) -> nn (ev_time e) = true.
  Proof.
    destruct (populate_spec ws base body st Hst) as (us & HA & _ & _ & _ & _ & HR).
    destruct (Assigned_sorted _ _ _ (eq_refl : nn fzero = true) (parsed_nn body 0) HA) as (HN & _).
    intros He. apply (Recorded_In _ _ _ _ _ (HR attr)) in He as (i & l & f & t & I & _ & ->). cbn.
    apply in_combine_r in I. rewrite Forall_forall in HN. now apply HN.
  Qed.
  Definition rows (attr : str) : list (F64.float * event) := map (fun e => (ev_time e, e)) (arr attr st).
  Lemma rows_sorted attr : Forall (fun e => ev_time e <> finf) (arr attr st) -> time_sorted (rows attr).
  Proof.
    intros Hf. pose proof (events_sorted _ _ _ _ Hst attr) as Hs. pose proof (events_nn attr) as Hn. unfold rows. 
    induction Hs as [|e es Hs IH Hx]; cbn; constructor.
    - apply IH; [now inversion Hf|]. intros; apply Hn; now right.
    - apply Forall_forall. intros r Hr. apply in_map_iff in Hr as (e' & <- & He'). cbn. rewrite Forall_forall in Hx.
      inversion Hf; subst. destruct (Hx _ He') as [_ [H|H]]; [|contradiction]. apply flt_le; auto; apply Hn; [now left|now right].
  Qed.
  Theorem trace_window attr w : Forall (fun e => ev_time e <> finf) (arr attr st) ->
    num (fst w) = true -> num_end (snd w) ->
    windowify w (map (fun e => (ev_time e, e)) (arr attr st)) =
    map (fun e => (ev_time e, e)) (filter (fun e => inside (fst w) (upper (snd w)) (ev_time e)) (arr attr st)).
  Proof.
    intros Hf H1 H2. rewrite windowify_sorted; auto; [|apply Forall_forall; intros r Hr|now apply rows_sorted].
    - generalize (arr attr st). intros l. induction l as [|e l IH]; auto. cbn [map filter fst].
      destruct (inside _ _ (ev_time e)); cbn [map]; now rewrite IH.
    - apply in_map_iff in Hr as (e & <- & He). now apply (events_nn attr).
  Qed.
  Theorem trace_norm_order a1 a2 e1 e2 : ftruthy base = false ->
    In e1 (arr a1 st) -> In e2 (arr a2 st) -> (ev_line e1 < ev_line e2)%Z ->
    ev_time e1 <> finf -> ev_time e2 <> finf ->
    fle (fsub (ev_time e1) (p_base st)) (fsub (ev_time e2) (p_base st)) = true /\
    fle fzero (fsub (ev_time e1) (p_base st)) = true.
  Proof.
    intros Hb H1 H2 Hlt Hfin1 Hfin.
    destruct (base_end ws base body st Hst) as (_ & Hn & Hbase & _).
    assert (Hps : parsed 0 body <> []).
    { intros E. destruct (populate_spec ws base body st Hst) as (us & HA & _ & _ & _ & _ & HR).
      specialize (HR a1). rewrite E in HR. inversion HR as [U V W| |]. rewrite <- W in H1. destruct H1. }
    specialize (Hbase Hb Hps). destruct Hbase as [Hfirst Hge].
    assert (N1 := events_nn _ _ H1). assert (N2 := events_nn _ _ H2).
    assert (L1 := Hge _ _ H1). assert (L2 := Hge _ _ H2).
    assert (F2 : finite (ev_time e2)) by (destruct (is_finite (ev_time e2)) eqn:E; auto; apply nn_inf in E; auto; contradiction).
    assert (Nb : nn (p_base st) = true).
    { destruct (populate_spec ws base body st Hst) as (us & HA & _ & HB & _). rewrite Hb in HB. rewrite HB.
      destruct (Assigned_sorted _ _ _ (eq_refl : nn fzero = true) (parsed_nn body 0) HA) as (HN & _).
      destruct us as [|u us]; [|now inversion HN]. cbn. apply Assigned_length in HA. rewrite map_length in HA.
      destruct (parsed 0 body); [congruence|discriminate]. }
    assert (F1 : finite (ev_time e1)) by (destruct (is_finite (ev_time e1)) eqn:E; auto; apply nn_inf in E; auto; contradiction).
    destruct (events_ordered ws base body st Hst a1 a2 e1 e2 H1 H2 Hlt) as [L|L]; [|contradiction].
    assert (Fb : finite (p_base st)).
    { apply fle_spec in L1; auto. destruct L1; auto. }
    split.
    - apply norm_order; auto. now apply flt_le.
    - destruct (fsub_nn (ev_time e1) (p_base st)) as [N _]; auto. apply fle_ford; [reflexivity|now apply num_nn|].
      cbn [ford B2R fzero]. now apply ford_nonneg.
  Qed.
End Trace.

Definition col_ws : words := [($"ev:", ($"ev", Kls 1 $"ev:" (Some $"ev") $"Ev" false))].
Definition col_body : list str :=
  [$"a-1 [000] 300.000012: ev: x=1"; $"a-1 [000] 900.000000: ev: x=2"; $"a-1 [000] 900.000000: ev: x=3"].
Definition col_check (r : res pstate) : bool :=
  match r with
  | Ok st => match arr $"ev" st with
             | [_; e1; e2] => flt (ev_time e1) (ev_time e2) &&
                 feq (fsub (ev_time e1) (p_base st)) (fsub (ev_time e2) (p_base st))
             | _ => false
             end
  | Err _ => false
  end.
Lemma col_checked : col_check (populate col_ws fzero col_body) = true.
Proof. vm_compute. reflexivity. Qed.
Theorem norm_collapse : exists ws body st, populate ws fzero body = Ok st /\
  exists attr e1 e2 rest, arr attr st = rest ++ [e1; e2] /\ flt (ev_time e1) (ev_time e2) = true /\
    feq (fsub (ev_time e1) (p_base st)) (fsub (ev_time e2) (p_base st)) = true.
Proof.
  exists col_ws, col_body. generalize col_checked. generalize (populate col_ws fzero col_body). intros [st|e]; [|discriminate].
  intros H. exists st. split; auto. exists $"ev". unfold col_check in H.
  destruct (arr $"ev" st) as [|e0 [|e1 [|e2 [|]]]]; try discriminate. apply andb_true_iff in H as [T1 T2].
  exists e1, e2, [e0]. auto.
Qed.
