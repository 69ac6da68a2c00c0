(** [handle_duplicate_index] on parsed traces, and its failures. *)
From Coq Require Import List Ascii String Arith ZArith Bool QArith Qcanon Sorted Permutation Lia.
From Flocq Require Import Core BinarySingleNaN.
From Verif Require Import Lib.PyStr Lib.F64 Lib.F64Facts Model.Base Model.Line Model.Registry Model.Populate Model.Dups
  Spec.Groups Spec.Trace Proofs.PopulateP Proofs.DupsP.
Import ListNotations.
Local Open Scope nat_scope.

Lemma flt_feq x y : flt x y = true -> feq y x = false.
Proof.
  unfold flt, feq, Bltb, Beqb. rewrite <- !Bltb_SFltb || idtac.
  unfold SpecFloat.SFltb, SpecFloat.SFeqb. change (SpecFloat.SFcompare (B2SF x) (B2SF y)) with (Bcompare x y).
  change (SpecFloat.SFcompare (B2SF y) (B2SF x)) with (Bcompare y x). rewrite (Bcompare_swap _ _ x y).
  destruct (Bcompare x y) as [[]|]; cbn; congruence.
Qed.
Theorem trace_frames ws base body st : populate ws base body = Ok st ->
  forall attr, Forall (fun e => ev_time e <> finf) (arr attr st) ->
  let rows := map (fun e => (ev_time e, ev_line e, ev_data e)) (arr attr st) in
  handle_frame f_arith default_max_delta rows = rows.
Proof.
  intros Hp attr Hf. cbv zeta. apply handle_frame_id; [exact flt_feq|].
  pose proof (events_sorted _ _ _ _ Hp attr) as Hs. induction Hs as [|e es Hs IH Hx]; cbn; constructor.
  - apply IH. now inversion Hf.
  - apply Forall_forall. intros r Hr. apply in_map_iff in Hr as (e' & <- & He'). cbn. rewrite Forall_forall in Hx.
    destruct (Hx _ He') as [_ [H|H]]; auto. now inversion Hf.
Qed.

Local Open Scope Qc_scope.
Definition qz (z : Z) : Qc := Q2Qc (inject_Z z).
Ltac sorted_qc := repeat (constructor; try (unfold Qcle; cbn; unfold Qle; cbn; lia)).
Theorem four_collide : exists max_delta arr, 0 < max_delta /\ StronglySorted Qcle arr /\
  (forall x, (count_occ Qc_eq_dec arr x <= 4)%nat) /\ ~ NoDup (handle_dups q_arith max_delta arr).
Proof.
  exists (qz 1000), [qz 12; qz 12; qz 12; qz 12; qz 24]. split; [reflexivity|]. split; [sorted_qc|]. split.
  - intros x. cbn [count_occ]. destruct (Qc_eq_dec (qz 12) x) as [<-|]; destruct (Qc_eq_dec (qz 24) _) as [E|]; try lia.
    discriminate.
  - assert (E : nth 3 (handle_dups q_arith (qz 1000) [qz 12; qz 12; qz 12; qz 12; qz 24]) 0 =
                nth 4 (handle_dups q_arith (qz 1000) [qz 12; qz 12; qz 12; qz 12; qz 24]) 0).
    { apply Qc_is_canon. vm_compute. reflexivity. }
    intros Hn. pose proof (proj1 (NoDup_nth _ 0) Hn 3%nat 4%nat) as H.
    assert (L : List.length (handle_dups q_arith (qz 1000) [qz 12; qz 12; qz 12; qz 12; qz 24]) = 5%nat) by (vm_compute; reflexivity).
    rewrite L in H. specialize (H ltac:(lia) ltac:(lia) E). discriminate.
Qed.
Theorem five_unsorted : exists max_delta arr, 0 < max_delta /\ StronglySorted Qcle arr /\
  (forall x, (count_occ Qc_eq_dec arr x <= 5)%nat) /\ ~ StronglySorted Qcle (handle_dups q_arith max_delta arr).
Proof.
  exists (qz 1000), [qz 12; qz 12; qz 12; qz 12; qz 12; qz 22]. split; [reflexivity|]. split; [sorted_qc|]. split.
  - intros x. cbn [count_occ]. destruct (Qc_eq_dec (qz 12) x) as [<-|]; destruct (Qc_eq_dec (qz 22) _) as [E|]; try lia.
    discriminate.
  - intros Hs.
    assert (K : forall l : list Qc, StronglySorted Qcle l -> forall i x y, nth_error l i = Some x -> nth_error l (S i) = Some y -> x <= y).
    { induction 1 as [|a l Hl IH Hf]; intros [|i] x y Hx Hy; try discriminate.
      - cbn in Hx, Hy. injection Hx as <-. destruct l; [discriminate|]. cbn in Hy. injection Hy as <-. now inversion Hf.
      - eapply IH; eauto. }
    specialize (K _ Hs 4%nat). set (l := handle_dups _ _ _) in *.
    destruct (nth_error l 4) as [x|] eqn:E1; [|vm_compute in E1; discriminate].
    destruct (nth_error l (S 4)) as [y|] eqn:E2; [|vm_compute in E2; discriminate].
    specialize (K x y eq_refl eq_refl).
    assert (X : option_map this (nth_error l 4) = Some 28%Q) by (vm_compute; reflexivity).
    assert (Y : option_map this (nth_error l 5) = Some 22%Q) by (vm_compute; reflexivity).
    rewrite E1 in X. rewrite E2 in Y. injection X as X. injection Y as Y. unfold Qcle in K. rewrite X, Y in K.
    vm_compute in K. now apply K.
Qed.
Theorem doubles_stay : exists arr : list F64.float,
  StronglySorted (fun x y => fle x y = true) arr /\ (List.length arr = 3)%nat /\
  handle_dups f_arith default_max_delta arr = arr /\
  exists x y, arr = [x; x; y] /\ flt x y = true.
Proof.
  exists [f_of_N 1; f_of_N 1; fnext (f_of_N 1)]. split.
  - repeat constructor; vm_compute; reflexivity.
  - split; [reflexivity|]. split; [|exists (f_of_N 1), (fnext (f_of_N 1)); split; [reflexivity|vm_compute; reflexivity]].
    assert (E : map B2SF (handle_dups f_arith default_max_delta [f_of_N 1; f_of_N 1; fnext (f_of_N 1)]) =
                map B2SF [f_of_N 1; f_of_N 1; fnext (f_of_N 1)]) by (vm_compute; reflexivity).
    revert E. generalize (handle_dups f_arith default_max_delta [f_of_N 1; f_of_N 1; fnext (f_of_N 1)]).
    generalize [f_of_N 1; f_of_N 1; fnext (f_of_N 1)].
    intros l1 l2. revert l1. induction l2 as [|a l2 IH]; intros [|b l1] E; try discriminate; auto.
    cbn in E. injection E as E1 E2. apply B2SF_inj in E1. f_equal; auto.
Qed.
