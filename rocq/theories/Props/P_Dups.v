(** Property C13: [handle_duplicate_index] (trappy/utils.py). *)
From Coq Require Import List Ascii String Arith ZArith Bool QArith Qcanon Sorted Permutation.
From Verif Require Import Lib.PyStr Lib.F64 Model.Base Model.Line Model.Registry Model.Populate Model.Dups
  Spec.Groups Spec.Trace Proofs.DupsP Proofs.DupsF.
Import ListNotations.
Local Open Scope Qc_scope.

Definition q (z : Z) : Qc := Q2Qc (inject_Z z).

(** An index without repetitions is returned as it is, in any arithmetic. *)
Theorem C13_unique : forall (T : Type) (A : arith T) max_delta arr,
  ForallOrdPairs (fun x y => a_eq A y x = false) arr -> handle_dups A max_delta arr = arr.
Proof. exact (fun T A => handle_unique A). Qed.
(** In particular the frames built by the parse loop (finite times) keep their
    order, their times and their rows. *)
Theorem C13_trace_frames : forall ws base body st, populate ws base body = Ok st ->
  forall attr, Forall (fun e => ev_time e <> finf) (arr attr st) ->
  let rows := map (fun e => (ev_time e, ev_line e, ev_data e)) (arr attr st) in
  handle_frame f_arith (f_of_ratio 1 1000000) rows = rows.
Proof. exact trace_frames. Qed.
(** Exact arithmetic.  A sorted index in which every value but the largest
    occurs at most three times becomes strictly increasing; no row is lost and
    first occurrences stay where they were. *)
Theorem C13_small_groups : forall max_delta arr, 0 < max_delta -> StronglySorted Qcle arr ->
  (forall x y, In x arr -> In y arr -> x < y -> (count_occ Qc_eq_dec arr x <= 3)%nat) ->
  let out := handle_dups q_arith max_delta arr in
  StronglySorted Qclt out /\ List.length out = List.length arr /\
  (forall i x, nth_error arr i = Some x -> (forall j, (j < i)%nat -> nth_error arr j <> Some x) ->
     nth_error out i = Some x).
Proof. exact handle_strict. Qed.
(** More generally, when the doubling offsets [d, 2d, 4d ...] of every group stay
    before the next group, the result is exactly that spread. *)
Theorem C13_groups : forall max_delta gs, increasing gs -> fits max_delta gs ->
  handle_dups q_arith max_delta (flat gs) = spread_all max_delta gs.
Proof. exact handle_groups. Qed.
(** Rows with line numbers are first put in (time, line) order; none is lost. *)
Theorem C13_sort : forall (R : Type) (rows : list (Qc * Z * R)),
  Permutation (sort_rows q_arith rows) rows /\
  StronglySorted (fun a b => fst (fst a) < fst (fst b) \/
    (fst (fst a) = fst (fst b) /\ (snd (fst a) <= snd (fst b))%Z)) (sort_rows q_arith rows).
Proof. exact (fun R rows => conj (sort_perm q_arith rows) (sort_rows_sorted rows)). Qed.

(** Four equal times can collide with the next one, five can overtake it. *)
Theorem C13_four_refuted : exists max_delta arr, 0 < max_delta /\ StronglySorted Qcle arr /\
  (forall x, (count_occ Qc_eq_dec arr x <= 4)%nat) /\ ~ NoDup (handle_dups q_arith max_delta arr).
Proof. exact four_collide. Qed.
Theorem C13_five_refuted : exists max_delta arr, 0 < max_delta /\ StronglySorted Qcle arr /\
  (forall x, (count_occ Qc_eq_dec arr x <= 5)%nat) /\ ~ StronglySorted Qcle (handle_dups q_arith max_delta arr).
Proof. exact five_unsorted. Qed.
(** In double arithmetic two equal times can stay equal: the next double is too
    close for the half-way point to be representable. *)
Theorem C13_doubles_refuted : exists arr : list float,
  StronglySorted (fun x y => fle x y = true) arr /\ (List.length arr = 3)%nat /\
  handle_dups f_arith (f_of_ratio 1 1000000) arr = arr /\
  exists x y, arr = [x; x; y] /\ flt x y = true.
Proof. exact doubles_stay. Qed.

(** trappy/utils.py:60-68: the documented example. *)
Example C13_ex : map this (handle_dups q_arith (Q2Qc (1 # 1000000)) [q 0; q 1; q 1; q 6; q 7]) =
  [0%Q; 1%Q; 1000001 # 1000000; 6%Q; 7%Q].
Proof. vm_compute. reflexivity. Qed.
Example C13_ex_spread : map this (handle_dups q_arith (q 100) [q 0; q 0; q 0; q 12; q 12]) = [0%Q; 4%Q; 8%Q; 12%Q; 112%Q].
Proof. vm_compute. reflexivity. Qed.
Example C13_ex_fits : increasing [(q 0, 3%nat); (q 12, 2%nat)] /\ fits (q 100) [(q 0, 3%nat); (q 12, 2%nat)] /\
  flat [(q 0, 3%nat); (q 12, 2%nat)] = [q 0; q 0; q 0; q 12; q 12].
Proof. repeat split; repeat constructor. Qed.
Example C13_ex_sort : map snd (sort_rows q_arith [(q 5, 3%Z, 1%nat); (q 1, 9%Z, 2%nat); (q 5, 2%Z, 3%nat)]) = [2%nat; 3%nat; 1%nat].
Proof. vm_compute. reflexivity. Qed.

Print Assumptions C13_unique.
Print Assumptions C13_trace_frames.
Print Assumptions C13_small_groups.
Print Assumptions C13_groups.
Print Assumptions C13_sort.
Print Assumptions C13_four_refuted.
Print Assumptions C13_five_refuted.
Print Assumptions C13_doubles_refuted.
