(** C43, C61: the grid of plots and the axes of the series. *)
From Coq Require Import List Ascii String ZArith Bool.
From Verif Require Import Lib.PyStr Model.Layout Spec.Layout Proofs.LayoutP.
Import ListNotations.
Local Open Scope list_scope.
Local Open Scope Z_scope.

(** ** C43 *)
Theorem C43_grid : forall cols num, 1 <= cols -> 1 <= num -> exists l, mk_layout cols num = Ok l /\ l_num l = num /\
  l_cols l = Z.min cols num /\ 1 <= l_rows l /\ (l_rows l - 1) * l_cols l < num <= l_rows l * l_cols l.
Proof. exact mk_grid. Qed.
(** The [i]-th plot has the [i]-th cell, so that distinct plots have distinct cells. *)
Theorem C43_axis : forall cols num l, 1 <= cols -> 1 <= num -> mk_layout cols num = Ok l ->
  forall i, 0 <= i < num -> exists rc, get_axis l i = Ok rc /\ ith_cell (l_rows l) (l_cols l) i rc.
Proof.
  intros cols num l Hc Hn E i Hi. destruct (mk_grid cols num Hc Hn) as (l' & E' & H1 & H2 & H3 & H4). assert (l' = l) by congruence. subst l'.
  apply axis_ok; [exact (mk_good _ _ _ Hc Hn E)|]. destruct H4, Hi. split; [assumption|]. eapply Z.lt_le_trans; eassumption.
Qed.
Theorem C43_distinct : forall cols num l, 1 <= cols -> 1 <= num -> mk_layout cols num = Ok l ->
  forall i j rc, 0 <= i < num -> 0 <= j < num -> get_axis l i = Ok rc -> get_axis l j = Ok rc -> i = j.
Proof.
  intros cols num l Hc Hn E i j rc Hi Hj Ei Ej. destruct (C43_axis cols num l Hc Hn E i Hi) as (r1 & F1 & G1).
  destruct (C43_axis cols num l Hc Hn E j Hj) as (r2 & F2 & G2). assert (r1 = rc) by congruence. assert (r2 = rc) by congruence. subst.
  exact (ith_inj _ _ _ _ _ G1 G2).
Qed.
(** After [n] plots exactly the other cells are deleted, each once. *)
Theorem C43_finish : forall cols num l, 1 <= cols -> 1 <= num -> mk_layout cols num = Ok l ->
  forall n, 1 <= n <= l_rows l * l_cols l -> exists cells, finish l n = Ok cells /\ NoDup cells /\
    forall rc, In rc cells <-> exists j, n <= j < l_rows l * l_cols l /\ ith_cell (l_rows l) (l_cols l) j rc.
Proof. intros cols num l Hc Hn E n H. apply finish_ok; [exact (mk_good _ _ _ Hc Hn E)|exact H]. Qed.
Theorem C43_none : forall cols, mk_layout cols 0 = Err ERuntime.
Proof. exact mk_none. Qed.
Example C43_ex : mk_layout 2 5 = Ok (Layout 3 2 5) /\ mk_layout 4 3 = Ok (Layout 1 3 3) /\ mk_layout 1 3 = Ok (Layout 3 1 3) /\ mk_layout 7 1 = Ok (Layout 1 1 1) /\
  get_axis (Layout 3 2 5) 3 = Ok (1, 1) /\ get_axis (Layout 1 3 3) 2 = Ok (0, 2) /\ get_axis (Layout 3 1 3) 2 = Ok (2, 0) /\
  finish (Layout 3 2 5) 5 = Ok [(2, 1)] /\ finish (Layout 3 2 5) 3 = Ok [(1, 1); (2, 0); (2, 1)] /\ finish (Layout 1 1 1) 1 = Ok [].
Proof. repeat split; vm_compute; reflexivity. Qed.
(** Not for other numbers of columns. *)
Example C43_ex_cols : mk_layout 0 3 = Err EZeroDiv /\ mk_layout (-1) 3 = Err EValue.
Proof. split; vm_compute; reflexivity. Qed.

(** ** C61 *)
(** No more series than pivots: one axis for each series, in order. *)
Theorem C61_series : forall P (peq : P -> P -> bool) per_line (cs : list (con P)) (pivots : list P), 1 <= per_line -> pivots <> [] ->
  Z.of_nat (List.length (cp_pairs peq cs pivots)) <= Z.of_nat (List.length pivots) -> exists l out, mk_layout per_line (Z.of_nat (List.length pivots)) = Ok l /\
  resolve peq false per_line cs pivots = Ok out /\ map fst out = cp_pairs peq cs pivots /\
  forall i c p a, nth_error out i = Some (c, p, a) -> ith_cell (l_rows l) (l_cols l) (Z.of_nat i) a.
Proof. exact @resolve_ok. Qed.
(** One row or one column, every constraint with every pivot: the axis of a series is
    that of its pivot. *)
Theorem C61_line : forall P (peq : P -> P -> bool) per_line (cs : list (con P)) (pivots : list P), 1 <= per_line -> pivots <> [] ->
  (forall a b, peq a b = true <-> a = b) ->
  forall l, mk_layout per_line (Z.of_nat (List.length pivots)) = Ok l -> l_rows l = 1 \/ l_cols l = 1 ->
  (forall c, In c cs -> forall p, In p pivots -> In p (c_keys c)) -> exists out, resolve peq false per_line cs pivots = Ok out /\
  map fst out = flat_map (fun c => map (fun p => (c, p)) pivots) cs /\
  forall c p a, In (c, p, a) out -> exists k, nth_error pivots k = Some p /\ ith_cell (l_rows l) (l_cols l) (Z.of_nat k) a.
Proof. exact @resolve_line. Qed.
(** Concatenated: the axis of a series is that of its trace. *)
Theorem C61_concat : forall P (peq : P -> P -> bool) per_line (cs : list (con P)) pivots, 1 <= per_line -> cs <> [] ->
  (forall c, In c cs -> (c_trace c < List.length cs)%nat) -> exists l out, mk_layout per_line (Z.of_nat (List.length cs)) = Ok l /\
  resolve peq true per_line cs pivots = Ok out /\ map fst out = cp_pairs peq cs pivots /\
  forall c p a, In (c, p, a) out -> ith_cell (l_rows l) (l_cols l) (Z.of_nat (c_trace c)) a.
Proof. exact @resolve_concat. Qed.
Example C61_ex : resolve Nat.eqb false 2 [Con 0%nat [1; 2]%nat; Con 1%nat [1; 2]%nat] [1; 2]%nat =
    Ok [(Con 0%nat [1; 2]%nat, 1%nat, (0, 0)); (Con 0%nat [1; 2]%nat, 2%nat, (0, 1)); (Con 1%nat [1; 2]%nat, 1%nat, (0, 0)); (Con 1%nat [1; 2]%nat, 2%nat, (0, 1))] /\
  resolve Nat.eqb true 2 [Con 0%nat [1; 2]%nat; Con 1%nat [1]%nat] [1; 2]%nat =
    Ok [(Con 0%nat [1; 2]%nat, 1%nat, (0, 0)); (Con 0%nat [1; 2]%nat, 2%nat, (0, 0)); (Con 1%nat [1]%nat, 1%nat, (0, 1))].
Proof. split; vm_compute; reflexivity. Qed.
(** Findings.  A grid of several rows and columns with more series than cells is an error:
    two traces with the same four pivots cannot be drawn two per line. *)
Theorem C61_grid_refuted : forall P (peq : P -> P -> bool) per_line (cs : list (con P)) (pivots : list P), 1 <= per_line -> pivots <> [] ->
  forall l, mk_layout per_line (Z.of_nat (List.length pivots)) = Ok l -> 1 < l_rows l -> 1 < l_cols l ->
  l_rows l * l_cols l < Z.of_nat (List.length (cp_pairs peq cs pivots)) -> resolve peq false per_line cs pivots = Err EIndex.
Proof. exact @resolve_err. Qed.
Example C61_ex_grid : resolve Nat.eqb false 2 [Con 0%nat [0; 1; 2; 3]%nat; Con 1%nat [0; 1; 2; 3]%nat] [0; 1; 2; 3]%nat = Err EIndex.
Proof. vm_compute. reflexivity. Qed.
(** A constraint that lacks a pivot shifts the rest: both pivots come to share an axis. *)
Theorem C61_shift_refuted : resolve Nat.eqb false 2 [Con 0%nat [1]%nat; Con 1%nat [1; 2]%nat] [1; 2]%nat =
  Ok [(Con 0%nat [1]%nat, 1%nat, (0, 0)); (Con 1%nat [1; 2]%nat, 1%nat, (0, 1)); (Con 1%nat [1; 2]%nat, 2%nat, (0, 0))].
Proof. vm_compute. reflexivity. Qed.
(** Concatenated, two columns of one trace share the first axis and the second is empty. *)
Theorem C61_concat_refuted : resolve Nat.eqb true 2 [Con 0%nat [1]%nat; Con 0%nat [1]%nat] [1]%nat =
  Ok [(Con 0%nat [1]%nat, 1%nat, (0, 0)); (Con 0%nat [1]%nat, 1%nat, (0, 0))] /\ mk_layout 2 2 = Ok (Layout 1 2 2) /\ finish (Layout 1 2 2) 2 = Ok [].
Proof. repeat split; vm_compute; reflexivity. Qed.

Print Assumptions C43_grid.
Print Assumptions C43_axis.
Print Assumptions C43_distinct.
Print Assumptions C43_finish.
Print Assumptions C61_series.
Print Assumptions C61_line.
Print Assumptions C61_concat.
Print Assumptions C61_grid_refuted.
