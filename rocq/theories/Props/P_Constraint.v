(** C41, C42, C59, C60: what a plot selects. *)
From Coq Require Import List Ascii String ZArith Bool Sorted Permutation Lia.
From Verif Require Import Lib.PyStr Lib.PyStrFacts Lib.TotalOrder Model.Stats Model.Accessor Spec.Accessor Model.Constraint Spec.Constraint
  Proofs.ConstraintP Proofs.ManagerP.
Import ListNotations.
Local Open Scope list_scope.

(** ** C41 *)
(** The result has, for exactly the pivot values that some wanted row has, the column
    of the wanted rows with that value; whatever the order of Python's set. *)
Theorem C41_series : forall T V (veq : V -> V -> bool) (dflt : V), (forall a b, veq a b = true <-> a = b) ->
  forall col p filters (f : gframe T V) order, In col (g_cols f) -> In p (g_cols f) -> NoDup (map fst filters) ->
  (forall v, In (Some v) order <-> is_pivot_val veq p filters f (Some v)) -> (forall r, In r (g_rows f) -> gcell p r <> Some dflt) ->
  forall v s, In (Some v, s) (apply_ veq dflt col (Some p) filters f order) <->
    Column (Mine p v filters (g_cols f)) col (g_rows f) s /\ s <> [].
Proof. exact @apply_series. Qed.
(** One series for a value, and none for a missing value. *)
Theorem C41_keys : forall T V (veq : V -> V -> bool) (dflt : V) col p filters (f : gframe T V) order, In col (g_cols f) -> NoDup (present order) ->
  NoDup (map fst (apply_ veq dflt col (Some p) filters f order)) /\ (forall s, ~ In (None, s) (apply_ veq dflt col (Some p) filters f order)).
Proof. exact @apply_keys. Qed.
(** Without a pivot: all wanted rows. *)
Theorem C41_default : forall T V (veq : V -> V -> bool) (dflt : V), (forall a b, veq a b = true <-> a = b) ->
  forall col filters (f : gframe T V) order s, In col (g_cols f) -> Column (Wanted filters (g_cols f)) col (g_rows f) s ->
  apply_ veq dflt col None filters f order = match s with [] => [] | _ => [(Some dflt, s)] end.
Proof. exact @apply_default. Qed.
Theorem C41_no_column : forall T V (veq : V -> V -> bool) (dflt : V) col pivot filters (f : gframe T V) order, ~ In col (g_cols f) ->
  apply_ veq dflt col pivot filters f order = [].
Proof. exact @apply_no_column. Qed.
Definition ex_row (t : nat) (cells : list (str * nat)) : nat * list (str * option nat) := (t, map (fun kc => (fst kc, Some (snd kc))) cells).
Definition ex_frame : gframe nat nat := GFrame [$"cpu"; $"load"; $"pid"]
  [ex_row 1 [($"cpu", 0); ($"load", 10); ($"pid", 7)]; ex_row 2 [($"cpu", 1); ($"load", 20); ($"pid", 7)];
   ex_row 3 [($"cpu", 0); ($"load", 30); ($"pid", 8)]; ex_row 4 [($"cpu", 0); ($"load", 40); ($"pid", 7)];
   (5, [($"load", Some 50); ($"pid", Some 7)])].
Example C41_ex : apply_ Nat.eqb 99 $"load" (Some $"cpu") [($"pid", [7]); ($"nosuch", [])] ex_frame [Some 1; None; Some 0] =
  [(Some 1, [(2, Some 20)]); (Some 0, [(1, Some 10); (4, Some 40)])] /\
  apply_ Nat.eqb 99 $"load" None [($"pid", [8])] ex_frame [] = [(Some 99, [(3, Some 30)])].
Proof. split; vm_compute; reflexivity. Qed.
Example C41_ex_hyps : (forall v, In (Some v) [Some 1; None; Some 0] <-> is_pivot_val Nat.eqb $"cpu" [($"pid", [7]); ($"nosuch", [])] ex_frame (Some v)) /\
  (forall r, In r (g_rows ex_frame) -> gcell $"cpu" r <> Some 99).
Proof.
  split.
  - intros v. unfold is_pivot_val. cbn. split.
    + intros [[= <-]|[[=]|[[= <-]|[]]]]; auto 10.
    + intros (_ & [[= <-]|[[= <-]|[[= <-]|[[= <-]|[[=]|[]]]]]] & _); auto.
  - intros r. cbn. intros [<-|[<-|[<-|[<-|[<-|[]]]]]]; discriminate.
Qed.
(** Findings: a row whose pivot value is missing is in no series; a pivot value equal
    to the one that stands for "no pivot" gets all rows. *)
Theorem C41_missing_refuted :
  (exists s, In (5, s) (g_rows ex_frame)) /\
  flat_map (fun vs => map fst (snd vs)) (apply_ Nat.eqb 99 $"load" (Some $"cpu") [] ex_frame [Some 1; None; Some 0]) = [2; 1; 3; 4].
Proof. split; [eexists; cbn; auto 10|vm_compute; reflexivity]. Qed.
Theorem C41_reserved_refuted : apply_ Nat.eqb 1 $"load" (Some $"cpu") [] ex_frame [Some 1] =
  [(Some 1, [(1, Some 10); (2, Some 20); (3, Some 30); (4, Some 40); (5, Some 50)])].
Proof. vm_compute. reflexivity. Qed.

(** ** C42 *)
Definition fit {A B C X} (traces : list A) (columns : list B) (templates : list C) (l : list X) : Prop :=
  List.length l = Nat.max (List.length traces) (Nat.max (List.length columns) (List.length templates)) \/ List.length l = 1.
Theorem C42_zip : forall A B C (traces : list A) (columns : list B) (templates : list C),
  fit traces columns templates traces -> fit traces columns templates columns -> fit traces columns templates templates ->
  let m := Nat.max (List.length traces) (Nat.max (List.length columns) (List.length templates)) in
  exists cs, zip_constraints traces columns templates = Ok cs /\ List.length cs = m /\
    forall i x y z k, nth_error cs i = Some (x, y, z, k) -> nth_or_only traces i x /\ nth_or_only columns i y /\ nth_or_only templates i z /\
      k = if Nat.eqb (List.length traces) m then i else 0.
Proof. exact @zip_ok. Qed.
(** Permuted: [m] times [m] constraints. *)
Theorem C42_permute : forall A B C (traces : list A) (columns : list B) (templates : list C),
  fit traces columns templates traces -> fit traces columns templates columns -> fit traces columns templates templates ->
  let m := Nat.max (List.length traces) (Nat.max (List.length columns) (List.length templates)) in
  exists cs, all_constraints traces columns templates = Ok cs /\ List.length cs = m * m /\
    forall i j, i < m -> j < m -> exists x y z, nth_error cs (i * m + j) = Some (x, y, z, i) /\
      nth_or_only traces i x /\ nth_or_only columns j y /\ nth_or_only templates i z.
Proof. exact @all_ok. Qed.
Theorem C42_pairs : forall A B C (traces : list A) (columns : list B) (templates : list C) cs, all_constraints traces columns templates = Ok cs ->
  forall x y, (exists z k, In (x, y, z, k) cs) <-> In x traces /\ In y columns.
Proof. exact @all_pairs. Qed.
Theorem C42_error : forall A B C (traces : list A) (columns : list B) (templates : list C),
  ~ (fit traces columns templates traces /\ fit traces columns templates columns /\ fit traces columns templates templates) ->
  zip_constraints traces columns templates = Err ERuntime /\ all_constraints traces columns templates = Err ERuntime.
Proof. intros A B C a b c H. split; [now apply zip_err|now apply all_err]. Qed.
Example C42_ex : zip_constraints [10; 20] [$"load"; $"util"] [true] =
    Ok [(10, $"load", true, 0); (20, $"util", true, 1)] /\
  zip_constraints [10] [$"load"; $"util"] [true] = Ok [(10, $"load", true, 0); (10, $"util", true, 0)] /\
  zip_constraints [10; 20; 30] [$"load"; $"util"] [true] = Err ERuntime /\ zip_constraints [10] [$"load"] (@nil bool) = Err ERuntime /\
  all_constraints [10; 20] [$"load"; $"util"] [true] =
    Ok [(10, $"load", true, 0); (10, $"util", true, 0); (20, $"load", true, 1); (20, $"util", true, 1)].
Proof. repeat split; vm_compute; reflexivity. Qed.
(** Finding: permuting one trace with two columns makes each constraint twice, the
    second time under a trace index that does not exist. *)
Theorem C42_twice_refuted : all_constraints [10] [$"load"; $"util"] [true] =
  Ok [(10, $"load", true, 0); (10, $"util", true, 0); (10, $"load", true, 1); (10, $"util", true, 1)].
Proof. vm_compute. reflexivity. Qed.

(** ** C59 *)
Theorem C59_window : forall T V (leb : T -> T -> bool), total_order leb -> forall a b (rows : list (T * list (str * option V))),
  StronglySorted (fun x y => leb x y = true) (map fst rows) -> (exists r, In r rows /\ leb (fst r) a = true) ->
  Only (In_window leb a b rows) rows (window_rows leb (Some (a, b)) rows).
Proof. exact @window_ok. Qed.
Example C59_ex : map fst (window_rows Nat.leb (Some (2, 3)) (g_rows ex_frame)) = [2; 3] /\
  map fst (window_rows Nat.leb (Some (2, 8)) (g_rows ex_frame)) = [2; 3; 4; 5] /\
  map fst (window_rows Nat.leb (Some (3, 6)) [ex_row 1 []; ex_row 2 []; ex_row 4 []; ex_row 5 []; ex_row 8 []; ex_row 9 []]) = [2; 4; 5; 8].
Proof. repeat split; vm_compute; reflexivity. Qed.
(** Finding: a window that starts before the first row selects nothing at all. *)
Theorem C59_early_refuted : forall T V (leb : T -> T -> bool), total_order leb -> forall a b (rows : list (T * list (str * option V))),
  StronglySorted (fun x y => leb x y = true) (map fst rows) -> (forall r, In r rows -> leb (fst r) a <> true) ->
  window_rows leb (Some (a, b)) rows = [].
Proof. exact @window_early. Qed.
Example C59_ex_early : window_rows Nat.leb (Some (0, 3)) (g_rows ex_frame) = [].
Proof. vm_compute. reflexivity. Qed.

(** ** C60 *)
(** The pivots: each once, by number if all are numbers, else by hexadecimal number,
    else by themselves. *)
Theorem C60_all : forall V as_int as_hex vleb (pset : list V), Permutation (sorted_pivots as_int as_hex vleb pset) pset.
Proof. exact @pivots_perm. Qed.
Theorem C60_int : forall V as_int as_hex vleb (pset : list V), (forall v, In v pset -> as_int v <> None) ->
  StronglySorted (fun a b => exists x y, as_int a = Some x /\ as_int b = Some y /\ (x <= y)%Z) (sorted_pivots as_int as_hex vleb pset).
Proof. exact @pivots_int. Qed.
Theorem C60_hex : forall V as_int as_hex vleb (pset : list V), (exists v, In v pset /\ as_int v = None) -> (forall v, In v pset -> as_hex v <> None) ->
  StronglySorted (fun a b => exists x y, as_hex a = Some x /\ as_hex b = Some y /\ (x <= y)%Z) (sorted_pivots as_int as_hex vleb pset).
Proof. exact @pivots_hex. Qed.
Theorem C60_plain : forall V as_int as_hex (vleb : V -> V -> bool) pset, total_order vleb -> (exists v, In v pset /\ as_int v = None) ->
  (exists v, In v pset /\ as_hex v = None) -> StronglySorted (fun a b => vleb a b = true) (sorted_pivots as_int as_hex vleb pset).
Proof. exact @pivots_plain. Qed.
Theorem C60_permute : forall V as_int as_hex vleb n (pset : list V),
  snd (permuted_pivots as_int as_hex vleb n pset) = List.length (fst (permuted_pivots as_int as_hex vleb n pset)) /\
  (forall i v, In (i, v) (fst (permuted_pivots as_int as_hex vleb n pset)) <-> i < n /\ In v pset).
Proof. exact @permuted. Qed.
Definition ex_int (n : nat) : option Z := if Nat.ltb n 100 then Some (Z.of_nat n) else None.
Definition ex_hex (n : nat) : option Z := if Nat.ltb n 1000 then Some (- Z.of_nat n)%Z else None.
Example C60_ex : sorted_pivots ex_int ex_hex Nat.leb [3; 1; 2] = [1; 2; 3] /\ sorted_pivots ex_int ex_hex Nat.leb [3; 100; 2] = [100; 3; 2] /\
  sorted_pivots ex_int ex_hex Nat.leb [3; 1000; 2] = [2; 3; 1000] /\
  permuted_pivots ex_int ex_hex Nat.leb 2 [3; 1] = ([(0, 1); (0, 3); (1, 1); (1, 3)], 4).
Proof. repeat split; vm_compute; reflexivity. Qed.

Print Assumptions C41_series.
Print Assumptions C41_keys.
Print Assumptions C41_default.
Print Assumptions C41_no_column.
Print Assumptions C42_zip.
Print Assumptions C42_permute.
Print Assumptions C42_pairs.
Print Assumptions C42_error.
Print Assumptions C59_window.
Print Assumptions C60_all.
Print Assumptions C60_int.
Print Assumptions C60_hex.
Print Assumptions C60_plain.
Print Assumptions C60_permute.
