(** C34-C38, C56, C57: the statistics framework. *)
From Coq Require Import List Ascii String ZArith QArith Bool Sorted Permutation Lia.
From Verif Require Import Lib.PyStr Lib.PyStrFacts Lib.TotalOrder Lib.F64 Model.Base Model.Topology Model.Stats
  Spec.Topology Spec.Stats Proofs.TopologyP Proofs.StatsP Proofs.StatsErrP Proofs.AlignP.
Import ListNotations.
Local Open Scope list_scope.

(** ** C34: topologies *)
Theorem C34_level : forall {A : Type} (aeq : A -> A -> bool) (enum : list A -> list A),
  (forall a b, aeq a b = true <-> a = b) -> enumerates enum ->
  forall clusters, exists singles, singles_of clusters singles /\ forall calls name gs, name <> $"all" ->
  Groups name (initial clusters singles ++ calls) gs ->
  get_level enum (built aeq enum clusters calls) name = match gs with Some g => Ok g | None => Err EKey end /\
  level_span (built aeq enum clusters calls) name = match gs with Some g => Ok (List.length g) | None => Err EKey end /\
  has_level (built aeq enum clusters calls) name = match gs with Some _ => true | None => false end.
Proof. exact @levels_spec. Qed.
Theorem C34_groups_total : forall {A : Type} (name : str) (calls : list (str * list (list A))), exists gs, Groups name calls gs.
Proof. exact @groups_total. Qed.
Theorem C34_all : forall {A : Type} (aeq : A -> A -> bool) (enum : list A -> list A),
  (forall a b, aeq a b = true <-> a = b) -> enumerates enum -> forall clusters calls,
  get_level enum (built aeq enum clusters calls) $"all" = Ok [flatten enum (built aeq enum clusters calls)] /\
  NoDup (flatten enum (built aeq enum clusters calls)) /\
  (forall a, In a (flatten enum (built aeq enum clusters calls)) <-> exists g, In a g /\ (In g clusters \/ exists c, In c calls /\ In g (snd c))) /\
  level_span (built aeq enum clusters calls) $"all" = Ok (List.length (flatten enum (built aeq enum clusters calls))).
Proof. exact @all_spec. Qed.
(** Positions count from the start, negative ones from the end; an unknown level fails as in [get_level]. *)
Theorem C34_node : forall {A : Type} (enum : list A -> list A) (t : @topology A) name i,
  get_node enum t name i =
  match get_level enum t name with
  | Err e => Err e
  | Ok gs =>
    match (if (i <? 0)%Z then nth_error (rev gs) (Z.to_nat (- i - 1)) else nth_error gs (Z.to_nat i)) with
    | Some g => Ok g
    | None => Err EIndex
    end
  end.
Proof. exact @node_all. Qed.
Theorem C34_index : forall {A : Type} (aeq : A -> A -> bool) (enum : list A -> list A),
  (forall a b, aeq a b = true <-> a = b) -> forall (t : @topology A) name g i,
  get_index aeq enum t name g = Ok i <->
  (0 <= i)%Z /\ get_node enum t name i = Ok g /\ forall j, (0 <= j < i)%Z -> get_node enum t name j <> Ok g.
Proof. exact @index_spec. Qed.
Theorem C34_index_found : forall {A : Type} (aeq : A -> A -> bool) (enum : list A -> list A),
  (forall a b, aeq a b = true <-> a = b) -> forall (t : @topology A) name gs g,
  get_level enum t name = Ok gs -> (In g gs <-> exists i, get_index aeq enum t name g = Ok i).
Proof. exact @index_found. Qed.
Theorem C34_index_error : forall {A : Type} (aeq : A -> A -> bool) (enum : list A -> list A),
  (forall a b, aeq a b = true <-> a = b) -> forall (t : @topology A) name gs g,
  get_level enum t name = Ok gs -> ~ In g gs -> get_index aeq enum t name g = Err EValue.
Proof. exact @index_error. Qed.
Definition ex_topo := built Z.eqb (@rev Z) [[0; 3]; [1; 2]]%Z [($"big", [[1; 2]]%Z); ($"big", [[4]]%Z); ($"all", [[9]]%Z)].
Lemma ex_enum : enumerates (@rev Z).
Proof. intros l _. apply Permutation_sym, Permutation_rev. Qed.
Example C34_ex :
  enumerates (@rev Z) /\
  get_level (@rev Z) ex_topo $"cluster" = Ok [[0; 3]; [1; 2]]%Z /\
  get_level (@rev Z) ex_topo $"cpu" = Ok [[2]; [1]; [3]; [0]]%Z /\
  get_level (@rev Z) ex_topo $"big" = Ok [[1; 2]; [4]]%Z /\
  get_index Z.eqb (@rev Z) ex_topo $"big" [4]%Z = Ok 1%Z /\ get_index Z.eqb (@rev Z) ex_topo $"big" [5]%Z = Err EValue /\
  get_node (@rev Z) ex_topo $"big" (-1) = Ok [4]%Z.
Proof. split; [exact ex_enum|]. repeat split; vm_compute; reflexivity. Qed.
(** The span of "all" is the number of nodes although it has one group; a level
    named "all" can be added but never read. *)
Example C34_all_span_ex :
  level_span ex_topo $"all" = Ok 6%nat /\ get_level (@rev Z) ex_topo $"all" = Ok [[9; 4; 2; 1; 3; 0]]%Z /\
  has_level ex_topo $"all" = true /\ has_level (built Z.eqb (@rev Z) [[0]]%Z []) $"all" = false.
Proof. repeat split; vm_compute; reflexivity. Qed.
Theorem C34_all_span_refuted : ~ (forall topo level n groups,
  level_span topo level = Ok n -> get_level (@rev Z) topo level = Ok groups -> n = List.length groups).
Proof. intros H. specialize (H ex_topo $"all" 6%nat _ eq_refl eq_refl). discriminate. Qed.

(** ** C35: triggers *)
Theorem C35_rows : forall {T V : Type} (g : trigger T V) node v,
  g_value g = VNum v -> In (g_pivot g) (f_cols (g_frame g)) -> functions_ok (f_cols (g_frame g)) (g_filters g) ->
  exists sel, generate g node = Ok (RSeries (map (fun r => (fst r, v)) sel)) /\
    Picked (fires (f_cols (g_frame g)) (g_pivot g) node (g_filters g)) (f_rows (g_frame g)) sel.
Proof. exact @generate_rows. Qed.
Theorem C35_list : forall {T V : Type} (g : trigger T V) node v k vs a b,
  g_value g = VNum v -> In (g_pivot g) (f_cols (g_frame g)) -> functions_ok (f_cols (g_frame g)) (g_filters g) ->
  In (k, FVals vs) (g_filters g) -> In k (f_cols (g_frame g)) -> In a vs -> In b vs -> a <> b ->
  generate g node = Ok (RSeries []).
Proof. exact @generate_list. Qed.
Theorem C35_no_pivot : forall {T V : Type} (g : trigger T V) node,
  ~ In (g_pivot g) (f_cols (g_frame g)) -> generate g node = Err EKey.
Proof. exact @generate_no_pivot. Qed.
Theorem C35_no_column : forall {T V : Type} (g : trigger T V) node k p,
  In (k, FFun p) (g_filters g) -> ~ In k (f_cols (g_frame g)) -> generate g node = Err EKey.
Proof. exact @generate_no_column. Qed.
(** A column name given as the value has no influence, and fails without filters. *)
Theorem C35_name_ignored : forall {T V : Type} fr fs pivot node s s',
  @generate T V (Trig fr fs (VName s) pivot) node = generate (Trig fr fs (VName s') pivot) node.
Proof. intros T V fr fs pivot. exact (generate_name_ignored (Trig fr fs (VName []) pivot)). Qed.
Theorem C35_name_unbound : forall {T V : Type} fr pivot node s, In pivot (f_cols fr) ->
  @generate T V (Trig fr [] (VName s) pivot) node = Err EName.
Proof. intros T V fr pivot node s. exact (generate_name_unbound (Trig fr [] (VName s) pivot) node s eq_refl). Qed.
Definition ex_frame : eframe Z := EFrame [$"cpu"; $"pid"; $"comm"]
  [(10, [($"cpu", CInt 0); ($"pid", CInt 7); ($"comm", CStr $"a")]); (20, [($"cpu", CInt 1); ($"pid", CInt 7); ($"comm", CStr $"a")]);
   (30, [($"cpu", CInt 0); ($"pid", CInt 8); ($"comm", CNone)]); (40, [($"cpu", CInt 0); ($"pid", CInt 7); ($"comm", CStr $"b")])]%Z.
Definition ex_trig fs : trigger Z Z := Trig ex_frame fs (VNum 1%Z) $"cpu".
Definition is7 (c : cell) : bool := ceq c (CInt 7).
Example C35_ex :
  functions_ok (f_cols ex_frame) [($"pid", FFun is7)] /\
  generate (ex_trig [($"pid", FFun is7)]) (CInt 0) = Ok (RSeries [(10, 1); (40, 1)]%Z) /\
  generate (ex_trig [($"pid", FVal (CInt 7)); ($"comm", FVal (CStr $"b")); ($"nope", FVal (CInt 3))]) (CInt 0) = Ok (RSeries [(40, 1)]%Z) /\
  generate (ex_trig [($"pid", FVals [CInt 7; CInt 8])]) (CInt 0) = Ok (RSeries []) /\
  generate (ex_trig [($"nope", FFun is7)]) (CInt 0) = Err EKey /\
  @generate Z Z (Trig ex_frame [($"pid", FFun is7)] (VNum 1%Z) $"nope") (CInt 0) = Err EKey.
Proof.
  split; [intros k p [[= <- <-]|[]]; cbn; auto|]. repeat split; vm_compute; reflexivity.
Qed.
(** Asking for the pids of the events named "a" gives an error instead. *)
Example C35_column_ex :
  @generate Z Z (Trig ex_frame [($"comm", FVal (CStr $"a"))] (VName $"pid") $"cpu") (CInt 0) = Err EKey /\
  @generate Z Z (Trig ex_frame [($"comm", FVal (CStr $"a")); ($"nope", FVal (CStr $"comm"))] (VName $"pid") $"cpu") (CInt 0) =
    Ok (RColumn [(10%Z, CStr $"a")]).
Proof. split; vm_compute; reflexivity. Qed.
Theorem C35_column_refuted : ~ (forall (g : trigger Z Z) node column,
  g_value g = VName column -> In column (f_cols (g_frame g)) -> In (g_pivot g) (f_cols (g_frame g)) -> functions_ok (f_cols (g_frame g)) (g_filters g) ->
  exists sel, generate g node = Ok (RColumn (map (fun r => (fst r, match dget eqs column (snd r) with Some v => v | None => CNone end)) sel)) /\
    Picked (fires (f_cols (g_frame g)) (g_pivot g) node (g_filters g)) (f_rows (g_frame g)) sel).
Proof.
  intros H. destruct (H (Trig ex_frame [($"comm", FVal (CStr $"a"))] (VName $"pid") $"cpu") (CInt 0) $"pid") as (sel & E & _);
    [reflexivity|cbn; tauto|cbn; tauto|intros k p [E|[]]; discriminate|]. vm_compute in E. discriminate.
Qed.

(** ** C36: aggregation *)
Theorem C36_stored : forall {T : Type} (leb : T -> T -> bool), total_order leb ->
  forall {N V : Type} (neq : N -> N -> bool) (zero : V), (forall a b, neq a b = true <-> a = b) ->
  forall idx (sers : list (N -> list (T * V))) trigs nodes, NoDup idx -> NoDup nodes -> trigs <> [] ->
  Forall2 (fun g s => forall n, In n nodes -> g n = Ok (s n)) trigs sers ->
  (forall s n, In s sers -> In n nodes -> NoDup (map fst (s n)) /\ forall t, In t (map fst (s n)) -> In t idx) ->
  exists result, aggregate_base leb neq idx zero trigs nodes [] = Ok result /\
    forall n, In n nodes -> exists r, dget neq n result = Some r /\ map fst r = idx /\
      forall t v, In (t, v) r -> LastFired zero t (map (fun s => s n) sers) v.
Proof. exact @base_last. Qed.
(** With an aggregation function: the sums of the groups, and nothing is changed. *)
Theorem C36_fun : forall {N S R : Type} (neq : N -> N -> bool) (f : S -> R) add st (val : N -> S) groups,
  (forall g, In g groups -> g <> []) -> (forall g m, In g groups -> In m g -> dget neq m st = Some (val m)) ->
  exists rs, aggregate_fun neq f add groups st = (Ok rs, st) /\
    Forall2 (fun g r => exists n rest, g = n :: rest /\ r = fold_left add (map (fun m => f (val m)) rest) (f (val n))) groups rs.
Proof. exact @aggregate_fun_ok. Qed.
(** It fails at the first group that is empty or has a node nothing is stored for. *)
Theorem C36_fails : forall {N S R : Type} (neq : N -> N -> bool) (f : S -> R) add st groups e,
  fst (aggregate_fun neq f add groups st) = Err e ->
  exists a g b, groups = a ++ g :: b /\ (forall g', In g' a -> g' <> [] /\ forall m, In m g' -> dget neq m st <> None) /\
    (g = [] /\ e = EIndex \/ (exists m, In m g /\ dget neq m st = None) /\ e = EKey).
Proof. exact (fun N S R neq f add st => @aggregate_fails N S R neq f add st). Qed.
Example C36_fails_ex : fst (aggregate_fun Z.eqb (fun x : Z => x) Z.add [[1]; []; [7]]%Z [(1, 5)]%Z) = Err EIndex /\
  fst (aggregate_fun Z.eqb (fun x : Z => x) Z.add [[1]; [1; 7]; []]%Z [(1, 5)]%Z) = Err EKey.
Proof. split; reflexivity. Qed.
(** Without one: every call adds the other nodes of the group to the first once more. *)
Theorem C36_none : forall {N S : Type} (neq : N -> N -> bool), (forall a b, neq a b = true <-> a = b) ->
  forall (add : S -> S -> S) groups st (val : N -> S) k, (forall g, In g groups -> g <> []) -> NoDup (List.concat groups) ->
  (forall m, In m (List.concat groups) -> dget neq m st = Some (val m)) ->
  fst (aggregate_none neq add groups (calls_none neq add groups k st)) = Ok (List.concat (map (firstn 1) groups)) /\
  (forall n rest, In (n :: rest) groups ->
     dget neq n (calls_none neq add groups k st) = Some (fold_left add (List.concat (repeat (map val rest) k)) (val n)) /\
     forall m, In m rest -> dget neq m (calls_none neq add groups k st) = Some (val m)).
Proof. exact @calls_ok. Qed.
Definition ex_ser1 (n : Z) : list (Z * Z) := if (n =? 0)%Z then [(10, 1); (30, 1)]%Z else [(20, 1)]%Z.
Definition ex_ser2 (n : Z) : list (Z * Z) := if (n =? 0)%Z then [(30, -1)]%Z else [].
Example C36_ex_stored :
  (forall s n, In s [ex_ser1; ex_ser2] -> In n [0; 1]%Z -> NoDup (map fst (s n)) /\ forall t, In t (map fst (s n)) -> In t [10; 20; 30]%Z) /\
  aggregate_base Z.leb Z.eqb [10; 20; 30]%Z 0%Z [fun n => Ok (ex_ser1 n); fun n => Ok (ex_ser2 n)] [0; 1]%Z [] =
    Ok [(0, [(10, 1); (20, 0); (30, -1)]); (1, [(10, 0); (20, 1); (30, 0)])]%Z.
Proof.
  split; [|vm_compute; reflexivity]. intros s n [<-|[<-|[]]] [<-|[<-|[]]]; cbn; (split; [repeat constructor; cbn; intuition discriminate|intuition]).
Qed.
Definition ex_st : list (Z * Z) := [(0, 1); (1, 20); (2, 300); (3, 4000)]%Z.
Example C36_ex :
  aggregate_fun Z.eqb (fun x => 2 * x)%Z Z.add [[0; 1]; [2; 3]]%Z ex_st = (Ok [42; 8600]%Z, ex_st).
Proof. vm_compute. reflexivity. Qed.
(** The same call twice gives two different sums. *)
Example C36_repeat_ex :
  let after k := calls_none Z.eqb Z.add [[0; 1]; [2; 3]]%Z k ex_st in
  fst (aggregate_none Z.eqb Z.add [[0; 1]; [2; 3]]%Z ex_st) = Ok [0; 2]%Z /\
  dget Z.eqb 0%Z (after 1%nat) = Some 21%Z /\ dget Z.eqb 0%Z (after 2%nat) = Some 41%Z /\ dget Z.eqb 2%Z (after 2%nat) = Some 8300%Z.
Proof. repeat split; vm_compute; reflexivity. Qed.

Theorem C36_repeat_refuted : ~ (forall groups (st st' : list (Z * Z)) g, aggregate_none Z.eqb Z.add groups st = (Ok g, st') ->
  forall n, dget Z.eqb n (snd (aggregate_none Z.eqb Z.add groups st')) = dget Z.eqb n st').
Proof.
  intros H. specialize (H [[0; 1]; [2; 3]]%Z ex_st (snd (aggregate_none Z.eqb Z.add [[0; 1]; [2; 3]]%Z ex_st)) [0; 2]%Z eq_refl 0%Z).
  vm_compute in H. discriminate.
Qed.

(** ** C37: indexes *)
Theorem C37_unify : forall {T : Type} (leb : T -> T -> bool), total_order leb -> forall l,
  StronglySorted (lt leb) (unify leb l) /\ forall x, In x (unify leb l) <-> exists i, In i l /\ In x i.
Proof. exact @unify_ok. Qed.
Theorem C37_unified : forall {T : Type} (leb : T -> T -> bool), total_order leb -> forall l,
  l <> [] -> Forall (StronglySorted (lt leb)) l ->
  exists u, unified_indexer leb l = Ok u /\ StronglySorted (lt leb) u /\ forall x, In x u <-> exists i, In i l /\ In x i.
Proof. exact @unified_ok. Qed.
Theorem C37_fails : forall {T : Type} (leb : T -> T -> bool) l e, unified_indexer leb l = Err e <-> l = [] /\ e = EIndex.
Proof. exact @unified_fails. Qed.
Example C37_ex :
  unify Z.leb [[3; 1; 3]; []; [2; 1]]%Z = [1; 2; 3]%Z /\ unified_indexer Z.leb [[1; 3]; [2; 3; 4]]%Z = Ok [1; 2; 3; 4]%Z /\
  Forall (StronglySorted (lt Z.leb)) [[1; 3]; [2; 3; 4]]%Z.
Proof. split; [|split]; [vm_compute; reflexivity..|]. repeat constructor. Qed.

(** ** C38: alignment *)
Theorem C38_front : forall {V : Type} (nonzero : V -> bool) x y p q, first_nz nonzero x p -> first_nz nonzero y q ->
  exists x' y', align nonzero Front x y = (x', y', (Z.of_nat p - Z.of_nat q)%Z) /\
    Moved (Nat.max p q - p) x x' /\ Moved (Nat.max p q - q) y y'.
Proof. exact @align_front. Qed.
Theorem C38_back : forall {V : Type} (nonzero : V -> bool) x y p q, last_nz nonzero x p -> last_nz nonzero y q ->
  exists x' y', align nonzero Back x y = (x', y', (Z.of_nat p - Z.of_nat q)%Z) /\
    Moved (Nat.max p q - p) x x' /\ Moved (Nat.max p q - q) y y'.
Proof. exact @align_back. Qed.
(** So, for equally long series, the first non-zero samples meet with nothing but
    zeros and missing values before them, the last ones with nothing else after. *)
Theorem C38_front_meet : forall {V : Type} (nonzero : V -> bool) x y p q, List.length x = List.length y ->
  first_nz nonzero x p -> first_nz nonzero y q ->
  exists x' y' s d, align nonzero Front x y = (x', y', s) /\ List.length x' = List.length x /\ List.length y' = List.length y /\
    nth_error x' d = nth_error x p /\ nth_error y' d = nth_error y q /\
    forall i, (i < d)%nat -> (zero_at nonzero x' i \/ nth_error x' i = Some None) /\ (zero_at nonzero y' i \/ nth_error y' i = Some None).
Proof. exact @front_meet. Qed.
Theorem C38_back_meet : forall {V : Type} (nonzero : V -> bool) x y p q, List.length x = List.length y ->
  last_nz nonzero x p -> last_nz nonzero y q ->
  exists x' y' s d, align nonzero Back x y = (x', y', s) /\ List.length x' = List.length x /\ List.length y' = List.length y /\
    nth_error x' d = nth_error x p /\ nth_error y' d = nth_error y q /\
    forall i, (d < i < List.length x)%nat -> zero_at nonzero x' i /\ zero_at nonzero y' i.
Proof. exact @back_meet. Qed.
Theorem C38_zero : forall {V : Type} (nonzero : V -> bool) m x y,
  (forall i, (i < List.length x)%nat -> zero_at nonzero x i) \/ (forall i, (i < List.length y)%nat -> zero_at nonzero y i) ->
  align nonzero m x y = (x, y, 0%Z).
Proof. exact @align_zero. Qed.
Definition znz (z : Z) : bool := negb (Z.eqb z 0).
Definition ex_x : list (option Z) := [Some 0; Some 0; Some 5; Some 6; Some 0]%Z.
Definition ex_y : list (option Z) := [Some 7; Some 0; Some 8; Some 9; Some 0]%Z.
Example C38_ex :
  first_nz znz ex_x 2 /\ first_nz znz ex_y 0 /\
  align znz Front ex_x ex_y = (ex_x, [None; None; Some 7; Some 0; Some 8]%Z, 2%Z) /\
  align znz Front ex_y ex_x = ([None; None; Some 7; Some 0; Some 8]%Z, ex_x, (-2)%Z).
Proof.
  split; [|split; [|split; vm_compute; reflexivity]].
  - split; [cbn; lia|]. split; [intros (v & [= <-] & H); discriminate|].
    intros i Hi. destruct i as [|[|i]]; [eexists; split; reflexivity..|lia].
  - split; [cbn; lia|]. split; [intros (v & [= <-] & H); discriminate|]. lia.
Qed.
(** Aligning the fronts drops samples at the end of the earlier series (the 9
    above).  A missing value counts as non-zero. *)
Example C38_missing_refuted :
  align znz Front [Some 0; Some 5]%Z [None; Some 5]%Z = ([Some 0; Some 5]%Z, [None; None], 1%Z).
Proof. vm_compute. reflexivity. Qed.

(** ** C56: the total correlation *)
Theorem C56_total : forall c, (total c == weighted c / inject_Z (weights c))%Q.
Proof. exact total_is. Qed.
Theorem C56_bound : forall c, Forall (fun x => (0 <= fst x)%Z /\ forall r, snd x = Some r -> (-(1) <= r <= 1)%Q) c ->
  (0 < weights c)%Z -> (-(1) <= total c <= 1)%Q.
Proof. exact total_bound. Qed.
Example C56_ex : (total [(3%Z, Some 1%Q); (1%Z, Some (-(1))%Q)] == 1 # 2)%Q.
Proof. vm_compute. reflexivity. Qed.
(** A group whose correlation is undefined (a constant series) still weighs: perfect
    correlation everywhere else does not give 1. *)
Example C56_undefined_refuted : (total [(3%Z, Some 1%Q); (1%Z, None)] == 3 # 4)%Q.
Proof. vm_compute. reflexivity. Qed.

(** ** C57: resampling *)
Theorem C57_pad : forall {T V : Type} (leb : T -> T -> bool), total_order leb ->
  forall (s : list (T * option V)) grid, StronglySorted (lt leb) (map fst s) ->
  Forall2 (InForce leb s) grid (reindex_pad leb s grid).
Proof. exact @reindex_ok. Qed.
Theorem C57_uniform : forall delta s rest, (0 < delta)%Q ->
  exists grid, get_uniform delta (s :: rest) = Ok grid /\
    forall x, In x grid <-> exists i : nat, (x = s + inject_Z (Z.of_nat i) * delta /\ s + inject_Z (Z.of_nat i) * delta < last (s :: rest) s)%Q.
Proof. exact uniform_ok. Qed.
Theorem C57_fails : forall delta index e, get_uniform delta index = Err e <-> index = [] /\ e = EIndex.
Proof. exact uniform_fails. Qed.
Example C57_ex :
  reindex_pad Z.leb [(1, Some 10); (4, Some 40); (6, None)]%Z [0; 1; 3; 5; 7]%Z = [None; Some 10; Some 10; Some 40; None]%Z /\
  get_uniform 1 [0; 5 # 2; 3]%Q = Ok [0 + 0 * 1; 0 + 1 * 1; 0 + 2 * 1]%Q.
Proof. split; vm_compute; reflexivity. Qed.
(** The last event is never on the grid; a single event gives an empty one. *)
Example C57_end_refuted : get_uniform (1 # 2) [3]%Q = Ok [].
Proof. vm_compute. reflexivity. Qed.

Print Assumptions C34_level.
Print Assumptions C34_groups_total.
Print Assumptions C34_all.
Print Assumptions C34_node.
Print Assumptions C34_index.
Print Assumptions C34_index_found.
Print Assumptions C34_index_error.
Print Assumptions C35_rows.
Print Assumptions C35_list.
Print Assumptions C35_no_pivot.
Print Assumptions C35_no_column.
Print Assumptions C35_name_ignored.
Print Assumptions C35_name_unbound.
Print Assumptions C36_stored.
Print Assumptions C36_fun.
Print Assumptions C36_fails.
Print Assumptions C36_none.
Print Assumptions C37_unify.
Print Assumptions C37_unified.
Print Assumptions C37_fails.
Print Assumptions C38_front.
Print Assumptions C38_back.
Print Assumptions C38_front_meet.
Print Assumptions C38_back_meet.
Print Assumptions C38_zero.
Print Assumptions C56_total.
Print Assumptions C56_bound.
Print Assumptions C57_pad.
Print Assumptions C57_uniform.
Print Assumptions C57_fails.
