(** Model of trappy/stats: Trigger, Indexer, Aggregator and Correlator. *)
From Coq Require Import List Ascii String ZArith QArith Bool.
From Verif Require Import Lib.PyStr Lib.TotalOrder Lib.F64 Model.Base.
Import ListNotations.
Local Open Scope list_scope.

(** ** Trigger.py *)
Section Trigger.
  Context {T V : Type}.
  (** An event's frame; a row has a cell for every column. *)
  Record eframe := EFrame { f_cols : list str; f_rows : list (T * list (str * cell)) }.
  Inductive tfilter := FFun (f : cell -> bool) | FVal (v : cell) | FVals (vs : list cell).
  Inductive tvalue := VNum (v : V) | VName (s : str).
  Record trigger := Trig { g_frame : eframe; g_filters : list (str * tfilter); g_value : tvalue; g_pivot : str }.

  (** [==] of cells: a missing value is different from everything. *)
  Definition ceq (a b : cell) : bool :=
    match a, b with
    | CInt x, CInt y => Z.eqb x y
    | CStr x, CStr y => eqs x y
    | _, _ => false
    end.
  Definition cell_at (key : str) (row : list (str * cell)) : cell :=
    match dget eqs key row with Some c => c | None => CNone end.
  Definition has_col (key : str) (cols : list str) : bool := existsb (eqs key) cols.
  (** 113-135 [apply_filter_kv] and the function filters of 98-102, on the mask of
      the rows still considered. *)
  Definition step_filter (cols : list str) (rows : list (T * list (str * cell))) (mask : list bool)
      (kf : str * tfilter) : res (list bool) :=
    let '(key, f) := kf in
    let conj (p : cell -> bool) := map (fun mr => fst mr && p (cell_at key (snd (snd mr)))) (combine mask rows) in
    match f with
    | FFun p => if has_col key cols then Ok (conj p) else Err EKey
    | FVal v => if has_col key cols then Ok (conj (fun c => ceq c v)) else Ok mask
    | FVals vs => if has_col key cols then Ok (conj (fun c => forallb (ceq c) vs)) else Ok mask
    end.
  Fixpoint run_filters (cols : list str) rows (mask : list bool) (fs : list (str * tfilter)) : res (list bool) :=
    match fs with
    | [] => Ok mask
    | f :: r => do m <- step_filter cols rows mask f ;; run_filters cols rows m r
    end.
  Definition keep {B} (mask : list bool) (l : list B) : list B :=
    map snd (filter fst (combine mask l)).
  (** 85-110 [generate].  The column named by a string value is not looked up: line
      108 uses the loop variable, that is, the value of the last filter. *)
  Inductive tresult := RSeries (s : list (T * V)) | RColumn (s : list (T * cell)).
  Definition last_filter (fs : list (str * tfilter)) : option tfilter :=
    match rev fs with [] => None | (_, f) :: _ => Some f end.
  Definition generate (g : trigger) (node : cell) : res tresult :=
    let fr := g_frame g in
    if has_col (g_pivot g) (f_cols fr) then
      let rows := filter (fun r => ceq (cell_at (g_pivot g) (snd r)) node) (f_rows fr) in
      do mask <- run_filters (f_cols fr) rows (repeat true (List.length rows)) (g_filters g) ;;
      let rows' := keep mask rows in
      match g_value g with
      | VNum v => Ok (RSeries (map (fun r => (fst r, v)) rows'))
      | VName _ =>
          match last_filter (g_filters g) with
          | None => Err EName
          | Some (FVal (CStr s)) =>
              if has_col s (f_cols fr) then Ok (RColumn (map (fun r => (fst r, cell_at s (snd r))) rows')) else Err EKey
          | Some (FVal _) => Err EKey
          | Some _ => Err EType         (* a list or a function as a key: not modelled further *)
          end
      end
    else Err EKey.
End Trigger.
Arguments eframe : clear implicits.
Arguments trigger : clear implicits.
Arguments tvalue : clear implicits.

(** ** Indexer.py *)
Section Indexer.
  Context {T : Type} (leb : T -> T -> bool).
  (** [Index.union]; repetitions do not matter below. *)
  Definition idx_union (a b : list T) : list T :=
    match b with
    | [] => a
    | _ => if eq_list leb a b then a else match a with [] => b | _ => sort_u leb (a ++ b) end
    end.
  (** 95-106 [_unify] *)
  Definition unify (indexes : list (list T)) : list T := sort_u leb (fold_left idx_union indexes []).
  (** 65-80 [get_unified_indexer] *)
  Definition unified_indexer (indexers : list (list T)) : res (list T) :=
    match indexers with
    | [] => Err EIndex
    | i :: r => Ok (fold_left idx_union r i)
    end.
  (** 46-49 [series] *)
  Definition zero_series {V} (z : V) (idx : list T) : list (T * V) := map (fun t => (t, z)) idx.
End Indexer.

(** ** Aggregator.py *)
Section Aggregator.
  Context {T N V : Type} (leb : T -> T -> bool) (neq : N -> N -> bool).
  (** [s[idx] = v] *)
  Definition set_at (t : T) (v : V) (s : list (T * V)) : list (T * V) :=
    if existsb (fun tv => teq leb t (fst tv)) s
    then map (fun tv => if teq leb t (fst tv) then (fst tv, v) else tv) s
    else s ++ [(t, v)].
  (** 55-69 [_add_result]; the index of the added series has no repetition. *)
  Definition add_result (idx : list T) (zero : V) (node : N) (s : list (T * V)) (result : list (N * list (T * V))) :=
    let cur := match dget neq node result with Some c => c | None => zero_series zero idx end in
    dset neq node (fold_left (fun c tv => set_at (fst tv) (snd tv) c) s cur) result.
  (** 160-177 [_aggregate_base]; a trigger is what it generates for a node. *)
  Fixpoint base_nodes (idx : list T) (zero : V) (trig : N -> res (list (T * V))) (nodes : list N) result :=
    match nodes with
    | [] => Ok result
    | n :: r => do s <- trig n ;; base_nodes idx zero trig r (add_result idx zero n s result)
    end.
  Fixpoint aggregate_base (idx : list T) (zero : V) (trigs : list (N -> res (list (T * V)))) (nodes : list N) result :=
    match trigs with
    | [] => Ok result
    | g :: r => do result' <- base_nodes idx zero g nodes result ;; aggregate_base idx zero r nodes result'
    end.
End Aggregator.

Section Aggregate.
  (** [S]: stored series, [R]: what the aggregation function gives; [add] is [+=]. *)
  Context {N S R : Type} (neq : N -> N -> bool).
  Definition stored := list (N * S).
  Definition get_stored (st : stored) (n : N) : res S :=
    match dget neq n st with Some s => Ok s | None => Err EKey end.
  (** 136-158 with an aggregation function (which returns a new object). *)
  Definition group_fun (f : S -> R) (add : R -> R -> R) (st : stored) (group : list N) : res R :=
    match group with
    | [] => Err EIndex
    | n :: rest =>
        do s <- get_stored st n ;;
        do others <- mapM (fun m => do x <- get_stored st m ;; Ok (f x)) rest ;;
        Ok (fold_left add others (f s))
    end.
  Definition aggregate_fun (f : S -> R) (add : R -> R -> R) (groups : list (list N)) (st : stored) : res (list R) * stored :=
    (mapM (group_fun f add st) groups, st).
  (** 136-158 without one: [level_res] is the stored series of the group's first
      node and [+=] changes it in place.  The result is the list of those objects
      (named by their node), to be read in the state at the time of reading. *)
  Fixpoint add_nodes (add : S -> S -> S) (first : N) (rest : list N) (st : stored) : res unit * stored :=
    match rest with
    | [] => (Ok tt, st)
    | m :: r =>
        match get_stored st first, get_stored st m with
        | Ok a, Ok b => add_nodes add first r (dset neq first (add a b) st)
        | _, _ => (Err EKey, st)
        end
    end.
  Fixpoint aggregate_none (add : S -> S -> S) (groups : list (list N)) (st : stored) : res (list N) * stored :=
    match groups with
    | [] => (Ok [], st)
    | [] :: _ => (Err EIndex, st)
    | (n :: rest) :: more =>
        match get_stored st n with
        | Err e => (Err e, st)
        | Ok _ =>
            let '(r, st') := add_nodes add n rest st in
            match r with
            | Err e => (Err e, st')
            | Ok _ => let '(rs, st'') := aggregate_none add more st' in
                      (do l <- rs ;; Ok (n :: l), st'')
            end
        end
    end.
End Aggregate.

(** ** Correlator.py *)
Section Correlator.
  Context {V : Type} (nonzero : V -> bool).
  (** [np.flatnonzero]; a missing value is not zero. *)
  Definition nz (v : option V) : bool := match v with Some x => nonzero x | None => true end.
  Fixpoint flatnonzero_from (i : nat) (l : list (option V)) : list nat :=
    match l with [] => [] | v :: r => (if nz v then [i] else []) ++ flatnonzero_from (S i) r end.
  Definition flatnonzero := flatnonzero_from 0.
  (** [Series.shift] by a non-negative number of places *)
  Definition shift_right (k : nat) (l : list (option V)) : list (option V) :=
    firstn (List.length l) (repeat None k ++ l).
  (** 217-235 [shift_series] *)
  Definition shift_series (x y : list (option V)) (shift : Z) :=
    if (0 <? shift)%Z then (x, shift_right (Z.to_nat shift) y) else (shift_right (Z.to_nat (- shift)) x, y).
  (** 185-215 [align] *)
  Inductive amode := Front | Back.
  Definition align (m : amode) (x y : list (option V)) :=
    match flatnonzero x, flatnonzero y with
    | [], _ | _, [] => (x, y, 0%Z)
    | px :: rx, py :: ry =>
        let '(p, q) := match m with Front => (px, py) | Back => (last (px :: rx) 0, last (py :: ry) 0)%nat end in
        let s := (Z.of_nat p - Z.of_nat q)%Z in
        let '(x', y') := shift_series x y s in (x', y', s)
    end.
  (** 95-102: the weighted mean of the correlations of the groups; [None] is NaN.
      Exact arithmetic stands for the floating point one. *)
  Definition weight (x y : list (option V)) : Z :=
    Z.of_nat (List.length (flatnonzero x) + List.length (flatnonzero y)).
  Definition total (corrs : list (Z * option Q)) : Q :=
    let w := fold_right (fun c s => (fst c + s)%Z) 0%Z corrs in
    fold_left (fun t c => match snd c with
                          | None => t
                          | Some r => t + (inject_Z (fst c) * r) / inject_Z w
                          end)%Q corrs 0%Q.
End Correlator.

(** ** Resampling *)
Section Resample.
  (** Indexer.py:51-63 [get_uniform] ([np.arange], in exact arithmetic). *)
  Definition qceil (q : Q) : Z := (- Qround.Qfloor (- q))%Z.
  Definition get_uniform (delta : Q) (index : list Q) : res (list Q) :=
    match index with
    | [] => Err EIndex
    | s :: _ => let e := last index s in
                Ok (map (fun i => s + inject_Z (Z.of_nat i) * delta)%Q (seq 0 (Z.to_nat (qceil ((e - s) / delta)))))
    end.
  (** Correlator.py:48-62 [_resample]: [reindex(method="pad")]; the last entry at
      or before each time, of a series with increasing index. *)
  Context {T V : Type} (leb : T -> T -> bool).
  Fixpoint pad_at (acc : option V) (s : list (T * option V)) (t : T) : option V :=
    match s with
    | [] => acc
    | (t', v) :: r => if leb t' t then pad_at v r t else acc
    end.
  Definition reindex_pad (s : list (T * option V)) (grid : list T) : list (option V) :=
    map (pad_at None s) grid.
End Resample.
