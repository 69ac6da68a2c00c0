(** Model of trappy/plotter/Constraint.py. *)
From Coq Require Import List Ascii String ZArith Bool.
From Verif Require Import Lib.PyStr Lib.TotalOrder Model.Stats Model.Accessor.
Import ListNotations.
Local Open Scope list_scope.

Section Constraint.
  (** Times; values and their equality; [dflt] is AttrConf.PIVOT_VAL.  Frames are
      those of Model/Accessor.v; [None] is a missing value. *)
  Context {T V : Type} (leb : T -> T -> bool) (veq : V -> V -> bool) (dflt : V).
  Notation row := (T * list (str * option V))%type.
  (** [in] and [==]: a missing value is equal to none. *)
  Definition among (vs : list V) (c : option V) : bool := match c with Some v => existsb (veq v) vs | None => false end.

  (** 110-115: the window.  [max] and [min] of an index; a missing lower end (NaN)
      sorts after all times, so that nothing is left, a missing upper one keeps all. *)
  Definition index_max (l : list T) : option T :=
    match l with [] => None | t :: r => Some (fold_left (fun a b => if leb a b then b else a) r t) end.
  Definition index_min (l : list T) : option T :=
    match l with [] => None | t :: r => Some (fold_left (fun a b => if leb a b then a else b) r t) end.
  Definition window_rows (win : option (T * T)) (rows : list row) : list row :=
    match win with
    | None => rows
    | Some (a, b) =>
        let min_idx := index_max (map fst (take_until leb a rows)) in
        let max_idx := index_min (map fst (drop_before leb b rows)) in
        match min_idx with
        | None => []
        | Some lo => let upper := drop_before leb lo rows in
                     match max_idx with None => upper | Some hi => take_until leb hi upper end
        end
    end.

  (** 170-187 [pivot_vals], as a test of membership: the order of a set is not
      known, and [_apply] is given the list in some order. *)
  Definition is_pivot_val (p : str) (filters : list (str * list V)) (f : gframe T V) (v : option V) : Prop :=
    In p (g_cols f) /\ In v (map (gcell p) (g_rows f)) /\
    match dget eqs p filters with Some wanted => among wanted v = true | None => True end.
  (** 120-152 [_apply].  [pivot] is [None] for AttrConf.PIVOT. *)
  Definition meets (pivot : option str) (filters : list (str * list V)) (f : gframe T V) (r : row) : bool :=
    forallb (fun kf => match pivot with Some p => eqs (fst kf) p | None => false end || negb (has_col (fst kf) (g_cols f)) ||
                       among (snd kf) (gcell (fst kf) r)) filters.
  Definition of_pivot (pivot : option str) (v : option V) (r : row) : bool :=
    if among [dflt] v then true
    else match pivot with
         | Some p => match v with Some x => among [x] (gcell p r) | None => false end
         | None => true
         end.
  Definition apply_ (col : str) (pivot : option str) (filters : list (str * list V)) (f : gframe T V) (order : list (option V)) :
      list (option V * list (T * option V)) :=
    if has_col col (g_cols f) then
      flat_map (fun v => match filter (fun r => meets pivot filters f r && of_pivot pivot v r) (g_rows f) with
                         | [] => []
                         | rows => [(v, column_of col rows)]
                         end)
               (match pivot with None => [Some dflt] | Some _ => order end)
    else [].
End Constraint.

(** ** ConstraintManager *)
Section Manager.
  Context {A B C : Type}.
  (** Utils.py:28-34 [normalize_list] *)
  Definition normalize_list {X} (n : nat) (l : list X) : res (list X) :=
    match l with [x] => Ok (repeat x n) | _ => Err ERuntime end.
  (** 265-310 [_expand] *)
  Definition expand_one {X} (m : nat) (l : list X) : res (list X) :=
    if Nat.eqb (List.length l) m then Ok l else normalize_list m l.
  Definition expand (traces : list A) (columns : list B) (templates : list C) : res (list A * list B * list C * bool) :=
    let lens := [List.length traces; List.length columns; List.length templates] in
    let m := Nat.max (List.length traces) (Nat.max (List.length columns) (List.length templates)) in
    let mn := Nat.min (List.length traces) (Nat.min (List.length columns) (List.length templates)) in
    if Nat.eqb m 1 && negb (Nat.eqb mn 1) then Err ERuntime
    else if Nat.ltb 1 m then
      if forallb (Nat.eqb m) lens then Ok (traces, columns, templates, false)
      else if Nat.ltb 1 mn then Err ERuntime
      else
        do a <- expand_one m traces ;; do b <- expand_one m columns ;; do c <- expand_one m templates ;;
        Ok (a, b, c, negb (Nat.eqb (List.length traces) m))
    else Ok (traces, columns, templates, false).
  Definition get {X} (l : list X) (i : nat) : res X := match nth_error l i with Some x => Ok x | None => Err EIndex end.
  (** What a constraint is made of: trace, column, template, trace index. *)
  Notation parts := (A * B * C * nat)%type.
  (** 334-353 [_populate_zip_constraints] *)
  Definition zip_constraints (traces : list A) (columns : list B) (templates : list C) : res (list parts) :=
    do e <- expand traces columns templates ;;
    let '(a, b, c, expanded) := e in
    let m := Nat.max (List.length traces) (Nat.max (List.length columns) (List.length templates)) in
    mapM (fun i => do x <- get a i ;; do y <- get b i ;; do z <- get c i ;; Ok (x, y, z, if expanded : bool then 0 else i)) (seq 0 m).
  (** 312-329 [_populate_constraints] *)
  Definition all_constraints (traces : list A) (columns : list B) (templates : list C) : res (list parts) :=
    do e <- expand traces columns templates ;;
    let '(a, b, c, _) := e in
    do ls <- mapM (fun i => do x <- get a i ;; mapM (fun y => do z <- get c i ;; Ok (x, y, z, i)) b) (seq 0 (List.length a)) ;;
    Ok (List.concat ls).
End Manager.

(** ** Pivots *)
Section Pivots.
  (** Values and their equality, [int(x)], [int(x, 16)] and the order of the values;
      [None]: a ValueError or a TypeError. *)
  Context {V : Type} (veq : V -> V -> bool) (as_int as_hex : V -> option Z) (vleb : V -> V -> bool).
  Fixpoint insert_by {K} (kleb : K -> K -> bool) (x : K * V) (l : list (K * V)) : list (K * V) :=
    match l with
    | [] => [x]
    | y :: r => if kleb (fst x) (fst y) then x :: l else y :: insert_by kleb x r
    end.
  (** [sorted(_, key=_)], which is stable *)
  Definition sort_by {K} (kleb : K -> K -> bool) (l : list (K * V)) : list V := map snd (fold_right (insert_by kleb) [] l).
  Definition with_keys {K} (key : V -> option K) (l : list V) : option (list (K * V)) :=
    if forallb (fun v => match key v with Some _ => true | None => false end) l
    then Some (flat_map (fun v => match key v with Some k => [(k, v)] | None => [] end) l)
    else None.
  (** 355-380 [generate_pivots]; [pset] is the set of the keys of the results of all
      constraints, in the order in which Python goes through it. *)
  Definition sorted_pivots (pset : list V) : list V :=
    match with_keys as_int pset with
    | Some l => sort_by Z.leb l
    | None => match with_keys as_hex pset with
              | Some l => sort_by Z.leb l
              | None => sort_by vleb (map (fun v => (v, v)) pset)
              end
    end.
  Definition permuted_pivots (ntraces : nat) (pset : list V) : list (nat * V) * nat :=
    let l := sorted_pivots pset in
    (flat_map (fun i => map (pair i) l) (seq 0 ntraces), List.length l * ntraces).
End Pivots.
