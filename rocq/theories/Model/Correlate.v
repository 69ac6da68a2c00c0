(** Model of trappy/stats/Correlator.py:29-102 and 147-181: a correlator and its use. *)
From Coq Require Import List Ascii String ZArith QArith Bool.
From Verif Require Import Lib.PyStr Lib.TotalOrder Model.Stats.
Import ListNotations.
Local Open Scope list_scope.

Section Correlate.
  (** Times and values; the state of the program's objects and references to series in it; keyword arguments. *)
  Context {T V St Ref KW : Type} (leb : T -> T -> bool) (nonzero : V -> bool).
  Notation series := (list (T * option V)).
  Variable read : St -> Ref -> series.
  (** An aggregator: its index and its method [aggregate], given the keyword arguments other than the level. *)
  Record aggregator := Agg { a_index : list T; aggregate : option KW -> str -> St -> res (list Ref) * St }.
  (** The grid made of an index (Indexer.py:51-63; C57), and the correlation (147-153) of two series: that of pandas or
      the one given; [None] is NaN. *)
  Variables (uniform : list T -> res (list T)) (corr : series -> series -> option Q).

  (** 48-62 [_resample] *)
  Definition resample (grid : list T) (s : series) : series := combine grid (reindex_pad leb s grid).
  (** New values for the same index. *)
  Definition with_values (s : series) (vs : list (option V)) : series := combine (map fst s) vs.
  (** 217-235 [shift_series] of series *)
  Definition shift_pair (x y : series) (shift : Z) : series * series :=
    let '(a, b) := shift_series (map snd x) (map snd y) shift in (with_values x a, with_values y b).
  (** 185-215 [align] of series *)
  Definition align_pair (m : amode) (x y : series) : series * series * Z :=
    let '(a, b, s) := align nonzero m (map snd x) (map snd y) in (with_values x a, with_values y b, s).

  Definition or_zero (c : option Q) : Q := match c with Some q => q | None => 0%Q end.
  Definition first {A} (l : list A) : res A := match l with x :: _ => Ok x | [] => Err EIndex end.
  (** 155-181 [_align_top_level]; [index] is the unified one (42).  Called without the keyword arguments. *)
  Definition align_top (a b : aggregator) (index : list T) (st : St) : res Z * St :=
    let '(r1, st1) := aggregate a None $"all" st in
    match r1 with
    | Err e => (Err e, st1)
    | Ok l1 =>
        let '(r2, st2) := aggregate b None $"all" st1 in
        (do l2 <- r2 ;;
         do x <- first l1 ;; do grid <- uniform index ;; let x := resample grid (read st2 x) in
         do y <- first l2 ;; let y := resample grid (read st2 y) in
         let '(fx, fy, fs) := align_pair Front x y in
         let '(bx, by_, bs) := align_pair Back x y in
         Ok (if Qle_bool (or_zero (corr bx by_)) (or_zero (corr fx fy)) then fs else bs), st2)
    end.
  (** 38-46 [__init__]; the correlator's unified index and shift. *)
  Definition correlator (a b : aggregator) (st : St) : res (list T * Z) * St :=
    match unified_indexer leb [a_index a; a_index b] with
    | Err e => (Err e, st)
    | Ok index => let '(r, st') := align_top a b index st in (do s <- r ;; Ok (index, s), st')
    end.

  (** 84-93: one group. *)
  Definition one_group (grid : option (list T)) (shift : Z) (x y : series) : Z * option Q :=
    let '(x, y) := match grid with Some g => (resample g x, resample g y) | None => (x, y) end in
    let '(x, y) := shift_pair x y shift in
    (weight nonzero (map snd x) (map snd y), corr x y).
  Fixpoint groups (grid : option (list T)) (shift : Z) (xs ys : list series) : res (list (Z * option Q)) :=
    match xs with
    | [] => Ok []
    | x :: xs' =>
        match ys with
        | [] => Err EIndex
        | y :: ys' => do r <- groups grid shift xs' ys' ;; Ok (one_group grid shift x y :: r)
        end
    end.
  (** 95-100: dividing by a sum of weights that is zero is an error for plain numbers (for those of numpy the total is NaN
      and there is a warning; the correlation of pandas is NaN, hence left out, for series without values that are not zero). *)
  Definition total_of (cs : list (Z * option Q)) : res Q :=
    if existsb (fun c => match snd c with Some _ => true | None => false end) cs && forallb (fun c => (fst c =? 0)%Z) cs
    then Err EZeroDiv else Ok (total cs).
  (** 64-102 [correlate]; without groups there is no resampling. *)
  Definition correlate (a b : aggregator) (kw : KW) (c : list T * Z) (level : str) (do_resample : bool) (st : St)
      : res (list (option Q) * Q) * St :=
    let '(r1, st1) := aggregate a (Some kw) level st in
    match r1 with
    | Err e => (Err e, st1)
    | Ok l1 =>
        let '(r2, st2) := aggregate b (Some kw) level st1 in
        (do l2 <- r2 ;;
         do grid <- match l1, l2, do_resample with
                    | _ :: _, _ :: _, true => do g <- uniform (fst c) ;; Ok (Some g)
                    | _, _, _ => Ok None
                    end ;;
         do cs <- groups grid (snd c) (map (read st2) l1) (map (read st2) l2) ;;
         do t <- total_of cs ;;
         Ok (map snd cs, t), st2)
    end.
End Correlate.
Arguments aggregator : clear implicits.
