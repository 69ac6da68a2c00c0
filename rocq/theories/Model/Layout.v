(** Model of trappy/plotter/PlotLayout.py and of the part of StaticPlot.py that
    chooses an axis for each series. *)
From Coq Require Import List ZArith Bool.
From Verif Require Import Lib.PyStr.
Import ListNotations.
Local Open Scope list_scope.
Local Open Scope Z_scope.

(** ** PlotLayout *)
Record layout := Layout { l_rows : Z; l_cols : Z; l_num : Z }.
(** PlotLayout.py:45-63 and 81: the numbers of rows and columns; [plt.subplots] wants
    both positive.  Sizes and titles are left out. *)
Definition mk_layout (cols num : Z) : res layout :=
  if num =? 0 then Err ERuntime
  else let cols := if num <? cols then num else cols in
       if cols =? 0 then Err EZeroDiv
       else let rows := num / cols in
            let rows := if num mod cols =? 0 then rows else rows + 1 in
            if (rows <=? 0) || (cols <=? 0) then Err EValue else Ok (Layout rows cols num).
(** 70-79: the flags. *)
Definition single (l : layout) : bool := l_num l =? 1.
Definition usecol (l : layout) : bool := negb (single l) && (l_rows l =? 1).
Definition userow (l : layout) : bool := negb (single l) && negb (l_rows l =? 1) && (l_cols l =? 1).
(** An index into the axes: a number or a pair. *)
Inductive index := I1 (i : Z) | I2 (r c : Z).
(** 102-119 *)
Definition get_2d (l : layout) (v : Z) : index :=
  if usecol l then I1 (v mod l_cols l)
  else if userow l then I1 (v mod l_rows l)
  else I2 (v / l_cols l) (v mod l_cols l).

(** The value [axes] of [plt.subplots]: a single axis, an array or a matrix; an axis is
    known by its row and column in the figure. *)
Definition cell := (Z * Z)%type.
Definition numpy_index (n i : Z) : res Z :=
  if (0 <=? i) && (i <? n) then Ok i else if (- n <=? i) && (i <? 0) then Ok (i + n) else Err EIndex.
Definition axes_at (l : layout) (ix : index) : res cell :=
  if (l_rows l =? 1) && (l_cols l =? 1) then Err EType
  else if l_rows l =? 1 then match ix with I1 i => do c <- numpy_index (l_cols l) i ;; Ok (0, c) | I2 _ _ => Err EIndex end
  else if l_cols l =? 1 then match ix with I1 i => do r <- numpy_index (l_rows l) i ;; Ok (r, 0) | I2 _ _ => Err EIndex end
  else match ix with
       | I1 _ => Err EType  (* a row of axes, not an axis *)
       | I2 r c => do r' <- numpy_index (l_rows l) r ;; do c' <- numpy_index (l_cols l) c ;; Ok (r', c')
       end.
(** 136-149 *)
Definition get_axis (l : layout) (i : Z) : res cell := if single l then Ok (0, 0) else axes_at l (get_2d l i).
(** 121-134: the axes that are deleted. *)
Definition finish (l : layout) (i : Z) : res (list cell) :=
  mapM (fun k => axes_at l (get_2d l (i + Z.of_nat k))) (seq 0 (Z.to_nat (l_rows l * l_cols l - i))).

(** ** StaticPlot.py:223-268, without [permute] *)
Section Resolve.
  Context {P : Type} (peq : P -> P -> bool).
  (** A constraint: its trace index and the keys of its result. *)
  Record con := Con { c_trace : nat; c_keys : list P }.
  (** 249 *)
  Definition cp_pairs (cs : list con) (pivots : list P) : list (con * P) :=
    flat_map (fun c => map (fun p => (c, p)) (filter (fun p => existsb (peq p) (c_keys c)) pivots)) cs.
  Fixpoint enumerate {A} (i : nat) (l : list A) : list (nat * A) :=
    match l with [] => [] | a :: r => (i, a) :: enumerate (S i) r end.
  (** 228-237 and 260-265: the axis of each series, in order. *)
  Definition resolve (concat : bool) (per_line : Z) (cs : list con) (pivots : list P) : res (list (con * P * cell)) :=
    do l <- mk_layout per_line (Z.of_nat (if concat then List.length cs else List.length pivots)) ;;
    mapM (fun icp => let '(i, (c, p)) := icp in
                     do a <- get_axis l (Z.of_nat (if concat then c_trace c else i)) ;; Ok (c, p, a))
         (enumerate 0 (cp_pairs cs pivots)).
End Resolve.
Arguments con : clear implicits.
