(** Model of trappy/plotter/ILinePlot.py:220-318: the frames an interactive plot is made of. *)
From Coq Require Import List Ascii String ZArith QArith Bool.
From Verif Require Import Lib.PyStr Lib.TotalOrder Model.ILineGen.
Import ListNotations.
Local Open Scope list_scope.

(** Constraint.py:188-215 [__str__] and [get_data_name]: [name] is the name of the trace,
    [None] for a DataFrame. *)
Definition data_name (name : option str) (index : nat) : str :=
  match name with
  | Some ((_ :: _) as n) => n
  | Some [] => $"Trace " ++ str_of_nat index
  | None => $"DataFrame " ++ str_of_nat index
  end.
Definition constraint_str (name : option str) (index : nat) (template column : str) : str :=
  match name with
  | Some _ => data_name name index ++ $":" ++ template ++ $":" ++ column
  | None => data_name name index ++ $":" ++ column
  end.

(** ** Filling of missing values, 305-317 *)
Section Fill.
  Notation column := (list (option Q)).
  (** [ffill] *)
  Fixpoint ffill_from (last : option Q) (l : column) : column :=
    match l with
    | [] => []
    | Some v :: r => Some v :: ffill_from (Some v) r
    | None :: r => last :: ffill_from last r
    end.
  Definition ffill (l : column) : column := ffill_from None l.
  (** [bfill] *)
  Definition bfill (l : column) : column := rev (ffill (rev l)).
  (** The next known value and how far it is. *)
  Fixpoint next_known (l : column) : option (nat * Q) :=
    match l with
    | [] => None
    | Some v :: _ => Some (O, v)
    | None :: r => match next_known r with Some (n, v) => Some (S n, v) | None => None end
    end.
  (** [interpolate()]: by position, forwards only; [last] is the last known value and how far it is. *)
  Fixpoint interp_from (last : option (nat * Q)) (l : column) : column :=
    match l with
    | [] => []
    | Some v :: r => Some v :: interp_from (Some (1%nat, v)) r
    | None :: r =>
        match last with
        | None => None :: interp_from None r
        | Some (i, v) =>
            match next_known r with
            | Some (d, w) => Some (v + (w - v) * (inject_Z (Z.of_nat i) / inject_Z (Z.of_nat (i + S d))))%Q
            | None => Some v
            end :: interp_from (Some (S i, v)) r
        end
    end.
  Definition interpolate (l : column) : column := interp_from None l.
  Definition fill (draw : option str) (l : column) : column :=
    match draw with
    | Some s => if eqs s $"steps-post" then ffill l else if eqs s $"steps-pre" then bfill l else if eqs s $"steps-mid" then ffill l else interpolate l
    | None => interpolate l
    end.
End Fill.

Section Plot.
  (** Times, and what [handle_duplicate_index] makes of an index (Model/Dups.v). *)
  Context {T : Type} (leb : T -> T -> bool) (dedup : list T -> list T).
  Notation series := (list (T * option Q)).
  Notation dict := (list (str * series)).
  (** [handle_duplicate_index(s)] *)
  Definition redate (s : series) : series := combine (dedup (map fst s)) (map snd s).
  Definition at_time (t : T) (s : series) : option Q :=
    match find (fun x => teq leb t (fst x)) s with Some (_, v) => v | None => None end.
  (** The columns of [pd.concat(axis=1)]: of equal indexes side by side, otherwise over the
      sorted union, where a repeated time is an error. *)
  Definition merge (ss : list series) : res (list T * list (list (option Q))) :=
    match ss with
    | [] => Err EValue
    | s :: r =>
        if forallb (fun s' => eq_list leb (map fst s) (map fst s')) r then Ok (map fst s, map (map snd) ss)
        else if forallb (fun s' => nodup_b leb (map fst s')) ss
             then let ix := sort_u leb (List.concat (map (map fst) ss)) in Ok (ix, map (fun s' => map (fun t => at_time t s') ix) ss)
             else Err EValue
    end.
  (** The rows of a table given by its columns. *)
  Fixpoint transpose {X} (n : nat) (cols : list (list X)) : list (list X) :=
    match n with
    | O => []
    | S m => flat_map (fun c => match c with [] => [] | x :: _ => [x] end) cols :: transpose m (map (@tl X) cols)
    end.
  (** 291-318 [_fix_indexes] *)
  Definition fix_indexes (draw : option str) (d : dict) : res (frame T (option Q)) :=
    if Nat.leb (List.length d) 1 then Err EValue
    else do m <- merge (map (fun x => redate (snd x)) d) ;;
         Ok (Frame (fst m) (map fst d) (transpose (List.length (fst m)) (map (fill draw) (snd m)))).
  (** 250-253 and 280-283; [pd.DataFrame(data_dict)] of at most one series *)
  Definition frame_of (draw : option str) (d : dict) : res (frame T (option Q)) :=
    match d with
    | [] => Ok (Frame [] [] [])
    | [(k, s)] => Ok (Frame (map fst s) [k] (map (fun x => [snd x]) s))
    | _ => fix_indexes draw d
    end.

  (** ** The plots; a constraint is its trace, str(constraint), template.name:column and result. *)
  Context {P : Type} (peq : P -> P -> bool) (dflt : P).
  Record con := Con { c_trace : nat; c_str : str; c_short : str; c_result : list (P * series) }.
  Definition put (legend : con -> str) (p : P) (d : dict) (c : con) : dict :=
    match dget peq p (c_result c) with Some s => dset eqs (legend c) s d | None => d end.
  (** 220-257 [_plot] without [permute]; [pivot] is the pivot's name, [label] the text of a
      pivot value: [map_label.get(pivot, pivot)]. *)
  Definition pivot_title (pivot : str) (label : P -> str) (p : P) : str :=
    if peq p dflt then [] else pivot ++ $": " ++ label p.
  Definition pivot_plot (draw : option str) (pivot : str) (label : P -> str) (cs : list con) (p : P) : res (frame T (option Q) * str) :=
    do f <- frame_of draw (fold_left (put c_str p) cs []) ;; Ok (f, pivot_title pivot label p).
  (** with [permute]; [names] are the names of the traces, [None] when the traces are not a list *)
  Definition permute_plot (draw : option str) (names : option (list str)) (cs : list con) (k : nat) (ip : nat * P) : res (frame T (option Q) * str) :=
    let d := fold_left (put c_short (snd ip)) (filter (fun c => Nat.eqb (c_trace c) (fst ip)) cs) [] in
    do t <- match names with None => Err EType | Some l => match nth_error l k with Some t => Ok t | None => Err EIndex end end ;;
    do f <- frame_of draw d ;; Ok (f, t).
  (** 259-289 [_plot_concat]; [column] is the column as given: a text is joined letter by letter *)
  Definition concat_key (column : list str) (pivot : str) (label : P -> str) (p : P) : str :=
    if peq p dflt then join $"," column else pivot ++ $": " ++ label p.
  Definition concat_plot (draw : option str) (column : list str) (pivot : str) (label : P -> str) (pivots : list P) (c : con) : res (frame T (option Q) * str) :=
    do f <- frame_of draw (fold_left (fun d p => match dget peq p (c_result c) with Some s => dset eqs (concat_key column pivot label p) s d | None => d end) pivots []) ;;
    Ok (f, c_str c).

  (** One plot is made and added after the other. *)
  Context {F : Type} (uuid : nat -> F).
  Fixpoint add_all {X} (build : nat -> X -> res (frame T (option Q) * str)) (max : Z) (g : gen (F := F)) (k : nat) (xs : list X) : res (list (script F T (option Q))) :=
    match xs with
    | [] => Ok []
    | x :: r => do ft <- build k x ;; do s <- add_plot uuid max g k (fst ft) (snd ft) ;; do ss <- add_all build max g (S k) r ;; Ok (s :: ss)
    end.
  Definition view {X} (build : nat -> X -> res (frame T (option Q) * str)) (max per_line : Z) (title : option str) (xs : list X) :=
    do g <- init uuid (Z.of_nat (List.length xs)) per_line title ;;
    do ss <- add_all build max g 0 xs ;;
    Ok (g_html g, ss).
  Definition plot (draw : option str) (pivot : str) (label : P -> str) (cs : list con) (pivots : list P) (max per_line : Z) (title : option str) :=
    view (fun _ => pivot_plot draw pivot label cs) max per_line title pivots.
  Definition plot_permuted (draw : option str) (names : option (list str)) (cs : list con) (pivots : list (nat * P)) (max per_line : Z) (title : option str) :=
    view (permute_plot draw names cs) max per_line title pivots.
  Definition plot_concat (draw : option str) (column : list str) (pivot : str) (label : P -> str) (cs : list con) (pivots : list P) (max per_line : Z) (title : option str) :=
    view (fun _ => concat_plot draw column pivot label pivots) max per_line title cs.
End Plot.
Arguments con : clear implicits.
