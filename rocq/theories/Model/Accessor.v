(** Model of the accessors of trappy/stats/grammar.py: [event:column]. *)
From Coq Require Import List Ascii String ZArith NArith Bool.
From Verif Require Import Lib.PyStr Lib.TotalOrder Model.Power Model.Stats Model.Grammar.
Import ListNotations.
Local Open Scope list_scope.

(** ** Finding them *)
(** [searchString] of 341: at each place, after white space, an accessor, or one
    character less; nothing when out of fuel (which never happens, C40_scan_total). *)
Fixpoint scan (n : nat) (s : str) : option (list (str * str)) :=
  match n with
  | O => None
  | S n' =>
      match skip s with
      | [] => Some []
      | c :: r =>
          match p_acc (c :: r) with
          | PYes (AAcc e col) r' => option_map (cons (e, col)) (scan n' r')
          | _ => scan n' r
          end
      end
  end.
Definition accessors (s : str) : option (list (str * str)) := scan (S (List.length s)) s.

Section Accessor.
  (** Times, values.  [None] is a missing value. *)
  Context {T V : Type} (leb : T -> T -> bool) (vleb : V -> V -> bool).
  (** An event's frame: a row has cells for the columns. *)
  Record gframe := GFrame { g_cols : list str; g_rows : list (T * list (str * option V)) }.
  (** A class: [name] and, if it is there and not empty, [pivot]. *)
  Record kls := Kls { k_name : str; k_pivot : option str }.
  (** The variables and the trace that a parser is made with (335-353). *)
  Record world := World {
    w_pvars : str -> option kls;
    w_defs : str -> option kls;            (* [data.class_definitions] *)
    w_attr : str -> res kls;               (* 143-160 [str_to_attr] *)
    w_frames : str -> option gframe;       (* [getattr(data, name).data_frame] *)
    w_from : option T; w_to : option T;
    w_filters : list (str * list V);
    w_fill : bool }.
  Context (w : world).
  Definition gcell (key : str) (row : T * list (str * option V)) : option V :=
    match dget eqs key (snd row) with Some c => c | None => None end.

  (** 531-558 [_get_data_frame]; [.loc] of an increasing index. *)
  Fixpoint drop_before (t : T) (rows : list (T * list (str * option V))) :=
    match rows with
    | [] => []
    | r :: rest => if leb t (fst r) then rows else drop_before t rest
    end.
  Fixpoint take_until (t : T) (rows : list (T * list (str * option V))) :=
    match rows with
    | [] => []
    | r :: rest => if leb (fst r) t then r :: take_until t rest else []
    end.
  Definition isin (vs : list V) (c : option V) : bool :=
    match c with Some v => existsb (teq vleb v) vs | None => false end.
  Fixpoint criterion (cols : list str) (rows : list (T * list (str * option V))) (mask : list bool)
      (filters : list (str * list V)) : list bool :=
    match filters with
    | [] => mask
    | (col, wanted) :: rest =>
        criterion cols rows
          (if has_col col cols
           then map (fun mr => fst mr && isin wanted (gcell col (snd mr))) (combine mask rows)
           else mask) rest
    end.
  Definition get_rows (f : gframe) : list (T * list (str * option V)) :=
    let r0 := g_rows f in
    let r1 := match w_from w with Some t => drop_before t r0 | None => r0 end in
    let r2 := match w_to w with Some t => take_until t r1 | None => r1 end in
    keep (criterion (g_cols f) r2 (repeat true (List.length r2)) (w_filters w)) r2.
  Definition get_data_frame (k : kls) : res gframe :=
    match w_frames w (k_name k) with
    | None => Err EAttribute
    | Some f => Ok (GFrame (g_cols f) (get_rows f))
    end.

  (** The table of the columns read so far; a column has a name and a pivot value
      ([None] is NO_PIVOT). *)
  Record table := Tab { t_idx : list T; t_cols : list ((str * option V) * list (option V)) }.
  Definition empty_table := Tab [] [].
  (** [reindex(index, method="pad")], without a limit *)
  Definition pad_to (s : list (T * option V)) (grid : list T) : list (T * option V) :=
    combine grid (reindex_pad leb s grid).
  (** [np.unique] of a column (a missing value is left out, pandas has NaN). *)
  Definition present (l : list (option V)) : list V := flat_map (fun c => match c with Some v => [v] | None => [] end) l.
  Definition unique_values (p : str) (rows : list (T * list (str * option V))) : list V :=
    sort_u vleb (present (map (gcell p) rows)).
  Definition column_of (c : str) (rows : list (T * list (str * option V))) : list (T * option V) :=
    map (fun r => (fst r, gcell c r)) rows.
  (** 413-445 [_pivot] *)
  Definition pivot_frame (agg : table) (k : kls) (column : str) : res (list T * list (option V * list (option V))) :=
    do f <- get_data_frame k ;;
    let rows := g_rows f in
    match rows with
    | [] => Err EValue
    | _ =>
        let idx := sort_u leb (t_idx agg ++ map fst rows) in
        let fit s := match t_idx agg with [] => s | _ => pad_to s idx end in
        match k_pivot k with
        | Some p =>
            if has_col p (g_cols f) && has_col column (g_cols f) then
              frame_of leb (map (fun v => (Some v, fit (column_of column (filter (fun r => isin [v] (gcell p r)) rows))))
                                (unique_values p rows))
            else Err EKey
        | None =>
            if has_col column (g_cols f) then frame_of leb [(None, fit (column_of column rows))] else Err EKey
        end
    end.
  (** 447-475 [_pre_process] and the choice of the class *)
  Definition resolve (event : str) : res kls :=
    match w_pvars w event with
    | Some k => Ok k
    | None => match w_defs w event with Some k => Ok k | None => w_attr w event end
    end.
  Definition has_column (c : str) (agg : table) : bool := existsb (fun kc => eqs (fst (fst kc)) c) (t_cols agg).
  Definition fill_columns (cols : list ((str * option V) * list (option V))) :=
    map (fun kc => (fst kc, pad None (snd kc))) cols.
  Definition pre_process (agg : table) (acc : str * str) : res table :=
    let '(event, column) := acc in
    if has_column column agg then Ok agg
    else
      do k <- match resolve event with Err EKey => Err EValue | r => r end ;;
      do fr <- pivot_frame agg k column ;;
      do res <- frame_of leb (map (fun kc => (fst kc, combine (t_idx agg) (snd kc))) (t_cols agg) ++
                              map (fun pc => ((column, fst pc), combine (fst fr) (snd pc))) (snd fr)) ;;
      Ok (Tab (fst res) (if w_fill w then fill_columns (snd res) else snd res)).
  (** All of them, up to the first that fails; the table stays what it was. *)
  Fixpoint load_all (agg : table) (accs : list (str * str)) : res unit * table :=
    match accs with
    | [] => (Ok tt, agg)
    | a :: r => match pre_process agg a with Ok agg' => load_all agg' r | Err x => (Err x, agg) end
    end.

  (** ** Expressions *)
  Context {W : Type}.
  (** What [agg_df[column]] is: the index and the columns of the pivot values. *)
  Definition selection : Type := list T * list (option V * list (option V)).
  Definition select_column (agg : table) (c : str) : option selection :=
    match filter (fun kc => eqs (fst (fst kc)) c) (t_cols agg) with
    | [] => None
    | l => Some (t_idx agg, map (fun kc => (snd (fst kc), snd kc)) l)
    end.
  (** Numbers, other variables, functions and operators, of values [W], among which
      there are selections. *)
  Record library := Lib {
    l_num : str -> W; l_vars : str -> option W; l_frame : selection -> W;
    l_fun : str -> res (list W -> res W); l_neg : W -> res W; l_op : str -> W -> W -> res W }.
  Context (lib : library).
  Definition agg_get (agg : table) (c : str) : option W := option_map (l_frame lib) (select_column agg c).
  Definition env_of (agg : table) : env W :=
    {| e_num := l_num lib;
       e_id := var_id (l_num lib) (l_vars lib) (agg_get agg);
       e_acc := fun _ c => match agg_get agg c with Some v => Ok v | None => Err EKey end;
       e_fun := l_fun lib; e_neg := l_neg lib; e_op := l_op lib |}.
  (** 355-397 [solve] *)
  Definition parser_solve (agg : table) (s : str) : res W * table :=
    match accessors s with
    | None => (Err EFuel, agg)
    | Some accs =>
        match load_all agg accs with
        | (Err x, agg') => (Err x, agg')
        | (Ok _, agg') => (solve (env_of agg') s, agg')
        end
    end.

  (** A parser that was given some texts before. *)
  Definition after (ss : list str) : table := fold_left (fun agg s => snd (parser_solve agg s)) ss empty_table.

  (** 477-503 [_parse_for_info], 573-582 [inspect] *)
  Record info := Info { i_class : kls; i_length : nat; i_pivot : option (str * list V); i_column : str; i_present : bool }.
  Definition parse_for_info (acc : str * str) : res info :=
    let '(event, column) := acc in
    do k <- resolve event ;;
    do f <- get_data_frame k ;;
    do p <- match k_pivot k with
            | None => Ok None
            | Some p => if has_col p (g_cols f) then Ok (Some (p, unique_values p (g_rows f))) else Err EKey
            end ;;
    Ok (Info k (List.length (g_rows f)) p column (has_col column (g_cols f))).
  Definition inspect (s : str) : res info :=
    match p_acc s with
    | PYes (AAcc e c) _ => parse_for_info (e, c)
    | _ => Err EParse
    end.
End Accessor.
Arguments gframe : clear implicits.
Arguments world : clear implicits.
Arguments table : clear implicits.
Arguments library : clear implicits.
