(** Model of the frames in the files of the cache (trappy/base.py:301-334): the table
    pandas makes of the rows of [create_dataframe], its text, and the frame read back. *)
From Coq Require Import List Ascii String ZArith NArith Bool.
From Verif Require Import Lib.PyStr Lib.F64 Model.Base Model.Csv.
Import ListNotations.

Section CsvCache.
  (** The floating point values of columns with missing cells: how an integer becomes
      one, and its text.  The cells of a frame are integers, text and missing values;
      other values read from a file are shown through [num_cell] and [bool_cell]. *)
  Context {F : Type}.
  Variables (trepr : float -> str) (tparse : str -> option float) (frepr : F -> str) (fparse : str -> option F)
            (f_of : Z -> F) (num_cell : F -> cell) (bool_cell : bool -> cell).

  (** base.py:301-311: the columns of [pd.DataFrame(rows)] in the order in which
      their names first appear, with the cells of all rows. *)
  Definition add_names (seen : list str) (d : dict) : list str :=
    seen ++ filter (fun n => negb (existsb (eqs n) seen)) (map fst d).
  Definition col_names (f : frame) : list str := fold_left (fun seen r => add_names seen (snd r)) f [].
  Definition col_cells (f : frame) (n : str) : list cell :=
    map (fun r => match dlookup n (snd r) with Some c => c | None => CNone end) f.
  (** The type of a column: integers of 64 bits; with missing cells, floating point
      numbers; else Python objects. *)
  Definition small_int (c : cell) : bool := match c with CInt z => int64 z | _ => false end.
  Definition number (c : cell) : bool := match c with CInt z => int64 z | CNone => true | _ => false end.
  Definition cell_int (c : cell) : Z := match c with CInt z => z | _ => 0%Z end.
  Definition cell_float (c : cell) : option F := match c with CInt z => Some (f_of z) | _ => None end.
  Definition cell_obj (c : cell) : obj := match c with CInt z => OInt z | CStr s => OStr s | CNone => ONone end.
  Definition col_of (cs : list cell) : column F :=
    if forallb small_int cs then ColInt (map cell_int cs)
    else if forallb number cs then ColFloat (map cell_float cs)
    else ColObj (map cell_obj cs).
  Definition frame_table (f : frame) : table float F :=
    Tab (map fst f) (map (fun n => (n, col_of (col_cells f n))) (col_names f)).

  (** The cells of a table. *)
  Definition obj_cell (o : obj) : cell := match o with OInt z => CInt z | OStr s => CStr s | ONone => CNone end.
  Definition cells_of (c : column F) : list cell :=
    match c with
    | ColInt zs => map CInt zs
    | ColFloat xs => map (fun x => match x with Some x => num_cell x | None => CNone end) xs
    | ColBool bs => map bool_cell bs
    | ColObj os => map obj_cell os
    end.
  Definition table_frame (t : table float F) : frame :=
    map (fun it => (snd it, map (fun nc => (fst nc, nth (fst it) (cells_of (snd nc)) CNone)) (tb_cols t)))
        (combine (seq 0 (List.length (tb_times t))) (tb_times t)).

  (** base.py:313-334 [write_csv], [read_csv]. *)
  Definition csv_of (f : frame) : str := write_csv trepr frepr (frame_table f).
  Definition frame_of (text : str) : option frame := option_map table_frame (read_csv tparse fparse text).
End CsvCache.
