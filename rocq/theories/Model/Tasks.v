(** The tasks of the load average events. *)
From Coq Require Import List Ascii String ZArith NArith Bool.
From Verif Require Import Lib.PyStr Lib.Regex Lib.F64 Model.Base.
Import ListNotations.
Local Open Scope list_scope.

Definition cell_eqb (a b : cell) : bool :=
  match a, b with CInt x, CInt y => Z.eqb x y | CStr x, CStr y => eqs x y | CNone, CNone => true | _, _ => false end.
Definition pair_eqb (a b : cell * cell) : bool := cell_eqb (fst a) (fst b) && cell_eqb (snd a) (snd b).
(** A row without the column has a missing value there; missing values are equal for [drop_duplicates]. *)
Definition col_of (k : str) (r : float * dict) : cell := match dlookup k (snd r) with Some c => c | None => CNone end.
Definition has_col (k : str) (fr : frame) : bool := existsb (fun r => match dlookup k (snd r) with Some _ => true | None => false end) fr.
(** [DataFrame.drop_duplicates] keeps the first of equal rows. *)
Fixpoint firsts (seen l : list (cell * cell)) : list (cell * cell) :=
  match l with
  | [] => []
  | x :: r => if existsb (pair_eqb x) seen then firsts seen r else x :: firsts (x :: seen) r
  end.
Definition is_text (c : cell) : bool := match c with CStr _ => true | _ => false end.
(** sched.py:55-61 [SchedLoadAvgTask.get_pids], as pandas with [ix] runs it: no column, KeyError; [.str] of a column
    without text, AttributeError; [str.contains] is missing for what is no text, and a mask with missing
    values is a ValueError.  In a column with missing values the numbers are floats, which equal the integers here. *)
Definition get_pids (key : re) (fr : frame) : res (list (cell * cell)) :=
  if negb (has_col $"comm" fr && has_col $"pid" fr) then Err EKey else
  let dfr := firsts [] (map (fun r => (col_of $"comm" r, col_of $"pid" r)) fr) in
  if negb (existsb (fun x => is_text (fst x)) dfr) then Err EAttribute else
  if negb (forallb (fun x => is_text (fst x)) dfr) then Err EValue else
  Ok (filter (fun x => match fst x with CStr s => match re_search key s with Some _ => true | None => false end | _ => false end) dfr).
