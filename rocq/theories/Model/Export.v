(** Model of the notebook export filter, trappy/nbexport/exporter.py. *)
From Coq Require Import List Ascii String ZArith NArith Bool.
From Verif Require Import Lib.PyStr Lib.Regex.
Import ListNotations.

(** exporter.py:27-29 *)
Definition remove_start : str := $"/* TRAPPY_PUBLISH_REMOVE_START */".
Definition remove_stop : str := $"/* TRAPPY_PUBLISH_REMOVE_STOP */".
Definition remove_line : str := $"/* TRAPPY_PUBLISH_REMOVE_LINE */".

Definition quote : ascii := """"%char.
Definition not_quote (c : ascii) : bool := negb (Ascii.eqb c quote).
(** exporter.py:30; the group is one or more characters other than the double quote *)
Definition pat_import : re :=
  RSeqs [RLit ($"/* TRAPPY_PUBLISH_IMPORT = " ++ [quote]); RGrp 1 (RPlus (RCls not_quote)); RLit (quote :: $" */")].
(** exporter.py:31, likewise *)
Definition pat_source : re :=
  RSeqs [RLit ($"<!-- TRAPPY_PUBLISH_SOURCE_LIB = " ++ [quote]); RGrp 1 (RPlus (RCls not_quote)); RLit (quote :: $" -->")].

(** [os.path.join(base, f)] of posixpath, used at exporter.py:81 *)
Definition path_join (base f : str) : str :=
  if is_prefix $"/" f then f
  else if eqs base [] || is_suffix $"/" base then base ++ f
  else base ++ $"/" ++ f.

Definition nl : ascii := ascii_of_N 10.

(** [[l[:-1] for l in fin.readlines()]], exporter.py:86: every line loses its
    last character, which is the newline except perhaps on the last line. *)
Fixpoint chop_lines (ls : list str) : list str :=
  match ls with
  | [] => []
  | [l] => match l with [] => [] | _ => [removelast l] end
  | l :: r => l :: chop_lines r
  end.
Definition readlines_chopped (content : str) : list str := chop_lines (split_ch nl content).

(** exporter.py:95 *)
Definition script_tag (url : str) : str :=
  $"<script src=" ++ [quote] ++ url ++ [quote] ++ $" type=" ++ [quote] ++ $"text/javascript" ++ [quote] ++
  $" charset=" ++ [quote] ++ $"utf-8" ++ [quote] ++ $"></script>".

(** What the filter finds around it: the directory of the package and the
    text of each readable file ([None]: [open] raises).  Text mode, so the
    contents are after newline translation. *)
Record env := Env { e_base : str; e_file : str -> option str }.
(** [self.inlined_files], [self.sourced_libs], exporter.py:46-49 *)
Record pstate := PS { ps_inlined : list str; ps_sourced : list str }.
Definition ps_init : pstate := PS [] [].
Definition mem (x : str) (l : list str) : bool := existsb (eqs x) l.

(** The loop of [filter_output], exporter.py:67-102: [rm] is
    [multi_line_remove]; returns the final lines and the new state. *)
Fixpoint filter_lines (w : env) (s : pstate) (rm : bool) (lines : list str) : res (list str * pstate) :=
  match lines with
  | [] => Ok ([], s)
  | line :: r =>
      if contains remove_start line then filter_lines w s true r
      else if contains remove_stop line then filter_lines w s false r
      else if rm || contains remove_line line then filter_lines w s rm r
      else match re_search pat_import line with
           | Some m =>
               let f := path_join (e_base w) (match group 1 m with Some g => g | None => [] end) in
               if mem f (ps_inlined s) then filter_lines w s rm r
               else match e_file w f with
                    | None => Err EIO
                    | Some c =>
                        do x <- filter_lines w (PS (ps_inlined s ++ [f]) (ps_sourced s)) rm r ;;
                        Ok (readlines_chopped c ++ fst x, snd x)
                    end
           | None =>
               match re_search pat_source line with
               | Some m =>
                   let u := match group 1 m with Some g => g | None => [] end in
                   if mem u (ps_sourced s) then filter_lines w s rm r
                   else do x <- filter_lines w (PS (ps_inlined s) (ps_sourced s ++ [u])) rm r ;;
                        Ok (script_tag u :: fst x, snd x)
               | None =>
                   do x <- filter_lines w s rm r ;; Ok (line :: fst x, snd x)
               end
           end
  end.

(** [filter_output], exporter.py:62-104 *)
Definition filter_output (w : env) (s : pstate) (text : str) : res (str * pstate) :=
  do x <- filter_lines w s false (split_ch nl text) ;;
  Ok (join [nl] (fst x), snd x).

(** Notebook cells as far as the exporter looks at them: the type, the outputs
    (absent for cells that have none), and for each output its type and its
    [text/html] datum.  [X] stands for everything else they hold. *)
Record output (X : Type) := Out { o_type : str; o_html : option str; o_rest : X }.
Record cell (X : Type) := Cell { c_type : str; c_outputs : option (list (output X)); c_rest : X }.
Arguments Out {X} _ _ _. Arguments o_type {X} _. Arguments o_html {X} _. Arguments o_rest {X} _.
Arguments Cell {X} _ _ _. Arguments c_type {X} _. Arguments c_outputs {X} _. Arguments c_rest {X} _.

Section cells.
  Context {X : Type} (w : env).
  (** exporter.py:55-59 *)
  Definition do_output (s : pstate) (o : output X) : res (output X * pstate) :=
    match o_html o with
    | Some t =>
        if eqs (o_type o) $"display_data" then
          do x <- filter_output w s t ;; Ok (Out (o_type o) (Some (fst x)) (o_rest o), snd x)
        else Ok (o, s)
    | None => Ok (o, s)
    end.
  Fixpoint do_outputs (s : pstate) (os : list (output X)) : res (list (output X) * pstate) :=
    match os with
    | [] => Ok ([], s)
    | o :: r => do x <- do_output s o ;; do y <- do_outputs (snd x) r ;; Ok (fst x :: fst y, snd y)
    end.
  (** [preprocess_cell], exporter.py:51-60 *)
  Definition do_cell (s : pstate) (c : cell X) : res (cell X * pstate) :=
    if eqs (c_type c) $"code" then
      match c_outputs c with
      | Some os => do x <- do_outputs s os ;; Ok (Cell (c_type c) (Some (fst x)) (c_rest c), snd x)
      | None => Ok (c, s)
      end
    else Ok (c, s).
  (** nbconvert's [Preprocessor.preprocess] calls [preprocess_cell] on every
      cell in order. *)
  Fixpoint do_cells (s : pstate) (cs : list (cell X)) : res (list (cell X) * pstate) :=
    match cs with
    | [] => Ok ([], s)
    | c :: r => do x <- do_cell s c ;; do y <- do_cells (snd x) r ;; Ok (fst x :: fst y, snd y)
    end.
  Definition export (cs : list (cell X)) : res (list (cell X)) := do x <- do_cells ps_init cs ;; Ok (fst x).
End cells.
