(** Model of the cached tables (trappy/base.py:313-334): [DataFrame.to_csv] and
    [pandas.read_csv(index_col=0, converters={'Time': float})].  pandas is not part
    of the repository; this is its documented behaviour with default options. *)
From Coq Require Import List Ascii String ZArith NArith Bool.
From Verif Require Import Lib.PyStr.
Import ListNotations.
Local Open Scope list_scope.

(** ** Text *)
Definition dq : ascii := ascii_of_N 34.
Definition cr : ascii := ascii_of_N 13.
Definition comma : ascii := ","%char.
Definition special (c : ascii) : bool := is_ch comma c || is_ch dq c || is_ch nl c || is_ch cr c.
(** csv.QUOTE_MINIMAL *)
Definition csv_field (s : str) : str :=
  if existsb special s
  then [dq] ++ flat_map (fun c => if is_ch dq c then [dq; dq] else [c]) s ++ [dq]
  else s.
(** A row whose only field is empty is written as a pair of quotes. *)
Definition csv_row (fs : list str) : str :=
  match fs with
  | [[]] => [dq; dq; nl]
  | _ => join [comma] (map csv_field fs) ++ [nl]
  end.
Definition csv_text (rows : list (list str)) : str := List.concat (map csv_row rows).

(** The C tokenizer; [cur] and [row] are kept in reverse.  Blank lines are
    skipped; a carriage return ends a record like a newline.  Lines of blanks only
    are not treated specially (no record starts with a blank here). *)
Inductive tstate := SRec | SField | SPlain | SQuoted | SQuoteEnd.
Definition is_eol (c : ascii) : bool := is_ch nl c || is_ch cr c.
Fixpoint tok (st : tstate) (cur : str) (row : list str) (s : str) : list (list str) :=
  match s with
  | [] => match st with SRec => [] | _ => [rev (rev cur :: row)] end
  | c :: rest =>
      match st with
      | SRec | SField =>
          if is_ch dq c then tok SQuoted [] row rest
          else if is_ch comma c then tok SField [] ([] :: row) rest
          else if is_eol c then
            match st with
            | SRec => tok SRec [] [] rest
            | _ => rev ([] :: row) :: tok SRec [] [] rest
            end
          else tok SPlain [c] row rest
      | SPlain =>
          if is_ch comma c then tok SField [] (rev cur :: row) rest
          else if is_eol c then rev (rev cur :: row) :: tok SRec [] [] rest
          else tok SPlain (c :: cur) row rest
      | SQuoted => if is_ch dq c then tok SQuoteEnd cur row rest else tok SQuoted (c :: cur) row rest
      | SQuoteEnd =>
          if is_ch dq c then tok SQuoted (c :: cur) row rest
          else if is_ch comma c then tok SField [] (rev cur :: row) rest
          else if is_eol c then rev (rev cur :: row) :: tok SRec [] [] rest
          else tok SPlain (c :: cur) row rest
      end
  end.
Definition csv_parse (s : str) : list (list str) := tok SRec [] [] s.

(** ** Columns *)
(** Missing-value words. *)
Definition na_words : list str :=
  [[]; $"#N/A"; $"#N/A N/A"; $"#NA"; $"-1.#IND"; $"-1.#QNAN"; $"-NaN"; $"-nan"; $"1.#IND"; $"1.#QNAN";
   $"<NA>"; $"N/A"; $"NA"; $"NULL"; $"NaN"; $"None"; $"n/a"; $"nan"; $"null"].
Definition is_na (s : str) : bool := existsb (eqs s) na_words.
Definition bool_words : list (str * bool) :=
  [($"True", true); ($"TRUE", true); ($"true", true); ($"False", false); ($"FALSE", false); ($"false", false)].
(** Integer text: sign and decimal digits, within 64 bits. *)
Definition int64 (z : Z) : bool := (-9223372036854775808 <=? z)%Z && (z <=? 9223372036854775807)%Z.
Definition csv_int (s : str) : option Z :=
  let (neg, d) := sign_split s in
  if forallb is_digit d then
    match parse_digits 10 d with
    | Some n => let z := apply_sign neg n in if int64 z then Some z else None
    | None => None
    end
  else None.

Section Tables.
  (** Times, and floating point values of other columns, with their text. *)
  Context {T F : Type}.
  Variables (trepr : T -> str) (tparse : str -> option T) (frepr : F -> str) (fparse : str -> option F).

  (** A value of an object column: payloads give integers and text. *)
  Inductive obj := OInt (z : Z) | OStr (s : str) | ONone.
  Inductive column :=
  | ColInt (zs : list Z) | ColFloat (xs : list (option F)) | ColBool (bs : list bool) | ColObj (os : list obj).
  Record table := Tab { tb_times : list T; tb_cols : list (str * column) }.

  Definition obj_text (o : obj) : str :=
    match o with OInt z => str_of_Z z | OStr s => s | ONone => [] end.
  Definition col_text (c : column) : list str :=
    match c with
    | ColInt zs => map str_of_Z zs
    | ColFloat xs => map (fun x => match x with Some x => frepr x | None => [] end) xs
    | ColBool bs => map (fun b : bool => if b then $"True" else $"False") bs
    | ColObj os => map obj_text os
    end.
  (** base.py:313-319 [write_csv]; an empty frame has no index name. *)
  Fixpoint zip_rows (times : list str) (cols : list (list str)) : list (list str) :=
    match times with
    | [] => []
    | t :: rest => (t :: map (fun c => hd [] c) cols) :: zip_rows rest (map (fun c => tl c) cols)
    end.
  Definition write_csv (t : table) : str :=
    csv_text ((match tb_times t with [] => [] | _ => $"Time" end :: map fst (tb_cols t))
              :: zip_rows (map trepr (tb_times t)) (map (fun c => col_text (snd c)) (tb_cols t))).

  (** Type inference over the cells of one column: integers, floating point
      numbers, truth values, text. *)
  Fixpoint all_some {A B} (f : A -> option B) (l : list A) : option (list B) :=
    match l with
    | [] => Some []
    | a :: r => match f a, all_some f r with Some b, Some bs => Some (b :: bs) | _, _ => None end
    end.
  Definition infer (cells : list str) : column :=
    match cells with
    | [] => ColObj []
    | _ =>
      match all_some (fun s => if is_na s then None else csv_int s) cells with
      | Some zs => ColInt zs
      | None =>
          match all_some (fun s => if is_na s then Some None else option_map Some (fparse s)) cells with
          | Some xs => ColFloat xs
          | None =>
              match all_some (fun s => dget eqs s bool_words) cells with
              | Some bs => ColBool bs
              | None => ColObj (map (fun s => if is_na s then ONone else OStr s) cells)
              end
          end
      end
    end.
  (** base.py:321-334 [read_csv]: short records are padded, long ones are an error
      (here and for unreadable times: None, as any exception makes the caller parse
      the trace again).  An unnamed column gets a name of its own and a repeated
      name a number. *)
  Fixpoint name_cols (i : nat) (seen names : list str) : list str :=
    match names with
    | [] => []
    | n :: rest =>
        (match n with
         | [] => $"Unnamed: " ++ str_of_nat i
         | _ => match List.length (filter (eqs n) seen) with
                | O => n
                | S k => n ++ $"." ++ str_of_nat (S k)
                end
         end) :: name_cols (S i) (n :: seen) rest
    end.
  Definition read_csv (text : str) : option table :=
    match csv_parse text with
    | [] => None
    | header :: body =>
        let names := tl header in
        if forallb (fun r => (List.length r <=? List.length header)%nat) body then
          match all_some (fun r => tparse (hd [] r)) body with
          | Some times =>
              Some (Tab times (combine (name_cols 1 [hd [] header] names)
                     (map (fun i => infer (map (fun r => nth (S i) r []) body)) (seq 0 (List.length names)))))
          | None => None
          end
        else None
    end.
End Tables.
Arguments column : clear implicits.
Arguments table : clear implicits.
