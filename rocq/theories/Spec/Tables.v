(** Which tables can be read back from their CSV text. *)
From Coq Require Import List Ascii String ZArith NArith Bool.
From Verif Require Import Lib.PyStr Spec.Lines Model.Csv.
Import ListNotations.

(** Text that looks like a missing value, an integer, a truth value. *)
Definition na_text (s : str) : Prop :=
  In s [[]; $"#N/A"; $"#N/A N/A"; $"#NA"; $"-1.#IND"; $"-1.#QNAN"; $"-NaN"; $"-nan"; $"1.#IND"; $"1.#QNAN";
        $"<NA>"; $"N/A"; $"NA"; $"NULL"; $"NaN"; $"None"; $"n/a"; $"nan"; $"null"].
Definition int_text (s : str) : Prop := exists sign ds, s = sign ++ ds /\ In sign [[]; $"-"; $"+"] /\ ds <> [] /\
  Forall (fun c => is_digit c = true) ds.
(** Text that is read as an integer of 64 bits. *)
Definition int_value (s : str) (z : Z) : Prop := exists sign ds, s = sign ++ ds /\ digits ds /\
  (In sign [[]; $"+"] /\ z = Z.of_N (dec_val ds) \/ sign = $"-" /\ z = (- Z.of_N (dec_val ds))%Z).
Definition whole (s : str) : Prop := exists z, int_value s z /\ (-2^63 <= z < 2^63)%Z.
Definition bool_text (s : str) : Prop := In s [$"True"; $"TRUE"; $"true"; $"False"; $"FALSE"; $"false"].

Section Ok.
  Context {T F : Type}.
  Variables (trepr : T -> str) (tparse : str -> option T) (frepr : F -> str) (fparse : str -> option F).
  Definition text_of (o : obj) : option str := match o with OStr s => Some s | _ => None end.
  (** Integers that fit; floats whose text reads back and is not an integer's; truth
      values; text
      columns without integers and missing-value words, with at least one cell that
      is no number and no truth value. *)
  Definition col_ok (c : column F) : Prop :=
    match c with
    | ColInt zs => Forall (fun z => -2^63 <= z < 2^63)%Z zs
    | ColFloat xs =>
        Forall (fun o => match o with
                         | Some x => fparse (frepr x) = Some x /\ ~ na_text (frepr x) /\ ~ int_text (frepr x)
                         | None => True end) xs
    | ColBool _ => fparse $"True" = None /\ fparse $"False" = None
    | ColObj os =>
        Forall (fun o => match o with OInt _ => False | OStr s => ~ na_text s | ONone => True end) os /\
        exists s, In (OStr s) os /\ fparse s = None /\ ~ whole s /\ ~ bool_text s
    end.
  (** The truth value a word stands for; the name of the column at a place, [before]
      being the names to its left: without a name it is numbered, and if the name was
      used before it gets a number too. *)
  Definition stands_for (s : str) : bool := match s with c :: _ => (Ascii.eqb c "T" || Ascii.eqb c "t")%bool | [] => false end.
  Definition Named (before : list str) (n n' : str) : Prop :=
    (n = [] -> n' = $"Unnamed: " ++ str_of_nat (List.length before)) /\
    (n <> [] -> ~ In n before -> n' = n) /\
    (n <> [] -> In n before -> n' = n ++ $"." ++ str_of_nat (count_occ (list_eq_dec ascii_dec) before n)).
  Definition col_len (c : column F) : nat :=
    match c with ColInt l => List.length l | ColFloat l => List.length l | ColBool l => List.length l | ColObj l => List.length l end.
  (** A frame as [create_dataframe] leaves it: rows, named columns of one length. *)
  Definition table_ok (t : table T F) : Prop :=
    tb_times t <> [] /\ tb_cols t <> [] /\ NoDup ($"Time" :: map fst (tb_cols t)) /\
    Forall (fun x => tparse (trepr x) = Some x) (tb_times t) /\
    Forall (fun nc => fst nc <> [] /\ col_len (snd nc) = List.length (tb_times t) /\ col_ok (snd nc)) (tb_cols t).
End Ok.
