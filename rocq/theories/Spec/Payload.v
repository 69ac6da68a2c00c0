(** Specification vocabulary for event payloads, independent of the parser. *)
From Coq Require Import List Ascii String ZArith NArith Bool.
From Verif Require Import Lib.PyStr Lib.PyStrFacts.
Import ListNotations.

(** [Words s ws]: [ws] are the maximal blank-free pieces of [s], in order. *)
Inductive Words : str -> list str -> Prop :=
| Words_nil sp : all_space sp -> Words sp []
| Words_cons sp w r ws :
    all_space sp -> word_ok w ->
    (r = [] \/ exists c r', r = c :: r' /\ is_space c = true) ->
    Words r ws -> Words (sp ++ w ++ r) (w :: ws).

(** A field [key=value] followed by bare words (the rest of a text value). *)
Record pgroup := Grp { g_key : str; g_val : str; g_more : list str }.
Definition g_words (g : pgroup) : list str := (g_key g ++ "="%char :: g_val g) :: g_more g.
Definition group_ok (g : pgroup) : Prop :=
  ~ In "="%char (g_key g) /\ Forall (fun w => ~ In "="%char w) (g_more g).

(** The literals Python's [int(text, 0)] accepts: digits in base [b] with
    single underscores between them. *)
Inductive digs (b : N) : str -> N -> Prop :=
| digs_one c d : digit_val c = Some d -> (d < b)%N -> digs b [c] d
| digs_snoc s n c d : digs b s n -> digit_val c = Some d -> (d < b)%N -> digs b (s ++ [c]) (n * b + d)
| digs_us s n c d : digs b s n -> digit_val c = Some d -> (d < b)%N ->
    digs b (s ++ ["_"%char; c]) (n * b + d).

Inductive ulit : str -> N -> Prop :=
| ulit_hex x u s n : (x = "x"%char \/ x = "X"%char) -> (u = [] \/ u = ["_"%char]) ->
    digs 16 s n -> ulit ("0"%char :: x :: u ++ s) n
| ulit_oct x u s n : (x = "o"%char \/ x = "O"%char) -> (u = [] \/ u = ["_"%char]) ->
    digs 8 s n -> ulit ("0"%char :: x :: u ++ s) n
| ulit_bin x u s n : (x = "b"%char \/ x = "B"%char) -> (u = [] \/ u = ["_"%char]) ->
    digs 2 s n -> ulit ("0"%char :: x :: u ++ s) n
| ulit_dec c s n : c <> "0"%char -> digs 10 (c :: s) n -> ulit (c :: s) n
| ulit_zero s : digs 10 s 0 -> ulit s 0.

Inductive int_literal : str -> Z -> Prop :=
| il_plain s n : ulit s n -> int_literal s (Z.of_N n)
| il_plus s n : ulit s n -> int_literal ("+"%char :: s) (Z.of_N n)
| il_minus s n : ulit s n -> int_literal ("-"%char :: s) (- Z.of_N n).
