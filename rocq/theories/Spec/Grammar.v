(** Expressions, their values, and the texts that denote them by the table of
    operators in the documentation of [Parser]. *)
From Coq Require Import List Ascii String ZArith NArith Bool.
From Verif Require Import Lib.PyStr Model.Grammar.
Import ListNotations.
Local Open Scope list_scope.

Inductive exp :=
| ENum (text : str)
| EVar (name : str)
| EAcc (event column : str)
| ECall (f : str) (a : exp) (l : list exp)
| EUn (op : str) (a : exp)
| EBin (op : str) (a b : exp).

(** Operators and how tightly they bind, loosest last. *)
Definition table : list (nat * list str) :=
  [(1, [$"**"]); (3, [$"*"; $"/"; $"//"; $"%"]); (4, [$"+"; $"-"]);
   (5, [$">"; $"<"; $">="; $"<="; $"=="; $"!="]); (6, [$"&&"; $"||"; $"|"; $"&"])].
Definition op_level (op : str) (l : nat) : Prop := exists ops, In (l, ops) table /\ In op ops.

Section Value.
  Context {V : Type} (en : env V).
  Fixpoint value (e : exp) : res V :=
    match e with
    | ENum s => Ok (e_num en s)
    | EVar x => e_id en x
    | EAcc ev c => e_acc en ev c
    | ECall f a l =>
        do v <- value a ;;
        do vs <- (fix values (l : list exp) : res (list V) :=
                    match l with [] => Ok [] | a :: r => do v <- value a ;; do vs <- values r ;; Ok (v :: vs) end) l ;;
        do fn <- e_fun en f ;; fn (v :: vs)
    | EUn op a => do v <- value a ;; if eqs op $"-" then e_neg en v else Ok v
    | EBin op a b => do v <- value a ;; do w <- value b ;; e_op en op v w
    end.
End Value.

(** ** Texts *)
Definition white (w : str) : Prop := Forall (fun c => is_ws c = true) w.
Definition digits (s : str) : Prop := s <> [] /\ Forall (fun c => is_digit c = true) s.
Inductive Number : str -> Prop :=
| N_int d : digits d -> Number d
| N_real d f : digits d -> Forall (fun c => is_digit c = true) f -> Number (d ++ "."%char :: f)
| N_exp d f e g x : digits d -> Forall (fun c => is_digit c = true) f -> In e ["e"%char; "E"%char] ->
    In g [[]; ["+"%char]; ["-"%char]] -> digits x -> Number (d ++ "."%char :: f ++ e :: g ++ x).
Definition Name (s : str) : Prop := exists c r, s = c :: r /\ id_start c = true /\ Forall (fun c => id_char c = true) r.
Inductive Dotted : str -> Prop :=
| D_one s : Name s -> Dotted s
| D_more s t : Name s -> Dotted t -> Dotted (s ++ "."%char :: t).
Definition sign_char (c : ascii) : Prop := c = "+"%char \/ c = "-"%char.

(** [Text l e s]: [s] denotes [e] where operators of level at most [l] may appear
    outside parentheses; 0 is an operand, 2 the unary operators. *)
Inductive Text : nat -> exp -> str -> Prop :=
| T_num n : Number n -> Text 0 (ENum n) n
| T_var x : Name x -> Text 0 (EVar x) x
| T_acc ev w1 w2 c : Dotted ev -> white w1 -> white w2 -> Name c -> Text 0 (EAcc ev c) (ev ++ w1 ++ ":"%char :: w2 ++ c)
| T_paren e s w : Text 6 e s -> white w -> Text 0 e ("("%char :: s ++ w ++ [")"%char])
| T_call f w1 a s l t w2 : Dotted f -> white w1 -> Text 6 a s -> Texts l t -> white w2 ->
    Text 0 (ECall f a l) (f ++ w1 ++ "("%char :: s ++ t ++ w2 ++ [")"%char])
| T_unary op e s : sign_char op -> Text 2 e s -> Text 2 (EUn [op] e) (op :: s)
| T_binary l op a s b t w : op_level op (S l) -> Text (S l) a s -> Text l b t -> white w ->
    Text (S l) (EBin op a b) (s ++ w ++ op ++ t)
| T_power_signed a s w1 w2 g n : Text 1 a s -> white w1 -> white w2 -> sign_char g -> Number n ->
    Text 1 (EBin $"**" a (ENum (g :: n))) (s ++ w1 ++ $"**" ++ w2 ++ g :: n)
| T_looser l e s : l < 6 -> Text l e s -> Text (S l) e s
| T_white l e s w : white w -> Text l e s -> Text l e (w ++ s)
with Texts : list exp -> str -> Prop :=
| Ts_nil : Texts [] []
| Ts_cons w e s l t : white w -> Text 6 e s -> Texts l t -> Texts (e :: l) (w ++ ","%char :: s ++ t).

(** Nothing that could continue an expression: no part of a word or number, and,
    after white space, no operator, colon or opening parenthesis. *)
Definition head_not (cs : str) (s : str) : Prop := match s with c :: _ => ~ In c cs | [] => True end.
Definition Ends (s : str) : Prop :=
  match s with c :: _ => id_char c = false /\ c <> "."%char | [] => True end /\
  head_not $":(*/%+-<>=!&|" (skip s).
(** The same value, or no value on both sides (the exceptions may differ). *)
Definition agree {V} (x y : res V) : Prop := forall v, x = Ok v <-> y = Ok v.
(** Nothing raises an IndexError, which pyparsing takes for a failed match. *)
Definition NoIndex {V} (en : env V) : Prop :=
  (forall x, e_id en x <> Err EIndex) /\ (forall e c, e_acc en e c <> Err EIndex) /\
  (forall f, e_fun en f <> Err EIndex) /\ (forall f fn vs, e_fun en f = Ok fn -> fn vs <> Err EIndex) /\
  (forall v, e_neg en v <> Err EIndex) /\ (forall o v w, e_op en o v w <> Err EIndex).
