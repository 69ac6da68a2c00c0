(** Signal definitions: [event:column] or [event:column:colour]. *)
From Coq Require Import List Ascii String ZArith NArith Bool.
From Verif Require Import Lib.PyStr.
Import ListNotations.

Definition NL : ascii := ascii_of_N 10.
Definition Name (s : str) : Prop := s <> [] /\ ~ In ":"%char s.
(** Event, column and the text of the colour.  A colour is what follows the second
    colon up to the end of the line; when that is empty there is none. *)
Inductive Signal : str -> str -> str -> option str -> Prop :=
| Sig_plain ev col : Name ev -> Name col -> Signal (ev ++ ":"%char :: col) ev col None
| Sig_empty ev col u : Name ev -> Name col -> u = [] \/ (exists r, u = NL :: r) -> Signal (ev ++ ":"%char :: col ++ ":"%char :: u) ev col None
| Sig_colour ev col t u : Name ev -> Name col -> t <> [] -> ~ In NL t -> u = [] \/ (exists r, u = NL :: r) ->
    Signal (ev ++ ":"%char :: col ++ ":"%char :: t ++ u) ev col (Some t).
(** One, two or three components; only the last of three may contain commas (and is then no number). *)
Inductive Parts : str -> list str -> Prop :=
| P1 a : ~ In ","%char a -> Parts a [a]
| P2 a b : ~ In ","%char a -> ~ In ","%char b -> Parts (a ++ ","%char :: b) [a; b]
| P3 a b c : ~ In ","%char a -> ~ In ","%char b -> Parts (a ++ ","%char :: b ++ ","%char :: c) [a; b; c].
(** A component is an integer of Python, hexadecimal when it starts with 0x. *)
Definition Component (t : str) (z : Z) : Prop :=
  (exists r, t = $"0x" ++ r) /\ py_int16 t = Some z \/ (forall r, t <> $"0x" ++ r) /\ py_int10 t = Some z.
Definition Colour (t : option str) (c : option (list Z)) : Prop :=
  match t, c with
  | None, None => True
  | Some t, Some zs => exists ps, Parts t ps /\ Forall2 Component ps zs
  | _, _ => False
  end.
(** The class of an event is that of the first trace that defines it. *)
Definition FirstDef {C} (traces : list (list (str * C))) (ev : str) (c : C) : Prop :=
  exists before t after, traces = before ++ t :: after /\ dget eqs ev t = Some c /\ Forall (fun t => ~ In ev (map fst t)) before.
Definition Means {C} (traces : list (list (str * C))) (s : str) (x : C * str * option (list Z)) : Prop :=
  exists ev t, Signal s ev (snd (fst x)) t /\ Colour t (snd x) /\ FirstDef traces ev (fst (fst x)).
