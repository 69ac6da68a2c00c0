(** The characters of expressions and the words that are read as numbers, as
    Python and the documentation of pyparsing give them. *)
From Coq Require Import List Ascii String Bool.
From Verif Require Import Lib.PyStr.
Import ListNotations.
Local Open Scope list_scope.

Definition spaces : str := [" "%char; "009"%char; "010"%char; "013"%char].
Definition figures : str := $"0123456789".
Definition small : str := $"abcdefghijklmnopqrstuvwxyz".
Definition capital : str := $"ABCDEFGHIJKLMNOPQRSTUVWXYZ".
(** A letter and a small letter, whatever the case of the first. *)
Definition SameLetter (a b : ascii) : Prop :=
  exists i, nth_error small i = Some b /\ (nth_error small i = Some a \/ nth_error capital i = Some a).
(** What Python's [float] takes as a number although it is a name. *)
Definition NumberWord (x : str) : Prop :=
  exists w, In w [$"nan"; $"inf"; $"infinity"] /\ Forall2 SameLetter x w.
