(** What drawing benchmark results should look like. *)
From Coq Require Import List Ascii String ZArith QArith Bool.
From Verif Require Import Lib.PyStr.
Import ListNotations.
Local Open Scope list_scope.

(** [v] is one of the numbers in the table. *)
Definition scored (columns : list (list (option Q))) (v : Q) : Prop := exists c, In c columns /\ In (Some v) c.
(** The least and the greatest number of the table, and the margin: a tenth of the range, at least one. *)
Definition least (columns : list (list (option Q))) (v : Q) : Prop := scored columns v /\ forall w, scored columns w -> (v <= w)%Q.
Definition greatest (columns : list (list (option Q))) (v : Q) : Prop := scored columns v /\ forall w, scored columns w -> (w <= v)%Q.
Definition a_margin (lo hi m : Q) : Prop := (m == (hi - lo) / 10 /\ 1 <= m)%Q \/ (m == 1 /\ (hi - lo) / 10 < 1)%Q.

(** A letter, as a pair of its forms. *)
Definition alphabet : list (ascii * ascii) :=
  combine (list_ascii_of_string "abcdefghijklmnopqrstuvwxyz") (list_ascii_of_string "ABCDEFGHIJKLMNOPQRSTUVWXYZ").
Definition letter (c : ascii) : Prop := exists p, In p alphabet /\ (c = fst p \/ c = snd p).
(** [c] as a title shows it, after [before]: underscores are blanks, the first letter of a word is great, the others small. *)
Inductive Titled : option ascii -> ascii -> ascii -> Prop :=
| T_blank before : Titled before "_" " "
| T_other before c : c <> "_"%char -> ~ letter c -> Titled before c c
| T_first before p c : (forall b, before = Some b -> ~ letter b) -> In p alphabet -> c = fst p \/ c = snd p -> Titled before c (snd p)
| T_inner b p c : letter b -> In p alphabet -> c = fst p \/ c = snd p -> Titled (Some b) c (fst p).
