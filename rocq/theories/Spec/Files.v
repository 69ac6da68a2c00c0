(** Specification of the file choice and of header metadata. *)
From Coq Require Import List Ascii String ZArith NArith Bool.
From Verif Require Import Lib.PyStr Spec.Lines.
Import ListNotations.
Local Open Scope list_scope.

(** A path is a directory part and a last component. *)
Definition dir_part (d : str) : Prop := d = [] \/ exists a, d = a ++ $"/".
Definition component (n : str) : Prop := ~ In "/"%char n.
Definition dots (l : str) : Prop := Forall (fun c => c = "."%char) l.
Definition extension (e : str) : Prop := ~ In "."%char e /\ ~ In "/"%char e.
(** The path without its extension.  Leading dots of the last component do not
    start an extension. *)
Inductive Stem : str -> str -> Prop :=
| Stem_ext d l c b e : dir_part d -> component (l ++ c :: b) -> dots l -> c <> "."%char -> extension e ->
    Stem (d ++ l ++ c :: b ++ $"." ++ e) (d ++ l ++ c :: b)
| Stem_none d l r : dir_part d -> component (l ++ r) -> dots l -> ~ In "."%char r ->
    Stem (d ++ l ++ r) (d ++ l ++ r).
(** Paths whose last component is more than dots. *)
Definition plain (p : str) : Prop := exists d l c b, p = d ++ l ++ c :: b /\ dir_part d /\ component (l ++ c :: b) /\ dots l /\ c <> "."%char.
(** The name "trace" in a directory. *)
Definition InDir (base stem : str) : Prop :=
  (dir_part base -> stem = base ++ $"trace") /\ (~ dir_part base -> stem = base ++ $"/trace").
Definition Named (isfile : str -> bool) (base stem : str) : Prop :=
  (isfile base = true /\ Stem base stem) \/ (isfile base = false /\ InDir base stem).

(** A header line giving a value to a key. *)
Definition all_blank (s : str) : Prop := Forall (fun c => is_space c = true) s.
Definition HeaderLine (key value line : str) : Prop :=
  exists sp1 sp2 rest, line = key ++ sp1 ++ $"=" ++ sp2 ++ value ++ rest /\
    all_blank sp1 /\ all_blank sp2 /\ digits value /\
    (forall c r, rest = c :: r -> is_digit c = false).
(** The header: the lines up to the first trace line, which is included. *)
Inductive Header : list str -> list str -> Prop :=
| Hd_nil : Header [] []
| Hd_last l f : TraceLine l -> Header (l :: f) [l]
| Hd_more l f h : ~ TraceLine l -> Header f h -> Header (l :: f) (l :: h).
(** The value of a key: that of the first header line for it. *)
Definition HeaderValue (file : list str) (key value : str) : Prop :=
  exists h pre l post, Header file h /\ h = pre ++ l :: post /\ HeaderLine key value l /\
    Forall (fun l' => forall v, ~ HeaderLine key v l') pre.
