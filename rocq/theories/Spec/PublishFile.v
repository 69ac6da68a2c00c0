(** The file that a notebook is published to. *)
From Coq Require Import List Ascii String.
From Verif Require Import Lib.PyStr Spec.Publish.
Import ListNotations.
Local Open Scope list_scope.

Definition Notebook (p : str) : Prop := exists x, p = x ++ $".ipynb".
Inductive Output : str -> str -> str -> Prop :=
| out_default notebook n : LastPart notebook n -> Output [] notebook ($"published_" ++ n)
| out_named outfile notebook : outfile <> [] -> Notebook outfile -> Output outfile notebook outfile
| out_extended outfile notebook : outfile <> [] -> ~ Notebook outfile -> Output outfile notebook (outfile ++ $".ipynb").
