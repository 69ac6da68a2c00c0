(** Payload words, some of which are empty arrays. *)
From Coq Require Import List Ascii String ZArith NArith Bool.
From Verif Require Import Lib.PyStr Model.Base.
Import ListNotations.

Inductive pword := Empty (name : str) | Other (text : str).
Definition pword_str (w : pword) : str :=
  match w with Empty n => n ++ $"={}" | Other t => t end.
Definition pword_ok (w : pword) : Prop :=
  match w with
  | Empty n => n <> [] /\ Forall (fun c => is_ident c = true) n
  | Other t => ~ In " "%char t /\ ~ exists a b, t = a ++ $"={}" ++ b
  end.
Definition keep (w : pword) : bool := match w with Empty _ => false | Other _ => true end.
(** words each followed by one blank, then the last word *)
Definition words_str (ws : list pword) (last : pword) : str :=
  flat_map (fun w => pword_str w ++ $" ") ws ++ pword_str last.
