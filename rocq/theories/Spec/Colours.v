(** What a colour given as red, green and blue up to 255 looks like: the doubles nearest to the three parts of 255. *)
From Coq Require Import List NArith.
From Verif Require Import Lib.F64.
Import ListNotations.

Definition rendered (rgb : list N) : list float := map (fun c => f_of_ratio c 255) (firstn 3 rgb).
