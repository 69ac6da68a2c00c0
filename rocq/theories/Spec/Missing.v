(** Frames whose rows lack some of the columns, in the files of the cache. *)
From Coq Require Import List Ascii String ZArith NArith Bool.
From Verif Require Import Lib.PyStr Lib.F64 Model.Base Spec.Tables Spec.Cached.
Import ListNotations.

(** Each name where it first occurs, [seen] being the ones before. *)
Inductive Firsts (seen : list str) : list str -> list str -> Prop :=
| firsts_nil : Firsts seen [] []
| firsts_new n l k : ~ In n seen -> Firsts (n :: seen) l k -> Firsts seen (n :: l) (n :: k)
| firsts_old n l k : In n seen -> Firsts seen l k -> Firsts seen (n :: l) k.

Section Missing.
  Context {F : Type}.
  Variables (frepr : F -> str) (fparse : str -> option F) (f_of : Z -> F) (num_cell : F -> cell).
  (** Some row has no such column. *)
  Definition Lacks (f : frame) (n : str) : Prop := exists r, In r f /\ forall c, ~ In (n, c) (snd r).
  (** Integers of 64 bits, whose floating point numbers are read back if some row lacks the column; or texts that come back. *)
  Definition column_sound (f : frame) (n : str) : Prop :=
    (forall c, in_col f n c -> exists z, c = CInt z /\ fits z /\
       (Lacks f n -> fparse (frepr (f_of z)) = Some (f_of z) /\ ~ na_text (frepr (f_of z)) /\ ~ int_text (frepr (f_of z)))) \/
    (exists ss, (forall c, in_col f n c <-> exists s, In s ss /\ c = CStr s) /\ texts_ok fparse ss).
  Definition frame_sound (f : frame) : Prop :=
    (exists n c, in_col f n c) /\ Forall (fun r : float * dict => NoDup (map fst (snd r))) f /\
    forall n c, in_col f n c -> n <> [] /\ n <> $"Time" /\ column_sound f n.
  (** A row as it is read back: its time, every column of the frame, texts as they were, integers as they were or, if some
      row lacks the column, as floating point numbers, and what it lacks missing. *)
  Definition ReadBack (f : frame) (names : list str) (r r' : float * dict) : Prop :=
    fst r' = fst r /\ map fst (snd r') = names /\
    forall n c, In (n, c) (snd r') ->
      (forall s, In (n, CStr s) (snd r) -> c = CStr s) /\
      (forall z, In (n, CInt z) (snd r) -> (Lacks f n -> c = num_cell (f_of z)) /\ (~ Lacks f n -> c = CInt z)) /\
      ((forall x, ~ In (n, x) (snd r)) -> c = CNone).
End Missing.
