(** A grid of plots in reading order. *)
From Coq Require Import ZArith.
Local Open Scope Z_scope.
Definition in_grid (rows cols : Z) (rc : Z * Z) : Prop := 0 <= fst rc < rows /\ 0 <= snd rc < cols.
(** [rc] is the [i]-th cell. *)
Definition ith_cell (rows cols : Z) (i : Z) (rc : Z * Z) : Prop := in_grid rows cols rc /\ fst rc * cols + snd rc = i.
