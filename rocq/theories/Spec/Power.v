(** What cpu masks, pivoted tables and loads mean. *)
From Coq Require Import List Ascii String ZArith NArith Bool Sorted.
From Verif Require Import Lib.PyStr Lib.TotalOrder Model.Power.
Import ListNotations.
Local Open Scope list_scope.

(** The four bits of a hexadecimal digit, the highest first. *)
Definition nibble (c : ascii) : option (list bool) :=
  let o := true in let z := false in
  match c with
  | "0" => Some [z;z;z;z] | "1" => Some [z;z;z;o] | "2" => Some [z;z;o;z] | "3" => Some [z;z;o;o]
  | "4" => Some [z;o;z;z] | "5" => Some [z;o;z;o] | "6" => Some [z;o;o;z] | "7" => Some [z;o;o;o]
  | "8" => Some [o;z;z;z] | "9" => Some [o;z;z;o]
  | "a" | "A" => Some [o;z;o;z] | "b" | "B" => Some [o;z;o;o] | "c" | "C" => Some [o;o;z;z]
  | "d" | "D" => Some [o;o;z;o] | "e" | "E" => Some [o;o;o;z] | "f" | "F" => Some [o;o;o;o]
  | _ => None
  end%char.
(** A mask as the kernel prints it, and its bits, that of the highest cpu first. *)
Inductive MaskText : str -> list bool -> Prop :=
| MT_nil : MaskText [] []
| MT_comma s b : MaskText s b -> MaskText (","%char :: s) b
| MT_digit c n s b : nibble c = Some n -> MaskText s b -> MaskText (c :: s) (n ++ b).
(** The cpus of a mask. *)
Definition cpus_of (bits : list bool) : list nat :=
  filter (fun i => nth i (rev bits) false) (seq 0 (List.length bits)).

(** The last value known for a key at a time, of rows in time order. *)
Section Known.
  Context {T K V : Type} (le : T -> T -> Prop) .
  (** [v] is the value of row [i] of key [k], no later than [t], and no later row
      of the key no later than [t] has a value. *)
  Definition Known (rows : list (T * K * option V)) (k : K) (t : T) (v : V) : Prop :=
    exists pre t' post, rows = pre ++ (t', k, Some v) :: post /\ le t' t /\
      forall t'' w, In (t'', k, Some w) post -> ~ le t'' t.
  Definition Unknown (rows : list (T * K * option V)) (k : K) (t : T) : Prop :=
    forall t' w, In (t', k, Some w) rows -> ~ le t' t.
  (** What a cell must hold. *)
  Definition CellOf rows k t (c : option V) : Prop :=
    match c with Some v => Known rows k t v | None => Unknown rows k t end.
End Known.

(** The sum of some values, missing if one is missing. *)
Fixpoint sum_known (l : list (option Z)) : option Z :=
  match l with
  | [] => Some 0%Z
  | Some x :: r => match sum_known r with Some y => Some (x + y)%Z | None => None end
  | None :: _ => None
  end.
Definition is_max (m : Z) (l : list Z) : Prop := In m l /\ Forall (fun x => x <= m)%Z l.
(** Rows in time order, those of one key at different times. *)
Definition by_time {T K V} (leb : T -> T -> bool) (rows : list (T * K * V)) : Prop :=
  StronglySorted (fun r1 r2 => leb (fst (fst r1)) (fst (fst r2)) = true /\
                               (snd (fst r1) = snd (fst r2) -> fst (fst r1) <> fst (fst r2))) rows.
(** [cols] lists each key of the rows once. *)
Definition keys_of {T K V} (cols : list K) (rows : list (T * K * V)) : Prop :=
  NoDup cols /\ forall k, In k cols <-> exists t v, In (t, k, v) rows.
(** The columns whose name starts with "load". *)
Definition load_values (cols : list (str * option Z)) : list (option Z) :=
  map snd (filter (fun c => eqs (firstn 4 (fst c)) $"load") cols).
(** [Table leb rows label cols idx tab]: the index is made of the times, each key
    has a column of its label, and each cell is the last known value. *)
Definition Table {T K L V} (leb : T -> T -> bool) (rows : list (T * K * option V)) (label : K -> option L)
    (cols : list K) (idx : list T) (tab : list (L * list (option V))) : Prop :=
  StronglySorted (lt leb) idx /\ (forall t, In t idx <-> exists k v, In (t, k, v) rows) /\
  map (fun lc => Some (fst lc)) tab = map label cols /\
  forall k l col, In (l, col) tab -> label k = Some l -> In k cols ->
    Forall2 (fun t c => CellOf (fun a b => leb a b = true) rows k t c) idx col.
(** Rows of CpuInPower. *)
Definition key_row {T} (r : @irow T) : T * str * unit := (i_time r, i_cpus r, tt).
Definition irows_by_time {T} (leb : T -> T -> bool) (rows : list (@irow T)) : Prop := by_time leb (map key_row rows).
(** A mask with at least one digit. *)
Definition valid_mask (m : str) : Prop := exists bits, MaskText m bits /\ bits <> [].
