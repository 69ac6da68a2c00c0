(** Model of trappy/utils.py [handle_duplicate_index].
    The index is a list over any type of numbers, so that the same definitions
    run on IEEE doubles and on exact rationals. *)
From Coq Require Import List Arith ZArith Bool QArith Qcanon.
From Verif Require Import Lib.F64.
Import ListNotations.
Local Open Scope nat_scope.

(** The arithmetic used by the function. *)
Record arith (T : Type) := Arith {
  a_lt : T -> T -> bool; a_eq : T -> T -> bool;
  a_add : T -> T -> T; a_sub : T -> T -> T; a_divz : T -> Z -> T }.
Arguments a_lt {T}. Arguments a_eq {T}. Arguments a_add {T}. Arguments a_sub {T}. Arguments a_divz {T}.

Section Dups.
  Context {T : Type} (A : arith T).

  (** numpy's binary search: [p] holds on elements left of the result. *)
  Fixpoint bsearch (fuel lo hi : nat) (p : T -> bool) (arr : list T) : nat :=
    match fuel with
    | O => lo
    | S f =>
        if lo <? hi then
          let mid := lo + (hi - lo) / 2 in
          if match nth_error arr mid with Some x => p x | None => false end
          then bsearch f (S mid) hi p arr else bsearch f lo mid p arr
        else lo
    end.
  (** utils.py:83-84 [index.searchsorted(dup, side)] *)
  Definition search_left (dup : T) (arr : list T) : nat :=
    bsearch (S (List.length arr)) 0 (List.length arr) (fun x => a_lt A x dup) arr.
  Definition search_right (dup : T) (arr : list T) : nat :=
    bsearch (S (List.length arr)) 0 (List.length arr) (fun x => negb (a_lt A dup x)) arr.

  (** utils.py:79 [index[index.duplicated()].unique()] *)
  Fixpoint dup_values (seen out : list T) (arr : list T) : list T :=
    match arr with
    | [] => out
    | x :: rest =>
        if existsb (a_eq A x) seen
        then if existsb (a_eq A x) out then dup_values seen out rest
             else dup_values seen (out ++ [x]) rest
        else dup_values (x :: seen) out rest
    end.

  (** [new_index[i] += delta] *)
  Fixpoint bump_at (i : nat) (delta : T) (arr : list T) : list T :=
    match arr, i with
    | [], _ => []
    | x :: rest, O => a_add A x delta :: rest
    | x :: rest, S j => x :: bump_at j delta rest
    end.
  (** utils.py:103-107: the while loop, [count] rounds from position [pos]. *)
  Fixpoint bump_loop (count pos : nat) (delta : T) (arr : list T) : list T :=
    match count with
    | O => arr
    | S c => bump_loop c (S pos) (a_add A delta delta) (bump_at pos delta arr)
    end.
  (** utils.py:81-107: one duplicated value.  [index] and [new_index] share their
      storage, so the searches see the changes made so far. *)
  Definition fix_dup (max_delta : T) (arr : list T) (dup : T) : list T :=
    let l := search_left dup arr in
    let r := search_right dup arr in             (* dup_index_right + 1 *)
    let num_dups := (Z.of_nat r - Z.of_nat l)%Z in
    let delta := match nth_error arr r with
                 | Some next => a_divz A (a_sub A next dup) num_dups
                 | None => max_delta
                 end in
    let delta := if a_lt A max_delta delta then max_delta else delta in
    bump_loop (r - S l) (S l) delta arr.
  (** utils.py:75-109 on the index; the rows keep their places (the new index is
      the same object as the old one, so [reindex] moves nothing). *)
  Definition handle_dups (max_delta : T) (arr : list T) : list T :=
    fold_left (fix_dup max_delta) (dup_values [] [] arr) arr.

  (** utils.py:72-73: rows that have a line number are first sorted by (time,
      line); stable insertion sort. *)
  Definition row_le (a b : T * Z) : bool :=
    a_lt A (fst a) (fst b) || (negb (a_lt A (fst b) (fst a)) && (snd a <=? snd b)%Z).
  Fixpoint insert_row {R} (x : T * Z * R) (rows : list (T * Z * R)) : list (T * Z * R) :=
    match rows with
    | [] => [x]
    | y :: rest => if row_le (fst x) (fst y) then x :: rows else y :: insert_row x rest
    end.
  Definition sort_rows {R} (rows : list (T * Z * R)) : list (T * Z * R) :=
    fold_right insert_row [] rows.
  (** utils.py:31-109 on a frame whose rows carry their line number. *)
  Definition handle_frame {R} (max_delta : T) (rows : list (T * Z * R)) : list (T * Z * R) :=
    let rows := sort_rows rows in
    map (fun tr => (fst tr, snd (fst (snd tr)), snd (snd tr)))
        (combine (handle_dups max_delta (map (fun r => fst (fst r)) rows)) rows).
End Dups.

(** Exact rational arithmetic. *)
Definition q_arith : arith Qc :=
  Arith Qc (fun a b => match Qclt_le_dec a b with left _ => true | right _ => false end)
    (fun a b => if Qc_eq_dec a b then true else false)
    Qcplus Qcminus (fun a z => (a / Q2Qc (inject_Z z))%Qc).
(** IEEE-754 doubles, as in the program. *)
Definition f_of_Z (z : Z) : float :=
  match z with Z0 => fzero | Zpos p => f_of_N (Npos p) | Zneg p => fsub fzero (f_of_N (Npos p)) end.
Definition f_arith : arith float :=
  Arith float flt feq fadd fsub (fun a z => fdiv a (f_of_Z z)).
(** utils.py:32 [max_delta=0.000001] *)
Definition default_max_delta : float := f_of_ratio 1 1000000.
