(** Model of the memory bookkeeping of trappy/base.py: the low-memory warning and
    the storage types of columns. *)
From Coq Require Import List Ascii String ZArith Bool.
From Verif Require Import Lib.PyStr Model.Base.
Import ListNotations.
Local Open Scope list_scope.

(** base.py:33-43 [_get_free_memory_kb]; [None] for the file: it cannot be opened.
    Every exception gives None. *)
Definition free_memory_kb (meminfo : option (list str)) : option Z :=
  match meminfo with
  | None => None
  | Some lines =>
      match filter (contains $"MemFree") lines with
      | [] => None
      | l :: _ => match split_ws l with [_; num_kb; _] => py_int10 num_kb | _ => None end
      end
  end.

(** base.py:234-266 [generate_parsed_data], run to its end.  [low used free] is the
    comparison with 0.9 times the free memory, [rss i] the resident size read after
    row [i], [start] the one before.  The result is the rows, or the exception of
    the row that cannot be parsed, and the rows after which a warning is issued. *)
Section Gen.
  Variables (gdd : str -> res dict) (low : Z -> Z -> bool) (free : option Z) (start : Z) (rss : nat -> Z).
  Definition CHECK_MEM_COUNT : Z := 10000.
  Fixpoint gen (check : bool) (count : Z) (i : nat) (evs : list event) : res (list dict) * list nat :=
    match evs with
    | [] => (Ok [], [])
    | e :: rest =>
        match row_dict gdd e with
        | Err x => (Err x, [])
        | Ok d =>
            let count := (count - 1)%Z in
            let due := check && (count =? 0)%Z in
            let warn := due && match free with
                               | Some f => negb (f =? 0)%Z && low (rss i - start)%Z f
                               | None => false
                               end in
            let '(rs, ws) := gen (if warn then false else check) (if due then CHECK_MEM_COUNT else count) (S i) rest in
            (do l <- rs ;; Ok (d :: l), if warn then i :: ws else ws)
        end
    end.
  Definition generate_parsed_data (evs : list event) := gen true 1 0 evs.
End Gen.

(** base.py:268-287 [optimize_dataframe].  [KS] is numpy's kind 'S' (bytes of fixed
    width); the results of [apply] on numbers are not stored anywhere. *)
Section Optimize.
  Context {V : Type} (veq : V -> V -> bool).
  Inductive kind := KInt | KFloat | KS | KCategory | KOther.
  Record column := Col { c_kind : kind; c_vals : list V }.
  (** [len(series.unique())] *)
  Fixpoint unique (l : list V) : list V :=
    match l with
    | [] => []
    | x :: r => x :: filter (fun y => negb (veq x y)) (unique r)
    end.
  Definition optimize_column (c : column) : res column :=
    match c_kind c with
    | KS =>
        let n := List.length (unique (c_vals c)) in
        let total := List.length (c_vals c) in
        if (total =? 0)%nat then Err EZeroDiv
        else if (total <? 2 * n)%nat then Ok c
        else Ok (Col KCategory (c_vals c))
    | _ => Ok c
    end.
  Definition optimize_dataframe (f : list (str * column)) : res (list (str * column)) :=
    mapM (fun nc => do c <- optimize_column (snd nc) ;; Ok (fst nc, c)) f.
End Optimize.
Arguments column : clear implicits.
