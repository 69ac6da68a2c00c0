(** Which reports of the events trappy knows survive the files of the cache. *)
From Coq Require Import List Ascii String ZArith NArith Bool.
From Verif Require Import Lib.PyStr Lib.F64 Model.Base Model.Registry Model.Populate
  Spec.Lines Spec.Payload Spec.Arrays Spec.Parts Spec.Trace Spec.Events Spec.Written Spec.Classes Spec.Cached.
Import ListNotations.

Section CachedClasses.
  Context {F : Type}.
  Variable fparse : str -> option F.
  (** The lines and texts of an attribute. *)
  Definition entries_for (a : str) (l : list entry) : list (tline * text) :=
    flat_map (fun i => match i with EWrote L b t => if eqs a b then [(L, t)] else [] | _ => [] end) l.
  (** The events of an attribute all print the same fields; the columns they are shown
      in have names, and not those of the columns trappy adds; what a column shows is
      always an integer of 64 bits, or always text that comes back, and so are the
      names of the tasks. *)
  Definition entry_kept (c : columns) (a : str) (l : list entry) : Prop :=
    let es := entries_for a l in
    let cells := fun e : tline * text => text_cells (lengths (map snd es)) (snd e) in
    (forall x y, In x es -> In y es -> map fst (cells x) = map fst (cells y)) /\
    (forall x n, In x es -> In n (map fst (cells x)) ->
       ~ In (column c n) [[]; $"Time"; $"__comm"; $"__pid"; $"__cpu"; $"__line"]) /\
    (forall n,
      (forall x P v, In x es -> In (n, P) (cells x) -> P v -> exists z, shown c n v = CInt z /\ fits z) \/
      (exists ss, texts_ok fparse ss /\
         (forall x P v, In x es -> In (n, P) (cells x) -> P v -> exists s, In s ss /\ shown c n v = CStr s) /\
         (forall s, In s ss -> exists x P, In x es /\ In (n, P) (cells x) /\ forall v, P v -> shown c n v = CStr s))) /\
    texts_ok fparse (map (fun x => l_comm (fst x)) es) /\
    (forall x, In x es -> fits (Z.of_N (dec_val (l_pid (fst x)))) /\ fits (Z.of_N (dec_val (l_cpu (fst x))))).

  (** The file of a report of the classes [all]. *)
  Definition known_report (fuel : nat) (all : classes) (lines : list str) (l : list entry) : Prop :=
    exists hdr, lines = hdr ++ map entry_str l /\ Forall junk_ok hdr /\ begins l /\ Forall (entry_ok all) l /\
      (Z.of_nat (List.length l) < 2^63)%Z /\
      forall a k, In (a, k) all -> titles_ok (snd (kind_of k)) (texts_of a l) /\ entry_kept (snd (kind_of k)) a l /\
        forall q, In q (parts_in (texts_of a l)) -> (arrays q < fuel)%nat.
End CachedClasses.
