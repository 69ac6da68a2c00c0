(** Which reports survive the files of the cache. *)
From Coq Require Import List Ascii String ZArith NArith Bool.
From Verif Require Import Lib.PyStr Lib.F64 Model.Base Model.Registry Model.Populate
  Spec.Lines Spec.Payload Spec.Arrays Spec.Parts Spec.Trace Spec.Tables Spec.Written.
Import ListNotations.

Section Cached.
  Context {F : Type}.
  Variable fparse : str -> option F.
  Definition fits (z : Z) : Prop := (-2^63 <= z < 2^63)%Z.
  (** Texts of a column that come back as they are: none looks like a missing value,
      and one looks like no number and no truth value. *)
  Definition texts_ok (ss : list str) : Prop :=
    Forall (fun s => ~ na_text s) ss /\
    (ss <> [] -> exists s, In s ss /\ fparse s = None /\ ~ int_text s /\ ~ bool_text s).

  (** Frames whose rows all have the same named columns, each of integers of 64 bits or
      of such texts. *)
  Definition in_col (f : frame) (n : str) (c : cell) : Prop := exists r, In r f /\ In (n, c) (snd r).
  Definition column_kept (f : frame) (n : str) : Prop :=
    (forall c, in_col f n c -> exists z, c = CInt z /\ fits z) \/
    (exists ss, (forall c, in_col f n c <-> exists s, In s ss /\ c = CStr s) /\ texts_ok ss).
  Definition frame_kept (f : frame) : Prop :=
    exists names, names <> [] /\ NoDup ($"Time" :: names) /\ ~ In [] names /\
      Forall (fun r : float * dict => map fst (snd r) = names) f /\ forall n, In n names -> column_kept f n.

  (** The lines and payloads written for an attribute. *)
  Definition written_for (a : str) (items : list item) : list (tline * list part) :=
    flat_map (fun i => match i with Wrote L b ps => if eqs a b then [(L, ps)] else [] | _ => [] end) items.
  (** The events of an attribute all print the same fields, none named like a column
      trappy adds; each field is always an integer of 64 bits or always text that comes
      back, and so are the names of the tasks. *)
  Definition event_kept (a : str) (items : list item) : Prop :=
    let es := written_for a items in
    let cells := fun e : tline * list part => flat_map (part_cells (trace_len (map snd es))) (snd e) in
    (forall x y, In x es -> In y es -> map fst (cells x) = map fst (cells y)) /\
    (forall x n, In x es -> In n (map fst (cells x)) -> ~ In n [$"Time"; $"__comm"; $"__pid"; $"__cpu"; $"__line"]) /\
    (forall n,
      (forall x v more, In x es -> In (n, (v, more)) (cells x) -> exists z, int_literal v z /\ fits z) \/
      ((forall x v more z, In x es -> In (n, (v, more)) (cells x) -> ~ int_literal v z) /\
       texts_ok (flat_map (fun x => flat_map (fun c => if eqs n (fst c) then [join $" " (fst (snd c) :: snd (snd c))] else []) (cells x)) es))) /\
    texts_ok (map (fun x => l_comm (fst x)) es) /\
    (forall x, In x es -> fits (Z.of_N (dec_val (l_pid (fst x)))) /\ fits (Z.of_N (dec_val (l_cpu (fst x))))).

  (** The file of a report of the classes [all]. *)
  Definition report (fuel : nat) (all : classes) (lines : list str) (items : list item) : Prop :=
    exists hdr, lines = hdr ++ map item_str items /\ Forall junk_ok hdr /\ starts_event items /\
      Forall (item_ok (map (fun d => (k_word (snd d), d)) all)) items /\
      (Z.of_nat (List.length items) < 2^63)%Z /\
      forall a k, In (a, k) all -> columns_ok (parts_of a items) /\ event_kept a items /\
        forall q, In q (parts_of a items) -> (arrays q < fuel)%nat.
End Cached.
