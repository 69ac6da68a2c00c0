(** What the page of an interactive plot has to look like. *)
From Coq Require Import List Ascii String ZArith Bool.
From Verif Require Import Lib.PyStr Model.ILineGen.
Import ListNotations.
Local Open Scope list_scope.

Section Gen.
  Context {F T V : Type}.
  (** A table read back from the page: its caption and its rows of cells.  Rows may not be
      nested, cells are inside rows, and rows between the tags of the table. *)
  Fixpoint read_rows (open : option (list (tok F))) (l : list (tok F)) : option (list (list (tok F))) :=
    match l, open with
    | [TEndTable], None => Some []
    | TRow :: r, None => read_rows (Some []) r
    | TEndRow :: r, Some cells => match read_rows None r with Some rows => Some (cells :: rows) | None => None end
    | (TGraph _ as c) :: r, Some cells => read_rows (Some (cells ++ [c])) r
    | (TLegend _ as c) :: r, Some cells => read_rows (Some (cells ++ [c])) r
    | _, _ => None
    end.
  Definition read_table (l : list (tok F)) : option (option str * list (list (tok F))) :=
    match l with
    | TTable :: TCaption t :: r => match read_rows None r with Some rows => Some (Some t, rows) | None => None end
    | TTable :: r => match read_rows None r with Some rows => Some (None, rows) | None => None end
    | _ => None
    end.
  (** The cell at a row and a column. *)
  Definition cell_at (rows : list (list (tok F))) (r c : nat) : option (tok F) :=
    match nth_error rows r with Some cells => nth_error cells c | None => None end.
  (** The size of a frame, the shape of a frame and the data of a frame. *)
  Definition size (f : frame T V) : nat := List.length (List.concat (f_values f)).
  Definition Shaped (f : frame T V) : Prop :=
    List.length (f_values f) = List.length (f_index f) /\ Forall (fun v => List.length v = List.length (f_labels f)) (f_values f).
  Definition DataOf (f : frame T V) (d : list str * list (list (datum T V))) : Prop :=
    fst d = $"index" :: f_labels f /\ List.length (snd d) = List.length (f_index f) /\
    forall i t v, nth_error (f_index f) i = Some t -> nth_error (f_values f) i = Some v -> nth_error (snd d) i = Some (DT t :: map DV v).
End Gen.
