(** What the frames of an interactive plot have to hold. *)
From Coq Require Import List Ascii String ZArith QArith Bool.
From Verif Require Import Lib.PyStr Lib.TotalOrder Model.ILineGen Spec.ILineGen.
Import ListNotations.
Local Open Scope list_scope.

(** ** Filling.  The last known position before [k], and the first one after it. *)
Definition Prev (l : list (option Q)) (k i : nat) (v : Q) : Prop :=
  (i < k)%nat /\ nth_error l i = Some (Some v) /\ forall j, (i < j < k)%nat -> nth_error l j = Some None.
Definition Next (l : list (option Q)) (k i : nat) (v : Q) : Prop :=
  (k < i)%nat /\ nth_error l i = Some (Some v) /\ forall j, (k < j < i)%nat -> nth_error l j = Some None.
Definition NoPrev (l : list (option Q)) (k : nat) : Prop := forall j, (j < k)%nat -> nth_error l j = Some None.
Definition NoNext (l : list (option Q)) (k : nat) : Prop := forall j, (k < j < List.length l)%nat -> nth_error l j = Some None.
Definition Held (l : list (option Q)) (k : nat) (x : option Q) : Prop :=
  (NoPrev l k /\ x = None) \/ exists i v, Prev l k i v /\ x = Some v.
Definition Back (l : list (option Q)) (k : nat) (x : option Q) : Prop :=
  (NoNext l k /\ x = None) \/ exists i v, Next l k i v /\ x = Some v.
(** On the line between its neighbours, by position. *)
Definition Line (l : list (option Q)) (k : nat) (x : option Q) : Prop :=
  (NoPrev l k /\ x = None) \/
  exists i v, Prev l k i v /\
    ((NoNext l k /\ x = Some v) \/
     exists j w y, Next l k j w /\ x = Some y /\ ((y - v) * inject_Z (Z.of_nat (j - i)) == (w - v) * inject_Z (Z.of_nat (k - i)))%Q).
Definition Steps (draw : option str) : list (option Q) -> nat -> option Q -> Prop :=
  match draw with
  | Some s => if eqs s $"steps-post" || eqs s $"steps-mid" then Held else if eqs s $"steps-pre" then Back else Line
  | None => Line
  end.
(** Known values stay, missing ones are filled by [rule]. *)
Definition Filled (rule : list (option Q) -> nat -> option Q -> Prop) (l r : list (option Q)) : Prop :=
  List.length r = List.length l /\
  (forall k v, nth_error l k = Some (Some v) -> nth_error r k = Some (Some v)) /\
  (forall k, nth_error l k = Some None -> exists x, nth_error r k = Some x /\ rule l k x).

(** ** Dictionaries filled in order: the last value of each key, keys in order of their first occurrence. *)
Definition LastPair {V} (pairs : list (str * V)) (k : str) (v : V) : Prop :=
  exists i, nth_error pairs i = Some (k, v) /\ forall j v', nth_error pairs j = Some (k, v') -> (j <= i)%nat.
Definition FirstPos {V} (pairs : list (str * V)) (k : str) (i : nat) : Prop :=
  (exists v, nth_error pairs i = Some (k, v)) /\ forall j v', nth_error pairs j = Some (k, v') -> (i <= j)%nat.
Definition DictOf {V} (pairs d : list (str * V)) : Prop :=
  NoDup (map fst d) /\ (forall k v, In (k, v) d <-> LastPair pairs k v) /\
  forall i j k k' v v', nth_error d i = Some (k, v) -> nth_error d j = Some (k', v') -> (i < j)%nat ->
    exists a b, FirstPos pairs k a /\ FirstPos pairs k' b /\ (a < b)%nat.

Section Frames.
  Context {T : Type} (leb : T -> T -> bool) (dedup : list T -> list T).
  Notation series := (list (T * option Q)).
  (** Value of a series at a time; [None]: no entry or a missing one. *)
  Definition ValueAt (s : series) (t : T) (x : option Q) : Prop :=
    In (t, x) s \/ (x = None /\ forall y, ~ In (t, y) s).
  (** The series with its repeated times moved apart. *)
  Definition Redated (s s' : series) : Prop := map fst s' = dedup (map fst s) /\ map snd s' = map snd s.
  Definition ColumnOf (f : frame T (option Q)) (j : nat) (col : list (option Q)) : Prop :=
    List.length col = List.length (f_index f) /\
    forall k x, nth_error col k = Some x -> exists row, nth_error (f_values f) k = Some row /\ nth_error row j = Some x.
  (** The frame of several series: all their times once, in order; in each column the values
      of its series, filled. *)
  Definition Merged (draw : option str) (d : list (str * series)) (f : frame T (option Q)) : Prop :=
    f_labels f = map fst d /\ Shaped f /\ Sorted.StronglySorted (lt leb) (f_index f) /\
    (forall t, In t (f_index f) <-> exists k s, In (k, s) d /\ In t (dedup (map fst s))) /\
    forall j k s, nth_error d j = Some (k, s) -> exists s' raw col, Redated s s' /\ Filled (Steps draw) raw col /\ ColumnOf f j col /\
      Forall2 (ValueAt s') (f_index f) raw.
  (** The frame of one series is the series. *)
  Definition FrameOf (draw : option str) (d : list (str * series)) (f : frame T (option Q)) : Prop :=
    match d with
    | [] => f = Frame [] [] []
    | [(k, s)] => f_labels f = [k] /\ f_index f = map fst s /\ f_values f = map (fun x => [snd x]) s
    | _ => Merged draw d f
    end.
End Frames.
(** The series of a pivot under their legends, in the order of the constraints. *)
Definition pairs_of {C P V} (peq : P -> P -> bool) (legend : C -> str) (result : C -> list (P * V)) (p : P) (cs : list C) : list (str * V) :=
  flat_map (fun c => match dget peq p (result c) with Some s => [(legend c, s)] | None => [] end) cs.
(** The series of one constraint, in the order of the pivots. *)
Definition own_pairs {P V} (peq : P -> P -> bool) (key : P -> str) (result : list (P * V)) (ps : list P) : list (str * V) :=
  flat_map (fun p => match dget peq p result with Some s => [(key p, s)] | None => [] end) ps.
