(** What triggers, indexers, aggregators and correlators should compute. *)
From Coq Require Import List Ascii String ZArith QArith Bool Sorted.
From Verif Require Import Lib.PyStr Lib.TotalOrder Lib.F64 Model.Base Model.Stats.
Import ListNotations.
Local Open Scope list_scope.

(** [l'] is made of the elements of [l] satisfying [P], in order. *)
Inductive Picked {A} (P : A -> Prop) : list A -> list A -> Prop :=
| P_nil : Picked P [] []
| P_take a l l' : P a -> Picked P l l' -> Picked P (a :: l) (a :: l')
| P_skip a l l' : ~ P a -> Picked P l l' -> Picked P (a :: l) l'.

(** ** Triggers *)
(** The row has the value [v] in column [key]. *)
Definition has_value (row : list (str * cell)) (key : str) (v : cell) : Prop := v <> CNone /\ dget eqs key row = Some v.
Definition passes (cols : list str) (row : list (str * cell)) (kf : str * tfilter) : Prop :=
  match snd kf with
  | FFun p => p (cell_at (fst kf) row) = true
  | FVal v => In (fst kf) cols -> has_value row (fst kf) v
  | FVals vs => In (fst kf) cols -> Forall (has_value row (fst kf)) vs
  end.
Definition fires {T} (cols : list str) (pivot : str) (node : cell) (filters : list (str * tfilter)) (row : T * list (str * cell)) : Prop :=
  has_value (snd row) pivot node /\ Forall (passes cols (snd row)) filters.
(** Function filters name existing columns. *)
Definition functions_ok (cols : list str) (filters : list (str * tfilter)) : Prop :=
  forall k p, In (k, FFun p) filters -> In k cols.

(** ** Aggregation *)
(** The value of the last series (in the order of the triggers) that has one at [t]. *)
Definition LastFired {T V} (zero : V) (t : T) (sers : list (list (T * V))) (v : V) : Prop :=
  (exists pre s post, sers = pre ++ s :: post /\ In (t, v) s /\ Forall (fun s' => ~ In t (map fst s')) post) \/
  (v = zero /\ Forall (fun s' => ~ In t (map fst s')) sers).
(** The state after [k] calls. *)
Fixpoint calls_none {N S} (neq : N -> N -> bool) (add : S -> S -> S) (groups : list (list N)) (k : nat) (st : list (N * S)) : list (N * S) :=
  match k with
  | O => st
  | S k' => snd (aggregate_none neq add groups (calls_none neq add groups k' st))
  end.

(** ** Alignment *)
Section Align.
  Context {V : Type} (nonzero : V -> bool).
  (** Zero; a missing value is not. *)
  Definition zero_at (l : list (option V)) (i : nat) : Prop := exists v, nth_error l i = Some (Some v) /\ nonzero v = false.
  Definition first_nz (l : list (option V)) (p : nat) : Prop :=
    (p < List.length l)%nat /\ ~ zero_at l p /\ forall i, (i < p)%nat -> zero_at l i.
  Definition last_nz (l : list (option V)) (p : nat) : Prop :=
    (p < List.length l)%nat /\ ~ zero_at l p /\ forall i, (p < i < List.length l)%nat -> zero_at l i.
  (** [l'] is [l] moved [k] places later; the front is missing. *)
  Definition Moved (k : nat) (l l' : list (option V)) : Prop :=
    List.length l' = List.length l /\
    (forall i, (i < k)%nat -> (i < List.length l)%nat -> nth_error l' i = Some None) /\
    (forall i, (k <= i)%nat -> (i < List.length l)%nat -> nth_error l' i = nth_error l (i - k)).
End Align.

(** ** Correlation *)
Definition weights (c : list (Z * option Q)) : Z := fold_right (fun x s => (fst x + s)%Z) 0%Z c.
Fixpoint weighted (c : list (Z * option Q)) : Q :=
  match c with
  | [] => 0
  | (w, Some r) :: rest => inject_Z w * r + weighted rest
  | (_, None) :: rest => weighted rest
  end.

(** ** Resampling *)
(** The entry of [s] in force at [t]: the last one at or before. *)
Definition InForce {T V} (leb : T -> T -> bool) (s : list (T * option V)) (t : T) (v : option V) : Prop :=
  (exists pre t' post, s = pre ++ (t', v) :: post /\ leb t' t = true /\ Forall (fun e => leb (fst e) t = false) post) \/
  (v = None /\ Forall (fun e => leb (fst e) t = false) s).
