(** What a figure with a common legend should say. *)
From Coq Require Import List Ascii String ZArith NArith.
From Verif Require Import Lib.PyStr Spec.Lines Model.Legend.
Import ListNotations.
Local Open Scope list_scope.

Section Spec.
  Context {P : Type} (label : scon P -> P -> str).
  Definition drawn (axes : list (axis P)) : list (line P) := flat_map (a_lines) axes.
  (** The lines of each axis have the colours 0, 1, ... in order. *)
  Definition InOrder (axes : list (axis P)) : Prop :=
    forall a, In a axes -> a_lines a <> [] /\ map n_colour (a_lines a) = seq 0 (List.length (a_lines a)).
  (** The legend explains the colour of every line. *)
  Definition Explains (axes : list (axis P)) (legend : list (option str)) : Prop :=
    forall n, In n (drawn axes) -> nth_error legend (n_colour n) = Some (Some (label (n_con n) (n_pivot n))).
  (** It says nothing else. *)
  Definition Honest (axes : list (axis P)) (legend : list (option str)) : Prop :=
    forall i s, nth_error legend i = Some (Some s) -> exists n, In n (drawn axes) /\ n_colour n = i /\ s = label (n_con n) (n_pivot n).
  (** Lines of one colour have one label. *)
  Definition OneLabel (axes : list (axis P)) : Prop :=
    forall n n', In n (drawn axes) -> In n' (drawn axes) -> n_colour n = n_colour n' -> label (n_con n) (n_pivot n) = label (n_con n') (n_pivot n').
  (** Line [i] of [series]. *)
  Definition numbered (series : list (scon P * P)) : list (line P) :=
    map (fun icp => Line (fst icp) (fst (snd icp)) (snd (snd icp))) (combine (seq 0 (List.length series)) series).
End Spec.

(** How a constraint is named: after its trace, or by number. *)
Definition Numbered (word : str) (index : nat) (s : str) : Prop :=
  exists ds, s = word ++ $" " ++ ds /\ digits ds /\ dec_val ds = N.of_nat index /\ (forall r, ds = "0"%char :: r -> r = []).
Definition DataName (name : option str) (index : nat) (s : str) : Prop :=
  match name with
  | Some n => (n <> [] /\ s = n) \/ (n = [] /\ Numbered $"Trace" index s)
  | None => Numbered $"DataFrame" index s
  end.
Definition Shown (name : option str) (index : nat) (template column s : str) : Prop :=
  exists d, DataName name index d /\ s = d ++ $":" ++ (match name with Some _ => template ++ $":" | None => [] end) ++ column.

(** The order of a dictionary. *)
Inductive Alpha : str -> str -> Prop :=
| A_nil b : Alpha [] b
| A_lt x y a b : (N_of_ascii x < N_of_ascii y)%N -> Alpha (x :: a) (y :: b)
| A_eq x a b : Alpha a b -> Alpha (x :: a) (x :: b).
(** With permute: by column, then by the name of the data. *)
Definition Earlier {P} (c d : scon P) : Prop :=
  (s_column c <> s_column d /\ Alpha (s_column c) (s_column d)) \/ (s_column c = s_column d /\ Alpha (s_data c) (s_data d)).
