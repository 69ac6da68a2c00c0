(** What a summary of runs consists of. *)
From Coq Require Import List Ascii String ZArith Bool Sorted Permutation.
From Verif Require Import Lib.PyStr Model.Sysfs Model.Governor Lib.TotalOrder Model.Summary.
Import ListNotations.
Local Open Scope list_scope.

(** [d] with other values for some keys: [f] says what is found under each. *)
Definition looks_up {V} (d : list (str * V)) (f : str -> option V) : Prop := forall k, dget eqs k d = f k.
Definition without {V} (ks : list str) (d : list (str * V)) (k : str) : option V := if existsb (eqs k) ks then None else dget eqs k d.
(** The size of the figures is 20 by 5 unless another is given. *)
Definition sized {V} (of_int : Z -> V) (d : list (str * V)) (k : str) : option V :=
  match dget eqs k d with
  | Some v => Some v
  | None => if eqs k $"width" then Some (of_int 20%Z) else if eqs k $"height" then Some (of_int 5%Z) else None
  end.
(** The eight figures in their order and the keywords each is drawn with. *)
Definition Script {V} (of_int : Z -> V) (kw : list (str * V)) (fs : list (figure * list (str * V))) : Prop :=
  exists w t, looks_up w (sized of_int kw) /\ looks_up t (without [$"tz_id"] w) /\
    fs = (FTemperature, w) :: map (fun f => (f, t)) [FLoad; FAllFreqs; FController; FInputPower; FOutputPower] ++ [(FFreqHists, []); (FTemperatureHist, [])].
(** The rows of a table: all the parameters, by name. *)
Definition Rows (ps rows : list (str * param)) : Prop := Permutation rows ps /\ StronglySorted (lt str_leb) (map fst rows).
(** Reading traces, each followed by the table of its parameters if it has any. *)
Inductive Reads {V R} (params : V -> list (str * param)) : list (V * V) -> list (@step V R) -> Prop :=
| Reads_nil : Reads params [] []
| Reads_plain n p rest l : params p = [] -> Reads params rest l -> Reads params ((n, p) :: rest) (Read n p :: l)
| Reads_table n p rest l rows : params p <> [] -> Rows (params p) rows -> Reads params rest l -> Reads params ((n, p) :: rest) (Read n p :: Table rows :: l).
Definition known_keywords {V} (ks : list str) (kw : list (str * V)) : Prop := forall k, In k (map fst kw) -> In k ks.
