(** What the thermal parameters of a run have to be. *)
From Coq Require Import List Ascii String ZArith Bool.
From Verif Require Import Lib.PyStr Spec.Lines Model.Sysfs.
Import ListNotations.
Local Open Scope list_scope.

(** [s] has [a], a number and [b] in a row somewhere. *)
Definition Numbered (a b s : str) : Prop := exists p ds q, digits ds /\ s = p ++ a ++ ds ++ b ++ q.
Definition Property (listing : option (list str)) (p : str) : Prop :=
  In p [$"integral_cutoff"; $"k_d"; $"k_i"; $"k_po"; $"k_pu"; $"policy"; $"sustainable_power"] \/
  exists l, listing = Some l /\ In p l /\ (Numbered $"cdev" $"_weight" p \/ Numbered $"trip_point_" $"_temp" p).
(** The value in a file: all but its last character. *)
Definition ValueOf (contents : str) (v : param) : Prop :=
  exists t, (contents = [] /\ t = [] \/ exists c, contents = t ++ [c]) /\
    match py_int10 t with Some z => v = PInt z | None => v = PText t end.
