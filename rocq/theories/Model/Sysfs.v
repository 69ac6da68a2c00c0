(** Model of trappy/wa/sysfs_extractor.py: the thermal parameters of a run. *)
From Coq Require Import List Ascii String ZArith Bool.
From Verif Require Import Lib.PyStr Lib.Regex.
Import ListNotations.
Local Open Scope list_scope.

(** 36-37 *)
Definition fixed_properties : list str :=
  [$"integral_cutoff"; $"k_d"; $"k_i"; $"k_po"; $"k_pu"; $"policy"; $"sustainable_power"].
(** 45: "cdev\d+_weight" *)
Definition pat_weight : re := RSeqs [RLit $"cdev"; RPlus (RCls is_digit); RLit $"_weight"].
(** 47: "trip_point_\d+_temp" *)
Definition pat_trip : re := RSeqs [RLit $"trip_point_"; RPlus (RCls is_digit); RLit $"_temp"].
(** 44-48 *)
Definition is_property (fname : str) : bool :=
  match re_search pat_weight fname with Some _ => true | None => match re_search pat_trip fname with Some _ => true | None => false end end.
(** 33-48 [__init__]; [listing] is [os.listdir] of the thermal zone, [None] for an OSError *)
Definition properties (listing : option (list str)) : list str :=
  fixed_properties ++ filter is_property (match listing with Some l => l | None => [] end).
Inductive param := PInt (z : Z) | PText (s : str).
(** 66-75: the contents without the last character, as a number if it is one *)
Definition read_param (contents : str) : param :=
  let c := removelast contents in match py_int10 c with Some z => PInt z | None => PText c end.
(** 50-77 [get_parameters]; [file] gives the contents of the regular files of the thermal zone *)
Definition get_parameters (file : str -> option str) (listing : option (list str)) : list (str * param) :=
  fold_left (fun ret p => match file p with Some contents => dset eqs p (read_param contents) ret | None => ret end)
    (properties listing) [].
