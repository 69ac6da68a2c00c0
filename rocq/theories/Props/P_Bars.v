(** C72: bar plots. *)
From Coq Require Import List ZArith QArith Bool Lia.
From Verif Require Import Lib.PyStr Model.Bars Spec.Bars Proofs.BarsP.
Import ListNotations.
Local Open Scope list_scope.

Theorem C72_bars : forall (stacked : bool) spacing n ss, ss <> [] -> (0 < n)%nat -> Forall (fun s => List.length s = n) ss ->
  exists bars w, plot_axis stacked spacing ss = Ok bars /\
  (w == (1 - spacing) / (if stacked then 1 else of_nat (List.length ss)))%Q /\
  Bars ss (fun i j v b => b_series b = i /\ (b_x b == of_nat j + (if stacked then 0 else of_nat i * w))%Q /\ b_width b = w /\ b_height b = v /\
    exists t, b_bottom b = t /\ if stacked then Below ss i j t else t == 0)%Q bars.
Proof. exact bars_ok. Qed.
Theorem C72_apart : forall spacing n ss bars, (0 <= spacing <= 1)%Q -> (0 < n)%nat -> Forall (fun s => List.length s = n) ss ->
  plot_axis false spacing ss = Ok bars -> ForallOrdPairs Apart bars.
Proof. exact bars_apart. Qed.
(** Series of different lengths, the shorter of more than one number, cannot be drawn side by side. *)
Theorem C72_unequal : forall spacing ss s s', In s ss -> In s' ss -> (1 < List.length s < List.length s')%nat ->
  exists e, plot_axis false spacing ss = Err e /\ (e = EValue \/ e = EIndex).
Proof. exact bars_unequal. Qed.
(** Nothing to draw: no series, or series without numbers. *)
Theorem C72_nothing : forall stacked spacing, plot_axis stacked spacing [] = Err (if stacked then EValue else EZeroDiv) /\
  forall ss, ss <> [] -> Forall (fun s => s = []) ss -> plot_axis stacked spacing ss = Err EIndex.
Proof. exact bars_nothing. Qed.

Example C72_ex :
  plot_axis false (1 # 5) [[3; 4]; [5; 6]]%Q =
    Ok [Bar 0 (0 # 10) (4 # 10) 0 3; Bar 0 (10 # 10) (4 # 10) 0 4; Bar 1 (4 # 10) (4 # 10) 0 5; Bar 1 (14 # 10) (4 # 10) 0 6]%Q /\
  plot_axis true (1 # 5) [[3; 4]; [5; 6]]%Q =
    Ok [Bar 0 0 (4 # 5) 0 3; Bar 0 1 (4 # 5) 0 4; Bar 1 0 (4 # 5) 3 5; Bar 1 1 (4 # 5) 4 6]%Q.
Proof. vm_compute. auto. Qed.
Example C72_unequal_ex : plot_axis false (1 # 5) [[3; 4; 5]; [5; 6]]%Q = Err EValue.
Proof. vm_compute. auto. Qed.

Print Assumptions C72_bars.
Print Assumptions C72_apart.
Print Assumptions C72_unequal.
Print Assumptions C72_nothing.
