(** C71: temperatures of runs. *)
From Coq Require Import List Ascii String ZArith Bool Lia.
From Verif Require Import Lib.PyStr Spec.Governor Model.Temperature Spec.Temperature Proofs.TemperatureP.
Import ListNotations.
Local Open Scope list_scope.

Theorem C71_title : forall name what l, normalize_title what name = l <-> Named name what l.
Proof. exact title_ok. Qed.
Theorem C71_temperature : forall {T F : Type} (div : Z -> Z -> F) tz_id (runs : list (run T)) out,
  plot_temperature div tz_id runs = Ok out <->
  exists outs, Forall2 (Drawn div tz_id) runs outs /\ out = List.concat outs /\
    (forall r, In r runs -> r_gov r = None -> forall z, tz_id = Some z -> z = 0%Z).
Proof. exact @temperature_ok. Qed.
Theorem C71_fails : forall {T F : Type} (div : Z -> Z -> F) tz_id (runs : list (run T)) e,
  plot_temperature div tz_id runs = Err e -> e = EKey /\ exists r, In r runs /\ r_gov r = None.
Proof. exact @temperature_err. Qed.

Definition a := Run $"good" [(1, 0, 25000); (2, 1, 61000); (3, 0, 26000)]%Z (Some [(1, 0, (25000, 5000)); (2, 1, (61000, 4000))])%Z.
Definition b := Run [] [(4, 0, 30000)]%Z None.
Definition thousandth (x y : Z) : Z := (x / y)%Z.
Example C71_ex :
  plot_temperature thousandth None [a; b] =
    Ok [($"good - Temperature", [(1, 25); (2, 61); (3, 26)]); ($"good - Control", [(1, 30); (2, 65)]); ($"Temperature", [(4, 30)])]%Z /\
  plot_temperature thousandth (Some 1%Z) [a] = Ok [($"good - Temperature", [(2, 61)]); ($"good - Control", [(2, 65)])]%Z /\
  plot_temperature thousandth (Some 1%Z) [a; b] = Err EKey /\
  plot_temperature thousandth (Some 7%Z) [a] = Ok [($"good - Temperature", [(1, 25); (2, 61)]); ($"control temperature", [(1, 30); (2, 65)])]%Z.
Proof. vm_compute. auto. Qed.
(** With zone 0 asked for, the control temperature of other zones is drawn too. *)
Theorem C71_zone_refuted : ~ (forall (r : run Z) z out l t v, plot_temperature thousandth (Some z) [r] = Ok out ->
  In (r_name r ++ $" - Control", l) out -> In (t, v) l ->
  exists x g, r_gov r = Some g /\ In x g /\ fst (fst x) = t /\ snd (fst x) = z).
Proof.
  intros H. destruct (H a 0%Z _ [(1, 30); (2, 65)]%Z 2%Z 65%Z eq_refl) as (x & g & G & I & E1 & E2); [vm_compute; auto|vm_compute; auto|].
  injection G as <-. destruct I as [<- |[<- |[]]]; cbn in *; discriminate.
Qed.

Print Assumptions C71_title.
Print Assumptions C71_temperature.
Print Assumptions C71_fails.
Print Assumptions C71_zone_refuted.
