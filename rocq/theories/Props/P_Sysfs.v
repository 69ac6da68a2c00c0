(** C67: the thermal parameters of a run. *)
From Coq Require Import List Ascii String ZArith Bool.
From Verif Require Import Lib.PyStr Lib.PyStrFacts Model.Sysfs Spec.Sysfs Proofs.SysfsP.
Import ListNotations.
Local Open Scope list_scope.

Theorem C67_parameters : forall file listing name v,
  dget eqs name (get_parameters file listing) = Some v <->
  Property listing name /\ exists contents, file name = Some contents /\ ValueOf contents v.
Proof. exact parameters_ok. Qed.
Theorem C67_distinct : forall file listing, NoDup (map fst (get_parameters file listing)).
Proof. exact parameters_distinct. Qed.

Definition nl1 : str := [ascii_of_nat 10].
Definition ex_file (p : str) : option str := dget eqs p
  [($"k_po", $"34" ++ nl1); ($"policy", $"power_allocator" ++ nl1); ($"cdev0_weight", $"2048" ++ nl1); ($"trip_point_1_temp", $"77000");
   ($"mode", $"enabled" ++ nl1); ($"xcdev1_weight_old", $"1" ++ nl1)].
Definition ex_list : option (list str) := Some [$"mode"; $"cdev0_weight"; $"k_po"; $"trip_point_1_temp"; $"cdev1_trip_point"; $"xcdev1_weight_old"].
Example C67_ex : get_parameters ex_file ex_list =
  [($"k_po", PInt 34); ($"policy", PText $"power_allocator"); ($"cdev0_weight", PInt 2048); ($"trip_point_1_temp", PInt 7700); ($"xcdev1_weight_old", PInt 1)] /\
  get_parameters ex_file None = [($"k_po", PInt 34); ($"policy", PText $"power_allocator")].
Proof. vm_compute. auto. Qed.
(** A value in a file that does not end its line loses its last character. *)
Theorem C67_unterminated_refuted : ~ (forall file listing name z contents, Property listing name -> file name = Some contents ->
  py_int10 contents = Some z -> dget eqs name (get_parameters file listing) = Some (PInt z)).
Proof.
  intros H. specialize (H ex_file ex_list $"trip_point_1_temp" 77000%Z $"77000").
  assert (E : dget eqs $"trip_point_1_temp" (get_parameters ex_file ex_list) = Some (PInt 77000)).
  { apply H; try (vm_compute; reflexivity). right. eexists. split; [reflexivity|]. split; [cbn; tauto|]. right.
    exists [], $"1", []. split; [split; [discriminate|repeat constructor]|reflexivity]. }
  vm_compute in E. discriminate.
Qed.

Print Assumptions C67_parameters.
Print Assumptions C67_distinct.
