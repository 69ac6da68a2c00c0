(** C70: requested, weighted and granted power of the actors. *)
From Coq Require Import List Ascii String ZArith NArith Bool Lia Sorted.
From Verif Require Import Lib.PyStr Spec.Lines Model.Sysfs Model.Governor Spec.Governor Proofs.GovernorP.
Import ListNotations.
Local Open Scope list_scope.

Theorem C70_power : forall {V : Type} word (f : list (str * list V)) actors out,
  plot_power word f actors = Ok out <->
  exists cs, Only (fun c => Starts word [] (fst c)) f cs /\ cs <> [] /\ map fst out = actors /\ map snd out = map snd cs.
Proof. exact @power_ok. Qed.
Theorem C70_power_fails : forall {V : Type} word (f : list (str * list V)) actors cs, Only (fun c => Starts word [] (fst c)) f cs ->
  List.length cs <> List.length actors -> plot_power word f actors = Err EValue.
Proof. exact @power_fails. Qed.
Theorem C70_weighted : forall {V W : Type} (scale : V -> Z -> W) actors runs outs, NoDup actors -> actors <> [] -> runs <> [] ->
  Forall2 (fun r out => exists ns ws cs, Weights (fst r) ns ws /\ ws <> [] /\
    Only (fun c => Starts $"req_power" [] (fst c)) (snd r) cs /\ cs <> [] /\ out = expected scale cs actors ws) runs outs ->
  plot_weighted scale actors runs = Ok outs.
Proof. exact @weighted_ok. Qed.
Theorem C70_no_weights : forall {V W : Type} (scale : V -> Z -> W) runs actors, (forall r, In r runs -> forall k, In k (map fst (fst r)) -> ~ Starts $"cdev" $"_weight" k) ->
  plot_weighted scale actors runs = Ok [].
Proof. exact @no_weights. Qed.

Definition scale (v w : Z) : Z := (v * w / 1024)%Z.
Definition ex_params : list (str * param) := [($"k_po", PInt 34); ($"cdev1_weight", PInt 2048); ($"policy", PText $"x"); ($"cdev0_weight", PInt 1024)].
Definition ex_frame : list (str * list Z) := [($"thermal_zone_id", [0; 0]); ($"req_power0", [5; 6]); ($"req_power1", [7; 8]); ($"total_req_power", [12; 14]); ($"granted_power0", [1; 2])]%Z.
Example C70_ex :
  plot_power $"req_power" ex_frame [$"A15"; $"A7"] = Ok [($"A15", [5; 6]); ($"A7", [7; 8])]%Z /\
  plot_power $"granted_power" ex_frame [$"A15"; $"A7"] = Err EValue /\
  plot_weighted scale [$"A15"; $"A7"] [(ex_params, ex_frame)] = Ok [[($"A15", [5; 6]); ($"A7", [14; 16])]]%Z /\
  plot_weighted scale [$"A15"; $"A7"] [([], ex_frame)] = Ok [].
Proof. vm_compute. auto. Qed.
Example C70_ex_hyp : Weights ex_params [$"0"; $"1"] [1024; 2048]%Z.
Proof.
  split; [|split; [|split; [|split; [|split]]]].
  - repeat constructor; cbn; intuition discriminate.
  - repeat constructor; discriminate.
  - cbn. intros a b [<- |[<- |[]]] [<- |[<- |[]]]; reflexivity.
  - repeat constructor.
  - cbn. intros k [<- |[<- |[<- |[<- |[]]]]]; intros (ds & q & [Hne Hd] & E); try discriminate E.
    + exists $"1". split; [cbn; auto|reflexivity].
    + exists $"0". split; [cbn; auto|reflexivity].
  - apply Forall2_cons; [cbn; auto 10|]. apply Forall2_cons; [cbn; auto 10|]. constructor.
Qed.
(** Names of weights are sorted as text: with eleven devices the third actor gets the weight of device 10. *)
Definition many : list str := [$"0"; $"1"; $"2"; $"3"; $"4"; $"5"; $"6"; $"7"; $"8"; $"9"; $"10"].
Theorem C70_many_refuted : ~ (forall params (f : list (str * list Z)) actors,
  params = map (fun n => (weight_name n, match py_int10 n with Some z => PInt z | None => PText n end)) actors ->
  f = map (fun n => ($"req_power" ++ n, [1024%Z])) actors ->
  plot_weighted scale actors [(params, f)] = Ok [map (fun n => (n, match py_int10 n with Some z => [z] | None => [] end)) actors]).
Proof. intros H. specialize (H _ _ many eq_refl eq_refl). vm_compute in H. discriminate. Qed.
(** A run without weights next to one with weights cannot be drawn. *)
Example C70_mixed : plot_weighted scale [$"A15"; $"A7"] [(ex_params, ex_frame); ([], ex_frame)] = Err EType.
Proof. vm_compute. reflexivity. Qed.

Print Assumptions C70_power.
Print Assumptions C70_power_fails.
Print Assumptions C70_weighted.
Print Assumptions C70_no_weights.
Print Assumptions C70_many_refuted.
