(** C62: signal definitions of the plotters. *)
From Coq Require Import List Ascii String ZArith Bool.
From Verif Require Import Lib.PyStr Model.Signals Spec.Signals Proofs.SignalsP.
Import ListNotations.
Local Open Scope list_scope.

(** Templates, columns and colours are, in order, what the definitions mean; colours are set
    when at least one definition has one.  In all other cases the call is rejected. *)
Theorem C62_describe : forall C has (traces : list (list (str * C))) sigs ts cols colours, describe has traces sigs = Ok (ts, cols, colours) <->
  has = false /\ exists xs : list (C * str * option (list Z)), Forall2 (Means traces) sigs xs /\ ts = map (fun x => fst (fst x)) xs /\ cols = map (fun x => snd (fst x)) xs /\
    ((Forall (fun x => snd x = None) xs /\ colours = None) \/ (Exists (fun x => snd x <> None) xs /\ colours = Some (map (fun x => snd x) xs))).
Proof. exact @describe_ok. Qed.
Theorem C62_reject : forall C has (traces : list (list (str * C))) sigs e, describe has traces sigs = Err e -> e = EValue.
Proof. exact @describe_err. Qed.
(** A definition means at most one thing. *)
Theorem C62_unique : forall C (traces : list (list (str * C))) s x x', Means traces s x -> Means traces s x' -> x = x'.
Proof. exact @means_fun. Qed.
(** The colours handed to the page can be read back from it, and are rejected when one is missing. *)
Theorem C62_colours : forall a b t, to_dygraph_colors a = Ok t -> to_dygraph_colors b = Ok t -> a = b.
Proof. exact dygraph_inj. Qed.
Theorem C62_colours_ok : forall cm, (exists t, to_dygraph_colors cm = Ok t) <-> Forall (fun c => c <> None) cm.
Proof. exact dygraph_ok. Qed.
(** The data are accepted: frames with a column, or anything with templates or signals. *)
Theorem C62_check : forall fs te si co, check_data fs te si co = Ok tt <->
  fs <> [] /\ (Forall (fun b => b = true) fs /\ co = true \/ Exists (fun b => b = false) fs /\ (te = true \/ si = true)).
Proof. exact check_data_ok. Qed.
Theorem C62_check_reject : forall fs te si co e, check_data fs te si co = Err e -> e = EValue.
Proof. exact check_data_err. Qed.

Definition ex_traces : list (list (str * nat)) := [[($"sched_switch", 1)]; [($"cpu_idle", 2); ($"sched_switch", 3)]].
Example C62_ex : describe false ex_traces [$"cpu_idle:state:0xff,0x0,100"; $"sched_switch:__cpu:1,2,3"; $"cpu_idle:cpu:7"] =
  Ok ([2; 1; 2], [$"state"; $"__cpu"; $"cpu"], Some [Some [255; 0; 100]; Some [1; 2; 3]; Some [7]]%Z) /\
  describe false ex_traces [$"cpu_idle:state"] = Ok ([2], [$"state"], None) /\
  describe false ex_traces [$"cpu_idle"] = Err EValue /\ describe false ex_traces [$"cpu_idle:"] = Err EValue /\
  describe false ex_traces [$"nothing:state"] = Err EValue /\ describe false ex_traces [$"cpu_idle:state:red"] = Err EValue /\
  describe false ex_traces [$"cpu_idle:state:1,2,3,4"] = Err EValue /\
  to_dygraph_colors [Some [255; 0; 100]; Some [1]]%Z = Ok $"[""rgb(255, 0, 100)"", ""rgb(1)""]" /\
  check_data [true; true] false false true = Ok tt /\ check_data [true; false] false true false = Ok tt.
Proof. repeat split; vm_compute; reflexivity. Qed.
Example C62_means_ex : Means ex_traces $"sched_switch:__cpu:0xff,2" (1, $"__cpu", Some [255; 2]%Z).
Proof.
  exists $"sched_switch", (Some $"0xff,2"). cbn [fst snd]. split; [|split].
  - apply (Sig_colour $"sched_switch" $"__cpu" $"0xff,2" []); auto; try discriminate; try (split; [discriminate|]); cbn; intuition discriminate.
  - exists [$"0xff"; $"2"]. split.
    + apply (P2 $"0xff" $"2"); cbn; intuition discriminate.
    + constructor; [left; split; [now exists $"ff"|reflexivity]|]. constructor; [|constructor]. right. split; [intros r; discriminate|reflexivity].
  - exists [], [($"sched_switch", 1)], [[($"cpu_idle", 2); ($"sched_switch", 3)]]. repeat split. constructor.
Qed.
(** Finding: a colour for one signal only makes the interactive plot fail. *)
Theorem C62_mixed_refuted : exists cs, describe false ex_traces [$"cpu_idle:state:1,2,3"; $"sched_switch:__cpu"] = Ok ([2; 1], [$"state"; $"__cpu"], Some cs) /\
  to_dygraph_colors cs = Err EType.
Proof. eexists. split; vm_compute; reflexivity. Qed.
(** Finding: components outside 0 to 255, negative or fewer than three are accepted; so is a colon at the end. *)
Theorem C62_range_refuted : describe false ex_traces [$"cpu_idle:state:-5, 1_000"; $"cpu_idle:state:"] =
  Ok ([2; 2], [$"state"; $"state"], Some [Some [-5; 1000]; None]%Z).
Proof. vm_compute. reflexivity. Qed.

Print Assumptions C62_describe.
Print Assumptions C62_reject.
Print Assumptions C62_unique.
Print Assumptions C62_colours.
Print Assumptions C62_colours_ok.
Print Assumptions C62_check.
Print Assumptions C62_check_reject.
