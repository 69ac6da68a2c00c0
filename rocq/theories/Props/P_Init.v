(** Property C98: which event classes can be constructed. *)
From Coq Require Import List Ascii String ZArith NArith Bool Lia.
From Verif Require Import Lib.PyStr Model.Registry Model.Builtin Model.Init Spec.Init Proofs.InitP.
Import ListNotations.
Local Open Scope list_scope.

(** Classes inheriting from [Base] one after the other, each with or without an [__init__] of
    one of the kinds trappy uses: exactly these can be constructed (any recursion limit). *)
Theorem C98_iff : forall l limit raw fb, Forall (fun c => c_init c <> Some IBase) l -> 4 <= limit ->
  construct limit l = Ok (Obj raw fb) <-> Makes l raw fb.
Proof. exact makes_iff. Qed.
(** The others fail with a TypeError, an AttributeError or by calling themselves without end. *)
Theorem C98_errors : forall l limit e, Forall (fun c => c_init c <> Some IBase) l -> 4 <= limit -> construct limit l = Err e ->
  e = EType \/ e = EAttribute \/ (e = EFuel /\ Endless l).
Proof. exact errors. Qed.
Theorem C98_endless : forall l, Forall (fun c => c_init c <> Some IBase) l -> (forall limit, construct limit l = Err EFuel) <-> Endless l.
Proof. exact endless_iff. Qed.
(** All built-in classes can be; marks alone are fallbacks, and the objects of six classes are raw, as their classes are. *)
Theorem C98_builtin : forall k scope limit, In (k, scope) builtin_regs -> 4 <= limit ->
  construct limit (builtin_class (k_pyname k)) = Ok (Obj (existsb (eqs (k_pyname k)) raw_classes) (k_fallback k)) .
Proof. exact builtin_constructs. Qed.
Theorem C98_attribute : forall k scope, In (k, scope) builtin_regs ->
  match attr_raw (builtin_class (k_pyname k)) with Some b => b | None => false end = existsb (eqs (k_pyname k)) raw_classes.
Proof. exact builtin_attr. Qed.
(** Registered or named in [events], a dynamic class can be constructed; no subclass of it can. *)
Theorem C98_dynamic : forall b limit, 4 <= limit -> construct limit (dynamic b) = Ok (Obj b false) /\ construct limit by_name = Ok (Obj false false).
Proof. exact dynamic_ok. Qed.
Theorem C98_subclass_refuted : forall subs b limit, Forall (fun c => c_init c = None) subs -> subs <> [] -> Forall (fun c => c_raw c = None) subs -> 4 <= limit ->
  construct limit (subs ++ dynamic b) = Err EType /\ forall n, construct n (subs ++ by_name) = Err EFuel.
Proof. exact subclass. Qed.
(** A class may ask for raw events while its objects say they are not raw. *)
Theorem C98_raw_refuted : construct 4 [Cls None (Some true)] = Ok (Obj false false) /\ attr_raw [Cls None (Some true)] = Some true.
Proof. vm_compute. auto. Qed.

Example C98_ex : Makes [Cls None None; Cls (Some IFallback) None] false true /\ Makes [raw_init true] true false /\
  Makes [Cls None None; raw_init true] true false /\ Endless ([Cls None None] ++ by_name) /\
  construct 4 [Cls (Some IRaw) None] = Err EAttribute /\ construct 4 [raw_init true; raw_init true] = Err EType /\
  construct 1000 (Cls None None :: dynamic false) = Err EType /\ List.length builtin_regs = 35 /\
  In (Kls 8 $"tracing_mark_write:" None $"TracingMarkWrite" true, $"all") builtin_regs.
Proof.
  assert (P : forall l, forallb (fun c => match c_init c with Some IBase => false | _ => true end) l = true -> proper l).
  { intros l H. apply Forall_forall. intros c Hc E. rewrite forallb_forall in H. apply H in Hc. rewrite E in Hc. discriminate. }
  split; [apply (makes_iff _ 4); [apply P; reflexivity|lia|reflexivity]|].
  split; [apply (makes_iff _ 4); [apply P; reflexivity|lia|reflexivity]|].
  split; [apply (makes_iff _ 4); [apply P; reflexivity|lia|reflexivity]|].
  split; [apply En_sub with (pre := []) (d := Cls (Some IDefault) None) (post := []); try reflexivity; repeat constructor|].
  do 4 (split; [vm_compute; reflexivity|]). do 7 right. left. reflexivity.
Qed.

Print Assumptions C98_iff.
Print Assumptions C98_errors.
Print Assumptions C98_endless.
Print Assumptions C98_builtin.
Print Assumptions C98_attribute.
Print Assumptions C98_dynamic.
Print Assumptions C98_subclass_refuted.
Print Assumptions C98_raw_refuted.
