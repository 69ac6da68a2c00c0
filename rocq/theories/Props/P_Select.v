(** Properties C05, C14, C15, C45, C48: which classes a trace parses. *)
From Coq Require Import List Ascii String ZArith NArith Bool Lia Permutation.
From Verif Require Import Lib.PyStr Lib.PyStrFacts Model.Registry Model.Builtin
  Spec.Trace Spec.Select Spec.Names Proofs.RegistryP Proofs.NamesP.
Import ListNotations.
Local Open Scope list_scope.

(** ** C05 *)
Theorem C05_reject : forall defs, sanity_check defs = Err ERuntime <-> Ambiguous (map snd defs).
Proof. exact sanity_reject. Qed.
Theorem C05_accept : forall defs, ~ Ambiguous (map snd defs) <-> sanity_check defs = Ok defs.
Proof. exact sanity_accept. Qed.
(** The later "two parsers for one word" error cannot occur, whatever part was
    cached: the table holds every class that was not. *)
Theorem C05_table : forall defs cached, sanity_check defs = Ok defs ->
  word_table cached [] defs = Ok (map entry (filter (fun e => negb (cached (fst e))) defs)).
Proof. exact table_ok. Qed.
Theorem C05_words : forall ks, ~ Ambiguous ks -> NoDup (map k_word ks).
Proof. exact unambiguous_words. Qed.
Theorem C05_attrs : forall r scope evs, NoDup (map fst (class_definitions r scope evs)).
Proof. exact defs_NoDup. Qed.
Definition kA := Kls 41 $"foo:" None $"Foo" false.
Definition kB := Kls 42 $"my_foo:" None $"MyFoo" false.
Definition kC := Kls 43 $"bar" (Some $"foo") $"Bar" false.
Example C05_ex : sanity_check [($"a", kA); ($"b", kC)] = Ok [($"a", kA); ($"b", kC)] /\
  sanity_check [($"a", kA); ($"c", kC); ($"b", kB)] = Err ERuntime /\
  word_table (fun a => eqs a $"a") [] [($"a", kA); ($"b", kC)] = Ok [($"bar", ($"b", kC))].
Proof. vm_compute. auto. Qed.

(** ** C14 *)
Theorem C14_scopes : forall r k scope,
  (register r k scope = Err EAttribute <-> ~ In scope [$"all"; $"dynamic"; $"thermal"; $"sched"]) /\
  (In scope [$"all"; $"dynamic"; $"thermal"; $"sched"] -> exists r', register r k scope = Ok r').
Proof. exact register_scopes. Qed.
(** What registering changes: the one name in the one dictionary. *)
Theorem C14_register : forall r k scope r', register r k scope = Ok r' -> forall n,
  let here s := eqs scope s && eqs n (given_name k) in
  in_dynamic r' n = (if here $"all" || here $"dynamic" then Some (named k) else in_dynamic r n) /\
  in_thermal r' n = (if here $"thermal" then Some (named k) else in_thermal r n) /\
  in_sched r' n = (if here $"sched" then Some (named k) else in_sched r n).
Proof. exact register_lookup. Qed.
(** The class a trace selects under a name. *)
Theorem C14_selected : forall r scope evs n, Reach r ->
  dget eqs n (class_definitions r scope evs) =
  let asked := dget eqs n (add_events r evs) in
  if eqs scope $"custom" then asked
  else if eqs scope $"thermal" then or_else (in_dynamic r n) (or_else (in_thermal r n) asked)
  else if eqs scope $"sched" then or_else (in_dynamic r n) (or_else (in_sched r n) asked)
  else or_else (in_dynamic r n) (or_else (in_sched r n) (or_else (in_thermal r n) asked)).
Proof. exact selected. Qed.
(** What unregistering removes: every entry holding that very class. *)
Theorem C14_unregister : forall r k, Reach r -> forall n,
  let cut o := match o with Some c => if N.eqb (k_id k) (k_id c) then None else Some c | None => None end in
  in_dynamic (unregister r k) n = cut (in_dynamic r n) /\
  in_thermal (unregister r k) n = cut (in_thermal r n) /\
  in_sched (unregister r k) n = cut (in_sched r n).
Proof. exact unregister_lookup. Qed.
(** Registering a class with a new name and unregistering it changes nothing. *)
Theorem C14_undo : forall r k scope r', register r k scope = Ok r' ->
  (forall d n c, In d [r_thermal r; r_sched r; r_dynamic r] -> In (n, c) d -> k_id c <> k_id k /\ n <> given_name k) ->
  unregister r' k = r.
Proof. exact register_unregister. Qed.
Example C14_ex : match register (Reg [] [] []) kA $"thermal" with
  | Ok r => Reach r /\ dget eqs $"foo" (class_definitions r $"all" []) = Some (named kA) /\
            dget eqs $"foo" (class_definitions r $"sched" []) = None /\
            unregister r kA = Reg [] [] []
  | Err _ => False end.
Proof. cbn. split; [|vm_compute; auto]. apply (Reach_reg (Reg [] [] []) kA $"thermal"); [apply Reach_start|reflexivity]. Qed.
(** A class registered for "thermal" is hidden from thermal traces by a dynamic
    class of the same name, and unregistering does not bring back a class that
    was replaced. *)
Theorem C14_hidden_refuted : exists r r', Reach r /\ register r kA $"thermal" = Ok r' /\
  dget eqs (given_name kA) (class_definitions r' $"thermal" []) <> Some (named kA).
Proof.
  exists (Reg [] [] [($"foo", named kC)]). eexists. split.
  - eapply (Reach_reg _ kC $"all"); [apply Reach_start|]. reflexivity.
  - split; [reflexivity|]. vm_compute. discriminate.
Qed.
Theorem C14_replaced_refuted : exists r r', Reach r /\ in_dynamic r $"foo" = Some (named kC) /\
  register r kA $"all" = Ok r' /\ in_dynamic (unregister r' kA) $"foo" = None.
Proof.
  exists (Reg [] [] [($"foo", named kC)]). eexists. split.
  - eapply (Reach_reg _ kC $"all"); [apply Reach_start|]. reflexivity.
  - split; [reflexivity|]. split; [reflexivity|]. vm_compute. reflexivity.
Qed.

(** ** C15 *)
Theorem C15_selected : forall r evs, Reach r ->
  (forall ev, In ev evs -> exists n c, dget eqs n (add_events r evs) = Some c /\ Picked r ev n c) /\
  (forall n c, dget eqs n (add_events r evs) = Some c -> exists ev, In ev evs /\ Picked r ev n c).
Proof. exact add_events_spec. Qed.
Theorem C15_grow : forall r evs more n c, Reach r -> dget eqs n (add_events r evs) = Some c ->
  dget eqs n (add_events r (evs ++ more)) = Some c.
Proof. exact add_events_grow. Qed.
Theorem C15_unique : forall r e1 e2 n c1 c2, Reach r -> Picked r e1 n c1 -> Picked r e2 n c2 -> c1 = c2.
Proof. exact picked_unique. Qed.
Example C15_ex : match register (Reg [] [] []) kC $"sched" with
  | Ok r => add_events r [$"bar"; $"new"; $"foo"] = [($"foo", named kC); ($"new", new_class $"new")]
  | Err _ => False end.
Proof. vm_compute. reflexivity. Qed.

(** ** C45 *)
Theorem C45_name : forall w ws, cap_word w -> Forall long_word ws ->
  (ws = [] \/ (2 <= List.length w)%nat) ->
  get_name (List.concat (w :: ws)) = join $"_" (map lower_word (w :: ws)).
Proof. exact get_name_words. Qed.
Example C45_ex : get_name $"SchedLoadAvgCpu" = $"sched_load_avg_cpu" /\
  get_name $"SchedLoadAvgCpu" = join $"_" (map lower_word [$"Sched"; $"Load"; $"Avg"; $"Cpu"]) /\ 
  long_word $"Load".
Proof.
  split; [reflexivity|]. split; [reflexivity|]. split; [|cbn; lia].
  exists "L"%char, $"oad". split; [reflexivity|]. split; [reflexivity|]. repeat constructor.
Qed.
(** The whole function: every run of capitals after the first character gets an
    underscore; every string has such a form. *)
Theorem C45_runs : forall c l bs u, Forall (fun x => is_upper x = false) l -> Forall run bs -> Forall (fun x => is_upper x = true) u ->
  get_name (c :: l ++ flat_map (fun b => fst b ++ snd b) bs ++ u) =
  lower_word (c :: l ++ flat_map (fun b => $"_" ++ fst b ++ snd b) bs ++ (match u with [] => [] | _ => $"_" end) ++ u).
Proof. exact get_name_runs. Qed.
Theorem C45_runs_exist : forall s, exists l bs u, s = l ++ flat_map (fun b => fst b ++ snd b) bs ++ u /\
  Forall (fun x => is_upper x = false) l /\ Forall run bs /\ Forall (fun x => is_upper x = true) u.
Proof. exact runs_exist. Qed.
Example C45_runs_ex : Forall run [($"PUI", $"dle"); ($"S", $"tate")] /\
  get_name ("C"%char :: [] ++ flat_map (fun b => fst b ++ snd b) [($"PUI", $"dle"); ($"S", $"tate")] ++ []) = $"c_puidle_state".
Proof. split; [repeat constructor; discriminate|reflexivity]. Qed.
(** One-letter words and acronyms are not split where a reader would. *)
Theorem C45_acronym_refuted : get_name $"CPUIdle" = $"c_puidle" /\ get_name $"SchedXFoo" = $"sched_xfoo".
Proof. vm_compute. auto. Qed.

(** ** C48 *)
(** A trace can be built from any part of the classes trappy registers itself,
    in any order and any scope. *)
Theorem C48_builtin : forall r scope, Reach r -> only_builtin r ->
  ~ Ambiguous (map snd (class_definitions r scope [])).
Proof. exact builtin_unambiguous. Qed.
Theorem C48_import : forall regs, incl regs builtin_regs -> exists r, register_all (Reg [] [] []) regs = Ok r /\
  forall scope, sanity_check (class_definitions r scope []) = Ok (class_definitions r scope []).
Proof. exact import_ok. Qed.
(** In whichever order the modules are imported, a trace of a scope has these attributes and no others. *)
Theorem C48_table : forall regs, Permutation regs builtin_regs -> exists r, register_all (Reg [] [] []) regs = Ok r /\
  forall scope a, option_map (fun k => (k_word k, k_pyname k, k_fallback k)) (dget eqs a (class_definitions r scope [])) = known_class scope a.
Proof. exact import_table. Qed.
Example C48_table_ex : known_class $"thermal" $"thermal" = Some ($"thermal_temperature:", $"Thermal", false) /\
  known_class $"sched" $"thermal" = None /\ known_class $"all" $"sched_switch" = Some ($"sched_switch:", $"SchedSwitch", false) /\
  known_class $"custom" $"sched_switch" = None /\ Permutation (rev builtin_regs) builtin_regs.
Proof. repeat split; try (vm_compute; reflexivity). apply Permutation_sym, Permutation_rev. Qed.
Example C48_ex : match register_all (Reg [] [] []) builtin_regs with
  | Ok r => List.length (class_definitions r $"all" []) = 35 /\ List.length (class_definitions r $"sched" []) = 28
  | Err _ => False end.
Proof. vm_compute. auto. Qed.
(** But with the built-in classes some events can never be asked for by name. *)
Theorem C48_events_refuted : match register_all (Reg [] [] []) builtin_regs with
  | Ok r => sanity_check (class_definitions r $"all" [$"sys_enter_openat"]) = Err ERuntime /\
            sanity_check (class_definitions r $"all" [$"workqueue_function"]) = Err ERuntime /\
            sanity_check (class_definitions r $"all" [$"switch"]) = Err ERuntime /\
            sanity_check (class_definitions r $"all" [$"sched_stat_runtime"]) <> Err ERuntime
  | Err _ => False end.
Proof. vm_compute. repeat split; try reflexivity. discriminate. Qed.

Print Assumptions C05_reject.
Print Assumptions C05_accept.
Print Assumptions C05_table.
Print Assumptions C05_words.
Print Assumptions C05_attrs.
Print Assumptions C14_scopes.
Print Assumptions C14_register.
Print Assumptions C14_selected.
Print Assumptions C14_unregister.
Print Assumptions C14_undo.
Print Assumptions C14_hidden_refuted.
Print Assumptions C14_replaced_refuted.
Print Assumptions C15_selected.
Print Assumptions C15_grow.
Print Assumptions C15_unique.
Print Assumptions C45_name.
Print Assumptions C45_runs.
Print Assumptions C45_runs_exist.
Print Assumptions C45_acronym_refuted.
Print Assumptions C48_builtin.
Print Assumptions C48_import.
Print Assumptions C48_events_refuted.
Print Assumptions C48_table.
