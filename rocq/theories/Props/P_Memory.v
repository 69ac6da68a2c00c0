(** Property C79: memory bookkeeping leaves the data alone. *)
From Coq Require Import List Ascii String ZArith NArith Bool Lia.
From Verif Require Import Lib.PyStr Lib.F64 Model.Base Model.Memory Spec.Memory Proofs.MemoryP.
Import ListNotations.
Local Open Scope list_scope.

(** Whatever memory looks like, the same rows are generated and the same frame created. *)
Theorem C79_rows : forall gdd low free start rss evs,
  fst (generate_parsed_data gdd low free start rss evs) = mapM (row_dict gdd) evs.
Proof. exact rows_same. Qed.
Theorem C79_frame : forall fuel gdd evs low free start rss, create_dataframe fuel gdd evs =
  (do evs' <- explode_all fuel evs ;; do rows <- fst (generate_parsed_data gdd low free start rss evs') ;;
   Ok (combine (map ev_time evs') rows)).
Proof. exact frame_same. Qed.
(** There is at most one warning: after the first of the rows 0, 10000, 20000, …
    that finds little memory. *)
Theorem C79_warns : forall gdd low free start rss evs,
  List.length (snd (generate_parsed_data gdd low free start rss evs)) <= 1 /\
  forall i, In i (snd (generate_parsed_data gdd low free start rss evs)) <-> FirstLow gdd low free start rss evs i.
Proof. exact warned. Qed.
(** The free memory is the one the kernel prints. *)
Theorem C79_meminfo : forall (pre : list str) blanks n post, (forall l, In l pre -> ~ exists a b, l = a ++ $"MemFree" ++ b) ->
  free_memory_kb (Some (pre ++ memfree_line blanks n :: post)) = Some (Z.of_N n).
Proof. exact meminfo. Qed.
(** It is known only from the first line naming it, if that has three words, the second a number. *)
Theorem C79_meminfo_only : forall m n, free_memory_kb m = Some n ->
  exists pre l post a w c, m = Some (pre ++ l :: post) /\ (forall x, In x pre -> ~ exists a b, x = a ++ $"MemFree" ++ b) /\
    (exists a b, l = a ++ $"MemFree" ++ b) /\ split_ws l = [a; w; c] /\ py_int10 w = Some n.
Proof. exact meminfo_only. Qed.
(** Choosing storage types keeps names and values; a column of bytes becomes
    categories if at most half of its values differ, other columns keep their type. *)
Theorem C79_types : forall V (veq : V -> V -> bool), (forall x y, veq x y = true <-> x = y) ->
  forall f g : list (str * column V), optimize_dataframe veq f = Ok g ->
  Forall2 (fun a b => fst b = fst a /\ c_vals (snd b) = c_vals (snd a) /\
    (c_kind (snd b) = c_kind (snd a) \/
     c_kind (snd a) = KS /\ c_kind (snd b) = KCategory /\
     exists n, Distinct (c_vals (snd a)) n /\ 2 * n <= List.length (c_vals (snd a)))) f g.
Proof. exact @optimized_ok. Qed.
(** It fails exactly if there is a column of bytes without rows. *)
Theorem C79_fails : forall V (veq : V -> V -> bool) (f : list (str * column V)),
  match optimize_dataframe veq f with Ok _ => True | Err e => e = EZeroDiv end /\
  (optimize_dataframe veq f = Err EZeroDiv <-> exists n c, In (n, c) f /\ c_kind c = KS /\ c_vals c = []).
Proof. exact @optimized_fails. Qed.
(** pandas stores text as objects, not as bytes: then nothing is optimised at all. *)
Theorem C79_nothing : forall V (veq : V -> V -> bool) (f : list (str * column V)),
  Forall (fun a => c_kind (snd a) <> KS) f -> optimize_dataframe veq f = Ok f.
Proof. exact @optimized_same. Qed.

Definition ev (i : nat) : event := Ev fzero $"a" 1 0 (Z.of_nat i) $"x=1".
Definition low (used free : Z) : bool := (9 * free <? 10 * used)%Z.
(** Memory runs low after row 4 but is only looked at after row 10000. *)
Example C79_ex : snd (generate_parsed_data generate_data_dict low (Some 1000%Z) 50
                        (fun i => if (i <? 5)%nat then 100%Z else 5000%Z) (map ev (seq 0 (S (S (1000 * 10)))))) = [(1000 * 10)%nat].
Proof. vm_compute. reflexivity. Qed.
Example C79_ex_quiet :
  snd (generate_parsed_data generate_data_dict low None 50 (fun _ => 5000%Z) [ev 0]) = [] /\
  snd (generate_parsed_data generate_data_dict low (Some 1000%Z) 50 (fun _ => 5000%Z) [ev 0; ev 1]) = [0].
Proof. split; vm_compute; reflexivity. Qed.
Example C79_ex_meminfo : free_memory_kb (Some [$"MemTotal:       16318444 kB" ++ [nl]; $"MemFree:         9151664 kB" ++ [nl]]) = Some 9151664%Z /\
  memfree_line 8 9151664 = $"MemFree:         9151664 kB" ++ [nl] /\ free_memory_kb None = None.
Proof. split; [|split]; vm_compute; reflexivity. Qed.
Example C79_ex_types :
  let f := [($"n", Col KInt [1; 1; 1; 1]); ($"b", Col KS [7; 7; 8; 7]); ($"c", Col KS [7; 6; 8; 7])]%nat in
  optimize_dataframe PeanoNat.Nat.eqb f =
    Ok [($"n", Col KInt [1; 1; 1; 1]); ($"b", Col KCategory [7; 7; 8; 7]); ($"c", Col KS [7; 6; 8; 7])]%nat /\
  Forall (fun a => c_kind (snd a) <> KS) [($"n", Col KInt [1; 1; 1; 1]%nat); ($"t", Col KOther [1; 2; 1; 1]%nat)].
Proof. split; [vm_compute; reflexivity|]. repeat constructor; discriminate. Qed.

Print Assumptions C79_rows.
Print Assumptions C79_frame.
Print Assumptions C79_warns.
Print Assumptions C79_meminfo.
Print Assumptions C79_meminfo_only.
Print Assumptions C79_types.
Print Assumptions C79_fails.
Print Assumptions C79_nothing.
