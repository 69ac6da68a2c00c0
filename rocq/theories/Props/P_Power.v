(** C32, C33, C55: cpu masks and the tables of the power allocator events. *)
From Coq Require Import Permutation List Ascii String ZArith NArith Bool Sorted Lia.
From Verif Require Import Lib.PyStr Lib.PyStrFacts Lib.TotalOrder Lib.Stamp Model.Power Spec.Power Proofs.MaskP Proofs.PivotP Proofs.LoadP Proofs.PowerP.
Import ListNotations.
Local Open Scope list_scope.

(** ** C32 *)
Theorem C32_count : forall mask bits, MaskText mask bits -> bits <> [] ->
  num_cpus_in_mask mask = Ok (List.length (cpus_of bits)).
Proof. exact mask_count. Qed.
Theorem C32_empty : forall mask, MaskText mask [] -> num_cpus_in_mask mask = Err EValue.
Proof. exact mask_empty. Qed.
Lemma ex_mask : MaskText $"8,0000000F" [true;false;false;false; false;false;false;false; false;false;false;false;
  false;false;false;false; false;false;false;false; false;false;false;false; false;false;false;false; false;false;false;false; true;true;true;true].
Proof.
  apply (MT_digit "8"%char [true;false;false;false]); [reflexivity|]. apply MT_comma.
  do 7 (apply (MT_digit "0"%char [false;false;false;false]); [reflexivity|]).
  apply (MT_digit "F"%char [true;true;true;true]); [reflexivity|]. apply MT_nil.
Qed.
Example C32_ex : num_cpus_in_mask $"8,0000000F" = Ok 5 /\
  cpus_of [true;false;false;false; false;false;false;false; false;false;false;false;
  false;false;false;false; false;false;false;false; false;false;false;false; false;false;false;false; false;false;false;false; true;true;true;true]
  = [0; 1; 2; 3; 35] /\ num_cpus_in_mask $"00000000" = Ok 0 /\ num_cpus_in_mask $"," = Err EValue.
Proof. repeat split; vm_compute; reflexivity. Qed.
(** Texts that are not masks are accepted too. *)
Example C32_ex_other : num_cpus_in_mask $"0xf0" = Ok 4 /\ num_cpus_in_mask $" -f0" = Ok 4 /\ num_cpus_in_mask $"f_0" = Ok 4 /\
  num_cpus_in_mask $"0-3" = Err EValue.
Proof. repeat split; vm_compute; reflexivity. Qed.

(** ** C33 *)
(** For every order in which Python may iterate over the set of masks. *)
Theorem C33_last_known : forall T K L V leb keq leq, total_order leb -> (forall a b, keq a b = true <-> a = b) ->
  (forall a b, leq a b = true <-> a = b) ->
  forall cols (label : K -> option L) (rows : list (T * K * option V)),
  by_time leb rows -> keys_of cols rows -> (forall k, In k cols -> label k <> None) ->
  (forall k k', In k cols -> In k' cols -> label k = label k' -> k = k') ->
  exists idx tab, pivot_with_labels leb keq leq cols label rows = Ok (idx, tab) /\ Table leb rows label cols idx tab.
Proof. exact @pivot_table. Qed.
(** A mask without a label is an error. *)
Theorem C33_missing : forall T K L V leb keq leq cols (label : K -> option L) (rows : list (T * K * option V)),
  (exists k, In k cols /\ label k = None) -> pivot_with_labels leb keq leq cols label rows = Err EKey.
Proof. exact @pivot_missing. Qed.
(** Finite time stamps are such an order. *)
Theorem C33_stamps : total_order stamp_leb.
Proof. exact stamps_total. Qed.

Definition ex_rows : list (Z * str * option Z) :=
  [(1, $"000000f0", Some 10); (2, $"0000000f", Some 30); (2, $"000000f0", None); (3, $"000000f0", Some 20); (4, $"0000000f", Some 60)]%Z.
Definition ex_label (k : str) : option str :=
  if eqs k $"000000f0" then Some $"A15" else if eqs k $"0000000f" then Some $"A7" else None.
Lemma Z_total : total_order Z.leb.
Proof. constructor; intros; rewrite ?Z.leb_le in *; lia. Qed.
Lemma ex_hyps : by_time Z.leb ex_rows /\ keys_of [$"0000000f"; $"000000f0"] ex_rows /\
  (forall k, In k [$"0000000f"; $"000000f0"] -> ex_label k <> None) /\
  (forall k k', In k [$"0000000f"; $"000000f0"] -> In k' [$"0000000f"; $"000000f0"] -> ex_label k = ex_label k' -> k = k').
Proof.
  split; [|split; [|split]].
  - repeat constructor; cbn; intros; discriminate.
  - split; [repeat constructor; cbn; intuition discriminate|]. intros k. split.
    + intros [<-|[<-|[]]]; [exists 2%Z, (Some 30%Z)|exists 1%Z, (Some 10%Z)]; cbn; auto.
    + intros (t & v & H). cbn in *. intuition congruence.
  - intros k [<-|[<-|[]]]; discriminate.
  - intros k k' [<-|[<-|[]]] [<-|[<-|[]]]; intros; auto; discriminate.
Qed.
Example C33_ex : pivot_with_labels Z.leb eqs eqs [$"0000000f"; $"000000f0"] ex_label ex_rows =
  Ok ([1; 2; 3; 4]%Z, [($"A7", [None; Some 30; Some 30; Some 60]%Z); ($"A15", [Some 10; Some 10; Some 20; Some 20]%Z)]).
Proof. vm_compute. reflexivity. Qed.
(** Two masks with one label: the rows of one are lost, and which depends on the
    order of the set. *)
Definition ex_same (k : str) : option str := Some $"cpu".
Example C33_same_label_ex :
  pivot_with_labels Z.leb eqs eqs [$"0000000f"; $"000000f0"] ex_same ex_rows = Ok ([1; 2; 3]%Z, [($"cpu", [Some 10; Some 10; Some 20]%Z)]) /\
  pivot_with_labels Z.leb eqs eqs [$"000000f0"; $"0000000f"] ex_same ex_rows = Ok ([2; 4]%Z, [($"cpu", [Some 30; Some 60]%Z)]).
Proof. split; vm_compute; reflexivity. Qed.
Theorem C33_same_label_refuted : ~ (forall cols cols' (label : str -> option str) (rows : list (Z * str * option Z)), Permutation cols cols' ->
  pivot_with_labels Z.leb eqs eqs cols label rows = pivot_with_labels Z.leb eqs eqs cols' label rows).
Proof.
  intros H. specialize (H [$"0000000f"; $"000000f0"] [$"000000f0"; $"0000000f"] ex_same ex_rows (perm_swap _ _ _)). vm_compute in H. discriminate.
Qed.

(** ** C55 *)
Theorem C55_load : forall T L leb leq, total_order leb -> (forall a b, leq a b = true <-> a = b) ->
  forall cols (label : str -> option L) (rows : list (@irow T)),
  rows <> [] -> (forall r, In r rows -> load_values (i_cols r) <> []) ->
  irows_by_time leb rows -> keys_of cols (map key_row rows) -> (forall k, In k cols -> label k <> None) ->
  (forall k k', In k cols -> In k' cols -> label k = label k' -> k = k') ->
  exists idx tab, get_load_data leb leq cols label rows = Ok (idx, tab) /\
    Table leb (map (fun r => (i_time r, i_cpus r, sum_known (load_values (i_cols r)))) rows) label cols idx tab.
Proof. exact @load_table. Qed.
Theorem C55_normalized : forall T L F leb leq, total_order leb -> (forall a b, leq a b = true <-> a = b) ->
  forall (div : Z -> Z -> F) of_int cols (mapping : list (str * L)) (rows : list (@irow T)),
  rows <> [] -> (forall r, In r rows -> load_values (i_cols r) <> []) ->
  irows_by_time leb rows -> keys_of cols (map key_row rows) ->
  (forall m, In m (map fst mapping) -> valid_mask m /\ In m cols) -> (forall k, In k cols -> In k (map fst mapping)) ->
  (forall k k', In k cols -> In k' cols -> dget eqs k mapping = dget eqs k' mapping -> k = k') ->
  exists idx tab, get_normalized_load_data leb leq div of_int cols mapping rows = Ok (idx, tab) /\
    StronglySorted (lt leb) idx /\ (forall t, In t idx <-> exists r, In r rows /\ i_time r = t) /\
    map (fun lc => Some (fst lc)) tab = map (fun k => dget eqs k mapping) cols /\
    forall k l col bits m, In (l, col) tab -> dget eqs k mapping = Some l -> In k cols -> MaskText k bits ->
      is_max m (map i_freq (filter (fun r => eqs (i_cpus r) k) rows)) ->
      Forall2 (fun t c => CellOf (fun a b => leb a b = true)
        (map (fun r => (i_time r, i_cpus r, option_map (fun s => div (s * i_freq r) (m * Z.of_nat (List.length (cpus_of bits))))%Z
                                              (sum_known (load_values (i_cols r))))) rows) k t c) idx col.
Proof. exact @norm_table. Qed.
(** A mask of the mapping that never occurs makes the whole call fail. *)
Theorem C55_absent_mask : forall T L F leb leq (div : Z -> Z -> F) of_int cols (mapping : list (str * L)) (rows : list (@irow T)) m,
  rows <> [] -> (forall r, In r rows -> load_values (i_cols r) <> []) ->
  (forall m', In m' (map fst mapping) -> valid_mask m') ->
  In m (map fst mapping) -> (forall r, In r rows -> i_cpus r <> m) ->
  get_normalized_load_data leb leq div of_int cols mapping rows = Err EValue.
Proof. exact @norm_absent'. Qed.
Theorem C55_freqs : forall T L F leb leq, total_order leb -> (forall a b, leq a b = true <-> a = b) ->
  forall (div : Z -> Z -> F) cols (label : str -> option L) (rows : list (T * str * option Z)),
  by_time leb rows -> keys_of cols rows -> (forall k, In k cols -> label k <> None) ->
  (forall k k', In k cols -> In k' cols -> label k = label k' -> k = k') ->
  exists idx tab, Table leb rows label cols idx tab /\
    get_all_freqs leb leq div cols label rows =
      Ok (idx, map (fun lc => (fst lc, map (option_map (fun v => div v 1000%Z)) (snd lc))) tab).
Proof. exact @freqs_table. Qed.

Definition ex_in : list (@irow Z) :=
  [IRow 1 $"f0" 100 [($"load0", Some 3); ($"dynamic_power", Some 9); ($"load1", Some 4)];
   IRow 2 $"0f" 50 [($"load0", Some 1); ($"dynamic_power", Some 9); ($"load1", Some 1)];
   IRow 3 $"f0" 200 [($"load0", Some 10); ($"dynamic_power", Some 9); ($"load1", Some 0)]]%Z.
Lemma ex_in_hyps : irows_by_time Z.leb ex_in /\ keys_of [$"f0"; $"0f"] (map key_row ex_in) /\
  (forall m, In m [$"f0"; $"0f"] -> valid_mask m /\ In m [$"f0"; $"0f"]).
Proof.
  split; [|split].
  - repeat constructor; cbn; intros; discriminate.
  - split; [repeat constructor; cbn; intuition discriminate|]. intros k. split.
    + intros [<-|[<-|[]]]; [exists 1%Z, tt|exists 2%Z, tt]; cbn; auto.
    + intros (t & v & [H|[H|[H|[]]]]); injection H as _ <- _; cbn; auto.
  - intros m [<-|[<-|[]]]; split; cbn; auto.
    + exists ([true;true;true;true] ++ [false;false;false;false] ++ []). split; [|discriminate]. repeat (apply MT_digit; [reflexivity|]). constructor.
    + exists ([false;false;false;false] ++ [true;true;true;true] ++ []). split; [|discriminate]. repeat (apply MT_digit; [reflexivity|]). constructor.
Qed.
Example C55_ex :
  get_load_data Z.leb eqs [$"f0"; $"0f"] (fun k => Some k) ex_in =
    Ok ([1; 2; 3]%Z, [($"f0", [Some 7; Some 7; Some 10]%Z); ($"0f", [None; Some 2; Some 2]%Z)]) /\
  get_normalized_load_data Z.leb eqs (fun a b => (a, b)) (fun a => (a, 1)%Z) [$"f0"; $"0f"] [($"f0", $"big"); ($"0f", $"LITTLE")] ex_in =
    Ok ([1; 2; 3]%Z, [($"big", [Some (700, 800); Some (700, 800); Some (2000, 800)]%Z); ($"LITTLE", [None; Some (100, 200); Some (100, 200)]%Z)]) /\
  get_normalized_load_data Z.leb eqs (fun a b => (a, b)) (fun a => (a, 1)%Z) [$"f0"; $"0f"]
    [($"f0", $"big"); ($"0f", $"LITTLE"); ($"f00", $"gpu")] ex_in = Err EValue.
Proof. repeat split; vm_compute; reflexivity. Qed.

Print Assumptions C32_count.
Print Assumptions C32_empty.
Print Assumptions C33_last_known.
Print Assumptions C33_missing.
Print Assumptions C33_stamps.
Print Assumptions C55_load.
Print Assumptions C55_normalized.
Print Assumptions C55_absent_mask.
Print Assumptions C55_freqs.
