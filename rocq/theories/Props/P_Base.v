(** Properties C06-C12: payload parsing, arrays, data frames (trappy/base.py). *)
From Coq Require Import List Ascii String ZArith NArith Bool Lia.
From Verif Require Import Lib.PyStr Lib.PyStrFacts Lib.F64 Model.Base
  Spec.Payload Spec.Arrays Spec.Parts
  Proofs.PayloadP Proofs.ArraysP Proofs.ScanP Proofs.TermP Proofs.FrameP.
Import ListNotations.

(** ** C06 *)
(** A payload whose words are the given fields parses to exactly one cell per
    field, in order: the integer if the value is an integer literal, otherwise
    the value re-joined with the bare words following it. *)
Theorem C06_round_trip : forall (s : str) (gs : list pgroup),
  Words s (flat_map g_words gs) ->
  Forall group_ok gs -> NoDup (map g_key gs) -> Forall (fun g => g_key g <> []) gs ->
  exists d, generate_data_dict s = Ok d /\
    Forall2 (fun g kc => fst kc = g_key g /\ col_cell (g_val g) (g_more g) (snd kc)) gs d.
Proof. exact gdd_round_trip_spec. Qed.
(** The concrete rendering "k1=v1 k2=v2 ...". *)
Theorem C06_rendered : forall gs : list pgroup,
  Forall (fun g => Forall word_ok (g_words g)) gs ->
  Words (join $" " (flat_map g_words gs)) (flat_map g_words gs).
Proof. exact render_words. Qed.
Example C06_ex : exists d,
  generate_data_dict $"comm=my  task pid=0x1f  w=00 x=007" = Ok d /\
  d = [($"comm", CStr $"my task"); ($"pid", CInt 31); ($"w", CInt 0); ($"x", CStr $"007")].
Proof. eexists; split; [vm_compute; reflexivity|reflexivity]. Qed.
Example C06_ex_hyp : let gs := [Grp $"comm" $"my" [$"task"]; Grp $"pid" $"0x1f" []] in
  Words $"comm=my  task pid=0x1f" (flat_map g_words gs) /\ Forall group_ok gs /\ NoDup (map g_key gs).
Proof.
  split; [apply Words_iff; vm_compute; reflexivity|]. split.
  - repeat constructor; cbn; intuition discriminate.
  - repeat constructor; cbn; intuition discriminate.
Qed.

(** ** C07 *)
(** Every payload decomposes into leading bare words [pre] and fields [gs] ... *)
Theorem C07_decompose : forall s, exists pre gs,
  Words s (pre ++ flat_map g_words gs) /\
  Forall (fun w => ~ In "="%char w) pre /\ Forall group_ok gs.
Proof. exact payload_decompose. Qed.
(** ... and for every such decomposition parsing fails exactly when there is a
    bare word without a usable (non-empty) key before it and the payload is not
    marked as unparseable by trace-cmd; the failure is TrappyParseError. *)
Theorem C07_error_iff : forall s pre gs,
  Words s (pre ++ flat_map g_words gs) ->
  Forall (fun w => ~ In "="%char w) pre -> Forall group_ok gs ->
  ((exists e, generate_data_dict s = Err e) <->
   (~ (exists a b, s = a ++ $"FAILED TO PARSE" ++ b) /\
    (pre <> [] \/ exists g, In g gs /\ g_key g = [] /\ g_more g <> []))) /\
  (forall e, generate_data_dict s = Err e -> e = EParse).
Proof. exact gdd_error_iff. Qed.
(** When it does not fail the keys are exactly the keys of the fields, and the
    value of a key is that of its last field. *)
Theorem C07_ok_keys : forall s pre gs d,
  Words s (pre ++ flat_map g_words gs) ->
  Forall (fun w => ~ In "="%char w) pre -> Forall group_ok gs ->
  generate_data_dict s = Ok d ->
  NoDup (map fst d) /\
  (forall k, (exists c, dlookup k d = Some c) <-> exists g, In g gs /\ g_key g = k) /\
  (forall g1 g g2, gs = g1 ++ g :: g2 -> g_key g <> [] -> (forall g', In g' g2 -> g_key g' <> g_key g) ->
     exists c, dlookup (g_key g) d = Some c /\ col_cell (g_val g) (g_more g) c).
Proof. exact gdd_ok_keys. Qed.
Example C07_ex_err : generate_data_dict $"stray a=1" = Err EParse.
Proof. vm_compute. reflexivity. Qed.
Example C07_ex_failed : generate_data_dict $"[FAILED TO PARSE] a=1" = Ok [($"a", CInt 1)].
Proof. vm_compute. reflexivity. Qed.
Example C07_ex_dup : generate_data_dict $"a=1 b=x y a=2" = Ok [($"a", CInt 2); ($"b", CStr $"x y")].
Proof. vm_compute. reflexivity. Qed.
(** Finding: words following an integer value are dropped without an error. *)
Theorem C07_words_after_integer_dropped : forall k n ws,
  word_ok k -> ~ In "="%char k -> Forall word_ok ws -> Forall (fun w => ~ In "="%char w) ws ->
  generate_data_dict (join $" " ((k ++ $"=" ++ str_of_Z n) :: ws)) = Ok [(k, CInt n)].
Proof. exact gdd_int_tail. Qed.
Example C07_ex_dropped : generate_data_dict $"comm=7 zip pid=3" = Ok [($"comm", CInt 7); ($"pid", CInt 3)].
Proof. vm_compute. reflexivity. Qed.

(** ** C08 *)
Theorem C08_int_iff : forall s z, no_space s -> (string_cast_int s = CInt z <-> int_literal s z).
Proof. exact cast_int_iff. Qed.
Theorem C08_str_iff : forall s t, no_space s ->
  (string_cast_int s = CStr t <-> t = s /\ forall z, ~ int_literal s z).
Proof. exact cast_str_iff. Qed.
Theorem C08_decimal : forall z, string_cast_int (str_of_Z z) = CInt z.
Proof. exact cast_dec. Qed.
Theorem C08_hex_oct_bin : forall n,
  string_cast_int ($"0x" ++ fmt_base 16 n) = CInt (Z.of_N n) /\
  string_cast_int ($"0o" ++ fmt_base 8 n) = CInt (Z.of_N n) /\
  string_cast_int ($"0b" ++ fmt_base 2 n) = CInt (Z.of_N n).
Proof. exact cast_prefixed. Qed.
Theorem C08_padded_text : forall k n, (0 < n)%N ->
  string_cast_int (repeat "0"%char (S k) ++ str_of_N n) = CStr (repeat "0"%char (S k) ++ str_of_N n).
Proof. exact padded_not_int. Qed.
Theorem C08_zeros : forall k, string_cast_int (repeat "0"%char (S k)) = CInt 0.
Proof. exact cast_zeros. Qed.
Theorem C08_literal_unique : forall s z z', no_space s -> int_literal s z -> int_literal s z' -> z = z'.
Proof. exact literal_unique. Qed.
Example C08_ex : map string_cast_int [$"-17"; $"0xfF"; $"1_000"; $"007"; $"1__0"; $"ff"; $""; $"0x"; $"+0b11"]
  = [CInt (-17); CInt 255; CInt 1000; CStr $"007"; CStr $"1__0"; CStr $"ff"; CStr []; CStr $"0x"; CInt 3].
Proof. vm_compute. reflexivity. Qed.
Example C08_lit : int_literal $"-0x1F" (-31).
Proof. apply C08_int_iff; [repeat constructor|vm_compute; reflexivity]. Qed.

(** ** C09 *)
(** One payload, any table of lengths [L]. *)
Theorem C09_explode : forall lens (L : str -> nat) segs fuel,
  (forall n, lens n = Some (L n)) -> Forall seg_ok segs ->
  (List.length (filter is_arr segs) < fuel)%nat ->
  explode_array fuel lens (render segs) = Ok (join $" " (flat_map (expand L) segs)).
Proof. exact explode_render. Qed.
Example C09_ex : explode_array 5 (fun n => Some (if eqs n $"load" then 4 else 0)%nat)
   (render [SText $"a=1"; SArr $"load" [$"7"; $"0x8"]; SText $""; SText $"=="; SArr $"x" [$"1"]])
   = Ok $"a=1 load0=7 load1=0x8 load2=0 load3=0  == x0=1".
Proof. vm_compute. reflexivity. Qed.
Example C09_ex_hyp : Forall seg_ok [SText $"a=1"; SArr $"load" [$"7"; $"0x8"]; SText $""; SText $"=="].
Proof.
  apply segs_okb_ok. vm_compute. reflexivity.
Qed.
(** The dictionary of an exploded payload: every field and every array element,
    arrays filled up with the integer 0 to the table's length. *)
Theorem C09_dict : forall L ps, Forall part_ok ps ->
  NoDup (map fst (flat_map (part_cells L) ps)) ->
  exists d, generate_data_dict (join $" " (flat_map (expand L) (flat_map part_segs ps))) = Ok d /\
    Forall2 (fun kv kc => fst kc = fst kv /\ col_cell (fst (snd kv)) (snd (snd kv)) (snd kc))
      (flat_map (part_cells L) ps) d.
Proof. exact payload_dict. Qed.
(** Whole trace of an event: with the first line holding an array, every row gets
    [trace_len] columns for every array it mentions. *)
Theorem C09_trace : forall fuel ps pss evs,
  Forall (Forall part_ok) (ps :: pss) ->
  map ev_data evs = map payload (ps :: pss) ->
  (forall q, In q (ps :: pss) -> (List.length (filter is_arr (flat_map part_segs q)) < fuel)%nat) ->
  has_array ps = true ->
  explode_all fuel evs =
  Ok (map (fun ep => set_data (fst ep)
             (join $" " (flat_map (expand (trace_len (ps :: pss))) (flat_map part_segs (snd ep)))))
          (combine evs (ps :: pss))).
Proof. exact explode_all_array. Qed.
Example C09_trace_ex : let ps := [PF (Grp $"cpu" $"0" []); PA $"load" [$"1"]] in
  let qs := [PA $"load" [$"2"; $"3"]] in
  Forall (Forall part_ok) [ps; qs] /\ has_array ps = true /\ trace_len [ps; qs] $"load" = 2%nat /\
  payload ps = $"cpu=0 load={1}".
Proof.
  cbn zeta. split; [|vm_compute; auto].
  constructor; [|constructor; [|constructor]].
  - constructor; [|constructor; [|constructor]].
    + repeat split; try discriminate; try (repeat constructor; fail); cbn; intuition discriminate.
    + split; [apply seg_okb_ok; vm_compute; reflexivity|]. split; [|repeat constructor].
      assert (H : Forall seg_ident [SArr $"load" [$"1"]]) by (apply segs_identb_ok; vm_compute; reflexivity).
      now inversion H.
  - constructor; [|constructor].
    split; [apply seg_okb_ok; vm_compute; reflexivity|]. split; [|repeat constructor].
    assert (H : Forall seg_ident [SArr $"load" [$"2"; $"3"]]) by (apply segs_identb_ok; vm_compute; reflexivity).
    now inversion H.
Qed.

(** ** C10 *)
Theorem C10_terminates : forall lens fuel s,
  Forall tok_ok (split_ch " " s) -> (braces s < fuel)%nat ->
  explode_array fuel lens s <> Err EFuel.
Proof. exact explode_terminates. Qed.
(** ... and more budget never changes the result. *)
Theorem C10_fuel_irrelevant : forall lens f1 f2 s, (f1 <= f2)%nat ->
  explode_array f1 lens s <> Err EFuel -> explode_array f2 lens s = explode_array f1 lens s.
Proof. exact explode_fuel_mono. Qed.
Example C10_ex_hyp : Forall tok_ok (split_ch " " $"a=b={1 {2} }{ x={y={3}").
Proof. apply tok_okb_all. vm_compute. reflexivity. Qed.
(** Finding: a payload on which the loop never ends. *)
Theorem C10_terminates_all_refuted : exists s,
  trace_array_lengths [] [s] = [($"a", 1%nat)] /\
  forall fuel, explode_array fuel (default_len (trace_array_lengths [] [s])) s = Err EFuel.
Proof. exact explode_diverges. Qed.
Theorem C10_frame_refuted : exists e, forall fuel,
  create_dataframe fuel generate_data_dict [e] = Err EFuel.
Proof. exact frame_diverges. Qed.

(** ** C11 *)
Theorem C11_lengths : forall l lines name,
  Forall (Forall seg_ok) (l :: lines) -> Forall (Forall seg_ident) (l :: lines) ->
  default_len (trace_array_lengths [] (map render (l :: lines))) name =
  Some (if existsb is_arr l then max_len name (l :: lines) else 0%nat).
Proof. exact lengths_max. Qed.
Theorem C11_first_without_array : forall fuel ps pss evs,
  Forall (Forall part_ok) (ps :: pss) ->
  map ev_data evs = map payload (ps :: pss) ->
  has_array ps = false ->
  explode_all fuel evs = Ok evs.
Proof. exact explode_all_noarray. Qed.
Example C11_ex : default_len (trace_array_lengths []
    (map render [[SArr $"l" [$"1"]]; [SText $"x=1"]; [SText $"y"; SArr $"l" [$"1"; $"2"; $"3"]]])) $"l" = Some 3%nat.
Proof. vm_compute. reflexivity. Qed.
(** Finding: arrays are not found at all when the first line has none. *)
Theorem C11_all_lines_refuted : exists l lines,
  Forall (Forall seg_ok) (l :: lines) /\ Forall (Forall seg_ident) (l :: lines) /\
  max_len $"l" (l :: lines) = 2%nat /\
  default_len (trace_array_lengths [] (map render (l :: lines))) $"l" = Some 0%nat.
Proof. exact lengths_refuted. Qed.

(** ** C12 *)
Theorem C12_rows : forall fuel evs fr,
  create_dataframe fuel generate_data_dict evs = Ok fr ->
  List.length fr = List.length evs /\ map fst fr = map ev_time evs /\
  Forall2 (fun e r => exists data d,
      generate_data_dict data = Ok d /\
      (trace_array_lengths [] (map ev_data evs) = [] -> data = ev_data e) /\
      (trace_array_lengths [] (map ev_data evs) <> [] ->
       explode_array fuel (default_len (trace_array_lengths [] (map ev_data evs))) (ev_data e) = Ok data) /\
      forall k, dlookup k (snd r) = match dlookup k d with Some c => Some c | None => meta_cell e k end)
    evs fr.
Proof. exact frame_rows_spec. Qed.
(** Without arrays a frame exists as soon as every payload parses. *)
Theorem C12_total : forall fuel evs,
  trace_array_lengths [] (map ev_data evs) = [] ->
  Forall (fun e => exists d, generate_data_dict (ev_data e) = Ok d) evs ->
  exists fr, create_dataframe fuel generate_data_dict evs = Ok fr.
Proof. exact frame_total. Qed.
Example C12_ex :
  create_dataframe 9 generate_data_dict
    [Ev fzero $"init" 1 0 0 $"a=1 l={1}"; Ev fzero $"sh" 2 3 5 $"a=2 l={4 5}"] =
  Ok [(fzero, [($"__comm", CStr $"init"); ($"__pid", CInt 1); ($"__cpu", CInt 0); ($"__line", CInt 0);
               ($"a", CInt 1); ($"l0", CInt 1); ($"l1", CInt 0)]);
      (fzero, [($"__comm", CStr $"sh"); ($"__pid", CInt 2); ($"__cpu", CInt 3); ($"__line", CInt 5);
               ($"a", CInt 2); ($"l0", CInt 4); ($"l1", CInt 5)])].
Proof. vm_compute. reflexivity. Qed.
(** Finding: a payload field named like a metadata column replaces it. *)
Theorem C12_metadata_refuted : exists e fr,
  create_dataframe 1 generate_data_dict [e] = Ok fr /\
  ev_pid e = 7%Z /\ map (fun r => dlookup $"__pid" (snd r)) fr = [Some (CInt 99)].
Proof. exact meta_refuted. Qed.

Print Assumptions C06_round_trip.
Print Assumptions C06_rendered.
Print Assumptions C07_decompose.
Print Assumptions C07_error_iff.
Print Assumptions C07_ok_keys.
Print Assumptions C07_words_after_integer_dropped.
Print Assumptions C08_int_iff.
Print Assumptions C08_str_iff.
Print Assumptions C08_decimal.
Print Assumptions C08_hex_oct_bin.
Print Assumptions C08_padded_text.
Print Assumptions C08_zeros.
Print Assumptions C08_literal_unique.
Print Assumptions C09_explode.
Print Assumptions C09_dict.
Print Assumptions C09_trace.
Print Assumptions C10_terminates.
Print Assumptions C10_fuel_irrelevant.
Print Assumptions C10_terminates_all_refuted.
Print Assumptions C10_frame_refuted.
Print Assumptions C11_lengths.
Print Assumptions C11_first_without_array.
Print Assumptions C11_all_lines_refuted.
Print Assumptions C12_rows.
Print Assumptions C12_total.
Print Assumptions C12_metadata_refuted.
