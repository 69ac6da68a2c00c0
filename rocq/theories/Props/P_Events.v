(** Properties C30, C31, C49-C54: event classes with payload rules of their own. *)
From Coq Require Import List Ascii String ZArith NArith Bool Lia.
From Verif Require Import Lib.PyStr Lib.PyStrFacts Lib.F64 Model.Base Model.Events
  Spec.Payload Spec.Parts Spec.Lines Spec.Events
  Proofs.PayloadP Proofs.ScanP Proofs.FrameP Proofs.EventsP Proofs.EventsQ.
Import ListNotations.
Local Open Scope list_scope.

(** ** C30: sched_switch *)
(** Any fields on the two sides of the arrow, in any spacing. *)
Theorem C30_fields : forall left right gs1 gs2,
  Words left (flat_map g_words gs1) -> Words right (flat_map g_words gs2) ->
  Forall group_ok (gs1 ++ gs2) -> NoDup (map g_key (gs1 ++ gs2)) -> Forall (fun g => g_key g <> []) (gs1 ++ gs2) ->
  exists d, generate_data_dict (switch_text (left ++ $" ==> " ++ right)) = Ok d /\
    Forall2 (fun g kc => fst kc = g_key g /\ col_cell (g_val g) (g_more g) (snd kc)) (gs1 ++ gs2) d.
Proof. exact switch_fields. Qed.
(** The text the kernel prints, for task names of several words. *)
Theorem C30_kernel : forall p state n, name_ok (sw_comm p) -> name_ok (sw_comm n) -> no_space state ->
  generate_data_dict (switch_text (switch_payload p state n)) =
  Ok [($"prev_comm", CStr (name_text (sw_comm p))); ($"prev_pid", CInt (sw_pid p)); ($"prev_prio", CInt (sw_prio p));
      ($"prev_state", string_cast_int state);
      ($"next_comm", CStr (name_text (sw_comm n))); ($"next_pid", CInt (sw_pid n)); ($"next_prio", CInt (sw_prio n))].
Proof. exact kernel_switch. Qed.
(** The rows of the frame. *)
Theorem C30_rows : forall fuel evs ds,
  Forall2 (fun e d => ~ In "{"%char (ev_data e) /\ generate_data_dict (switch_text (ev_data e)) = Ok d) evs ds ->
  exists fr, switch_dataframe fuel evs = Ok fr /\
    Forall2 (fun ed r => fst r = ev_time (fst ed) /\
      forall k, dlookup k (snd r) = match dlookup k (snd ed) with Some c => Some c | None => meta_cell (fst ed) k end)
      (combine evs ds) fr.
Proof. exact switch_rows. Qed.
Example C30_ex : exists d,
  generate_data_dict (switch_text
    $"prev_comm=my task prev_pid=3 prev_prio=120 prev_state=R+ ==> next_comm=swapper/0 next_pid=0 next_prio=120") = Ok d /\
  dlookup $"prev_comm" d = Some (CStr $"my task") /\ dlookup $"prev_state" d = Some (CStr $"R+") /\
  dlookup $"next_comm" d = Some (CStr $"swapper/0") /\ dlookup $"next_pid" d = Some (CInt 0).
Proof. eexists; split; [vm_compute; reflexivity|]. vm_compute. auto. Qed.
Example C30_ex_hyp : switch_payload (Side [$"my"; $"task"] 3 120) $"R+" (Side [$"swapper/0"] 0 120) =
  $"prev_comm=my task prev_pid=3 prev_prio=120 prev_state=R+ ==> next_comm=swapper/0 next_pid=0 next_prio=120" /\
  name_ok [$"my"; $"task"] /\ name_ok [$"swapper/0"].
Proof.
  split; [vm_compute; reflexivity|].
  assert (N : forall w, no_space w -> py_int0 w = None -> forall z, ~ int_literal w z).
  { intros w Hw E z L. apply py_int0_iff in L; auto. congruence. }
  split.
  - exists $"my", [$"task"]. split; auto. split; [repeat constructor; discriminate|]. split.
    + repeat constructor. cbn. intuition discriminate.
    + apply N; [repeat constructor|vm_compute; reflexivity].
  - exists $"swapper/0", []. split; auto. split; [repeat constructor; discriminate|]. split; [constructor|].
    apply N; [repeat constructor|vm_compute; reflexivity].
Qed.
(** Finding: an arrow inside the first name takes the replacement; the second
    arrow is then read as a field with an empty name, and the rest of the name of
    the first task is kept only up to the arrow's position. *)
Theorem C30_arrow_in_name_refuted : exists d,
  generate_data_dict (switch_text $"prev_comm=a ==> b prev_pid=3 ==> next_comm=c next_pid=4") = Ok d /\
  dlookup $"prev_comm" d = Some (CStr $"a b") /\ dlookup [] d = Some (CStr $"=>").
Proof. eexists; split; [vm_compute; reflexivity|]. vm_compute. auto. Qed.
(** Finding: a task name that begins with a number is cut to that number. *)
Theorem C30_numeric_name_refuted : exists d,
  generate_data_dict (switch_text $"prev_comm=1 st prev_pid=3 ==> next_comm=0x10 next_pid=4") = Ok d /\
  dlookup $"prev_comm" d = Some (CInt 1) /\ dlookup $"next_comm" d = Some (CInt 16).
Proof. eexists; split; [vm_compute; reflexivity|]. vm_compute. auto. Qed.
(** Finding: runs of blanks in a name are not kept. *)
Theorem C30_blanks_refuted : exists d,
  generate_data_dict (switch_text $"prev_comm=a  b prev_pid=3 ==> next_comm=c next_pid=4") = Ok d /\
  dlookup $"prev_comm" d = Some (CStr $"a b").
Proof. eexists; split; [vm_compute; reflexivity|]. vm_compute. auto. Qed.

(** ** C31: raw_syscalls *)
(** A sys_enter payload is accepted exactly when a call is printed somewhere in
    it; the first one is decoded. *)
Theorem C31_enter_iff : forall s t, enter_explode s = Ok t <->
  exists nr args, FirstAt EnterAt s (nr, args) /\ t = enter_fields nr args.
Proof. exact enter_ok_iff. Qed.
Theorem C31_enter_fields : forall nr z0 z1 z2 z3 z4 z5,
  generate_data_dict (enter_fields nr [z0; z1; z2; z3; z4; z5]) =
  Ok [($"nr", CInt nr); ($"arg0", CInt z0); ($"arg1", CInt z1); ($"arg2", CInt z2);
      ($"arg3", CInt z3); ($"arg4", CInt z4); ($"arg5", CInt z5)].
Proof. exact enter_fields_dict. Qed.
Theorem C31_exit_iff : forall s t, exit_explode s = Ok t <->
  exists nr ret, FirstAt ExitAt s (nr, ret) /\ t = $"nr=" ++ str_of_Z nr ++ $" ret=" ++ str_of_Z ret.
Proof. exact exit_ok_iff. Qed.
Theorem C31_exit_fields : forall nr ret,
  generate_data_dict ($"nr=" ++ str_of_Z nr ++ $" ret=" ++ str_of_Z ret) = Ok [($"nr", CInt nr); ($"ret", CInt ret)].
Proof. exact exit_fields_dict. Qed.
(** What the kernel prints is such a call. *)
Theorem C31_enter_printed : forall n a0 a1 a2 a3 a4 a5 post,
  FirstAt EnterAt ($"NR " ++ str_of_N n ++ $" (" ++ fmt_base 16 a0 ++ $", " ++ fmt_base 16 a1 ++ $", " ++ fmt_base 16 a2 ++
     $", " ++ fmt_base 16 a3 ++ $", " ++ fmt_base 16 a4 ++ $", " ++ fmt_base 16 a5 ++ $")" ++ post)
   (Z.of_N n, map Z.of_N [a0; a1; a2; a3; a4; a5]).
Proof. exact enter_printed. Qed.
Theorem C31_exit_printed : forall nr ret post, match post with [] => True | c :: _ => is_digit c = false end ->
  FirstAt ExitAt ($"NR " ++ str_of_Z nr ++ $" = " ++ str_of_Z ret ++ post) (nr, ret).
Proof. exact exit_printed. Qed.
(** The frames, for any number of events. *)
Theorem C31_enter_rows : forall fuel evs (cs : list (Z * list Z)),
  Forall2 (fun e x => FirstAt EnterAt (ev_data e) x) evs cs ->
  exists fr, exploded_dataframe enter_explode fuel evs = Ok fr /\
   Forall2 (fun ex r => fst r = ev_time (fst ex) /\
     (forall k, dlookup k (snd r) =
       match dlookup k (($"nr", CInt (fst (snd ex))) ::
                        map (fun ia => ($"arg" ++ str_of_nat (fst ia), CInt (snd ia))) (combine (seq 0 6) (snd (snd ex)))) with
       | Some c => Some c | None => meta_cell (fst ex) k end)) (combine evs cs) fr.
Proof. exact enter_rows. Qed.
Theorem C31_exit_rows : forall fuel evs (cs : list (Z * Z)),
  Forall2 (fun e x => FirstAt ExitAt (ev_data e) x) evs cs ->
  exists fr, exploded_dataframe exit_explode fuel evs = Ok fr /\
   Forall2 (fun ex r => fst r = ev_time (fst ex) /\
     (forall k, dlookup k (snd r) =
       match dlookup k [($"nr", CInt (fst (snd ex))); ($"ret", CInt (snd (snd ex)))] with
       | Some c => Some c | None => meta_cell (fst ex) k end)) (combine evs cs) fr.
Proof. exact exit_rows. Qed.
(** One payload without a call stops the whole trace with ValueError. *)
Theorem C31_no_call : forall fuel evs e, In e evs ->
  ((forall a b c nr args, ev_data e = a ++ b ++ c -> ~ EnterCall b nr args) ->
   exploded_dataframe enter_explode fuel evs = Err EValue) /\
  ((forall a b c nr ret, ev_data e = a ++ b ++ c -> ~ ExitCall b c nr ret) ->
   exploded_dataframe exit_explode fuel evs = Err EValue).
Proof. exact no_call_value. Qed.
Example C31_ex :
  enter_explode $"NR 64 (1, 7764ee9000, 103, 0, -1, 4)" =
    Ok $"nr=64 arg0=1 arg1=512794464256 arg2=259 arg3=0 arg4=-1 arg5=4" /\
  exit_explode $"NR 64 = -14" = Ok $"nr=64 ret=-14".
Proof. vm_compute. auto. Qed.
(** Finding: the kernel prints -1 for a call it cannot number; sys_exit accepts
    that, sys_enter does not. *)
Theorem C31_negative_number_refuted :
  enter_explode $"NR -1 (1, 2, 3, 4, 5, 6)" = Err EValue /\ exit_explode $"NR -1 = -38" = Ok $"nr=-1 ret=-38".
Proof. vm_compute. auto. Qed.

(** ** C49: clock events *)
Theorem C49_fields : forall name fields gs, ~ In " "%char name ->
  Words fields (flat_map g_words gs) -> Forall group_ok gs -> NoDup (map g_key gs) ->
  Forall (fun g => g_key g <> [] /\ g_key g <> $"clk_name") gs ->
  exists d, clk_dict (name ++ $" " ++ fields) = Ok (d ++ [($"clk_name", CStr name)]) /\
    Forall2 (fun g kc => fst kc = g_key g /\ col_cell (g_val g) (g_more g) (snd kc)) gs d.
Proof. exact clk_fields. Qed.
(** ValueError exactly for the payloads without a blank. *)
Theorem C49_error_iff : forall data, clk_dict data = Err EValue <-> ~ In " "%char data.
Proof. exact clk_error. Qed.
Example C49_ex : clk_dict $"cpu0-clk state=1 cpu_id=2" =
  Ok [($"state", CInt 1); ($"cpu_id", CInt 2); ($"clk_name", CStr $"cpu0-clk")] /\ clk_dict $"idle" = Err EValue.
Proof. vm_compute. auto. Qed.
(** Finding: a field called clk_name is replaced by the clock's name; a digit-only
    clock name stays text. *)
Theorem C49_clk_name_refuted : clk_dict $"xo clk_name=pll state=1" = Ok [($"clk_name", CStr $"xo"); ($"state", CInt 1)].
Proof. vm_compute. auto. Qed.

(** ** C50: ext4 events *)
Theorem C50_fields : forall ps, ps <> [] ->
  Forall (fun kv => ~ In " "%char (fst kv) /\ ~ In " "%char (snd kv)) ps -> NoDup (map fst ps) ->
  ext4_dict (join $" " (flat_map (fun kv => [fst kv; snd kv]) ps)) = Ok (map (fun kv => (fst kv, CStr (snd kv))) ps).
Proof. exact ext4_fields. Qed.
(** No value is ever a number. *)
Theorem C50_only_text : forall data d k c, ext4_dict data = Ok d -> dlookup k d = Some c -> exists s, c = CStr s.
Proof. exact ext4_strings. Qed.
Example C50_ex : ext4_dict $"dev 8,1 ino 265 pos 0 len 4096" =
  Ok [($"dev", CStr $"8,1"); ($"ino", CStr $"265"); ($"pos", CStr $"0"); ($"len", CStr $"4096")].
Proof. vm_compute. auto. Qed.
(** Finding: one extra blank shifts every following pair. *)
Theorem C50_blank_refuted : ext4_dict $"dev 8,1  ino 265" = Ok [($"dev", CStr $"8,1"); ([], CStr $"ino")].
Proof. vm_compute. auto. Qed.

(** ** C51: f2fs events *)
Theorem C51_fields : forall fs, fs <> [] -> Forall ffield_ok fs -> NoDup (map f_key fs) ->
  exists d, f2fs_dict (join $", " (map ffield_text fs)) = Ok d /\
    Forall2 (fun f kc => fst kc = f_key f /\ col_cell (f_val f) (f_more f) (snd kc)) fs d.
Proof. exact f2fs_fields. Qed.
(** f2fs_sync_file_exit prints its checkpoint field with "is". *)
Theorem C51_checkpoint : forall a v b fs,
  contains $"checkpoint is " a = false -> contains $"checkpoint is " (v ++ b) = false ->
  a ++ $"checkpoint = " ++ v ++ b = join $", " (map ffield_text fs) ->
  fs <> [] -> Forall ffield_ok fs -> NoDup (map f_key fs) ->
  exists d, f2fs_exit_dict (a ++ $"checkpoint is " ++ v ++ b) = Ok d /\
    Forall2 (fun f kc => fst kc = f_key f /\ col_cell (f_val f) (f_more f) (snd kc)) fs d.
Proof. exact f2fs_exit_fields. Qed.
Example C51_ex :
  f2fs_dict $"dev = (254,34), ino = 19, pos = 0, len = 10, flags = 0" =
    Ok [($"dev", CStr $"(254 34)"); ($"ino", CInt 19); ($"pos", CInt 0); ($"len", CInt 10); ($"flags", CInt 0)] /\
  f2fs_exit_dict $"dev = (254,34), ino = 19, checkpoint is not needed, datasync = 0, ret = 0" =
    Ok [($"dev", CStr $"(254 34)"); ($"ino", CInt 19); ($"checkpoint", CStr $"not needed"); ($"datasync", CInt 0); ($"ret", CInt 0)].
Proof. vm_compute. auto. Qed.
Example C51_ex_hyp : let fs := [FF $"dev" $"(254,34)" $"(254" [$"34)"]; FF $"ino" $"19" $"19" []] in
  Forall ffield_ok fs /\ NoDup (map f_key fs) /\ join $", " (map ffield_text fs) = $"dev = (254,34), ino = 19".
Proof.
  cbv zeta. split; [|split; [|reflexivity]].
  - constructor; [|constructor; [|constructor]]; unfold ffield_ok; cbn [f_key f_text f_val f_more].
    + split; [split; [discriminate|repeat constructor]|]. split; [cbn; intuition discriminate|]. split; [cbn; intuition discriminate|].
      split; [cbn; intuition discriminate|]. split; [exists $",34)"; reflexivity|]. apply Words_iff. vm_compute. reflexivity.
    + split; [split; [discriminate|repeat constructor]|]. split; [cbn; intuition discriminate|]. split; [cbn; intuition discriminate|].
      split; [cbn; intuition discriminate|]. split; [exists []; reflexivity|]. apply Words_iff. vm_compute. reflexivity.
  - repeat constructor; cbn; intuition discriminate.
Qed.

(** ** C52: leaving an idle state *)
Theorem C52_rows : forall fr,
  Forall2 (fun r r' => fst r' = fst r /\ map fst (snd r') = map fst (snd r) /\
   forall k, dlookup k (snd r') = match dlookup k (snd r) with Some (CInt 4294967295) => Some (CInt (-1)) | o => o end)
   fr (idle_finalize fr).
Proof. exact idle_rows. Qed.
Example C52_ex : idle_finalize [(fzero, [($"state", CInt 4294967295); ($"cpu_id", CInt 3)])] =
  [(fzero, [($"state", CInt (-1)); ($"cpu_id", CInt 3)])].
Proof. reflexivity. Qed.

(** ** C53: renamed columns *)
Theorem C53_rows : forall old new fr, old <> new -> Forall (fun r => ~ In new (map fst (snd r))) fr ->
  Forall2 (fun r r' => fst r' = fst r /\ forall k, dlookup k (snd r') =
     if eqs k new then dlookup old (snd r) else if eqs k old then None else dlookup k (snd r)) fr (rename_col old new fr).
Proof. exact rename_rows. Qed.
Theorem C53_capacity : forall fr, Forall (fun r => ~ In $"cpu" (map fst (snd r)) /\ ~ In $"capacity" (map fst (snd r))) fr ->
  Forall2 (fun r r' => fst r' = fst r /\ forall k, dlookup k (snd r') =
     if eqs k $"cpu" then dlookup $"cpu_id" (snd r) else if eqs k $"capacity" then dlookup $"state" (snd r) else
     if eqs k $"cpu_id" || eqs k $"state" then None else dlookup k (snd r)) fr (cpu_capacity_finalize fr).
Proof. intros fr. now apply rename_two. Qed.
Theorem C53_frequency : forall fr, Forall (fun r => ~ In $"cpu" (map fst (snd r)) /\ ~ In $"frequency" (map fst (snd r))) fr ->
  Forall2 (fun r r' => fst r' = fst r /\ forall k, dlookup k (snd r') =
     if eqs k $"cpu" then dlookup $"cpu_id" (snd r) else if eqs k $"frequency" then dlookup $"state" (snd r) else
     if eqs k $"cpu_id" || eqs k $"state" then None else dlookup k (snd r)) fr (cpu_frequency_finalize fr).
Proof. intros fr. now apply rename_two. Qed.
Theorem C53_rate : forall fr, Forall (fun r => ~ In $"rate" (map fst (snd r))) fr ->
  Forall2 (fun r r' => fst r' = fst r /\ forall k, dlookup k (snd r') =
     if eqs k $"rate" then dlookup $"state" (snd r) else if eqs k $"state" then None else dlookup k (snd r)) fr (clk_rate_finalize fr).
Proof. intros fr. now apply rename_rows. Qed.
Theorem C53_inode : forall fr, Forall (fun r => ~ In $"inode" (map fst (snd r))) fr ->
  Forall2 (fun r r' => fst r' = fst r /\ forall k, dlookup k (snd r') =
     if eqs k $"inode" then dlookup $"ino" (snd r) else if eqs k $"ino" then None else dlookup k (snd r)) fr (fs_finalize fr).
Proof. intros fr. now apply rename_rows. Qed.
Example C53_ex_rate : clk_rate_finalize [(fzero, [($"clk_name", CStr $"aclk"); ($"state", CInt 400)])] =
  [(fzero, [($"clk_name", CStr $"aclk"); ($"rate", CInt 400)])].
Proof. vm_compute. reflexivity. Qed.
Example C53_ex_inode : fs_finalize [(fzero, [($"dev", CInt 8); ($"ino", CInt 12)])] = [(fzero, [($"dev", CInt 8); ($"inode", CInt 12)])].
Proof. vm_compute. reflexivity. Qed.
Example C53_ex : cpu_frequency_finalize [(fzero, [($"state", CInt 600000); ($"cpu_id", CInt 3)])] =
  [(fzero, [($"frequency", CInt 600000); ($"cpu", CInt 3)])].
Proof. vm_compute. reflexivity. Qed.
(** Finding: if the new name exists already the frame has two columns of that name. *)
Theorem C53_collision_refuted :
  map (fun r => map fst (snd r)) (cpu_frequency_finalize [(fzero, [($"cpu", CInt 1); ($"cpu_id", CInt 3)])]) = [[$"cpu"; $"cpu"]].
Proof. vm_compute. reflexivity. Qed.

(** ** C54: CPU masks *)
(** Masks of at most eight digits are restored to eight digits, except exactly
    those that Python reads as binary literals. *)
Theorem C54_mask_iff : forall m, hexs m -> List.length m <= 8 ->
  (pad8 (string_cast_int m) = zeros (8 - List.length m) ++ m <-> ~ binary_like m).
Proof. exact mask_iff. Qed.
Theorem C54_rows : forall fr,
  Forall2 (fun r r' => fst r' = fst r /\ forall k, dlookup k (snd r') =
     if eqs k $"cpus" then option_map (fun c => CStr (pad8 c)) (dlookup k (snd r)) else dlookup k (snd r)) fr (mask_finalize fr).
Proof. exact mask_rows. Qed.
Example C54_ex : pad8 (string_cast_int $"0000000f") = $"0000000f" /\ pad8 (string_cast_int $"10") = $"00000010" /\
  pad8 (string_cast_int $"00000000") = $"00000000".
Proof. vm_compute. auto. Qed.
(** Findings: eight digits starting with 0b; more than eight zeros. *)
Theorem C54_binary_refuted : pad8 (string_cast_int $"0b000001") = $"00000001".
Proof. vm_compute. reflexivity. Qed.
Theorem C54_long_zero_refuted : pad8 (string_cast_int $"0000000000000000") = $"00000000".
Proof. vm_compute. reflexivity. Qed.

Print Assumptions C30_fields.
Print Assumptions C30_kernel.
Print Assumptions C30_rows.
Print Assumptions C31_enter_iff.
Print Assumptions C31_exit_iff.
Print Assumptions C31_enter_rows.
Print Assumptions C31_exit_rows.
Print Assumptions C31_no_call.
Print Assumptions C49_fields.
Print Assumptions C49_error_iff.
Print Assumptions C50_fields.
Print Assumptions C50_only_text.
Print Assumptions C51_fields.
Print Assumptions C51_checkpoint.
Print Assumptions C52_rows.
Print Assumptions C53_rows.
Print Assumptions C53_capacity.
Print Assumptions C53_frequency.
Print Assumptions C53_rate.
Print Assumptions C53_inode.
Print Assumptions C54_mask_iff.
Print Assumptions C54_rows.
