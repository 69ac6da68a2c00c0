(** Property C105: reports of the events trappy knows, read through the files of the
    cache (trappy/base.py, trappy/ftrace.py, trappy/bare_trace.py and the classes). *)
From Coq Require Import List Ascii String ZArith NArith Bool Lia.
From Verif Require Import Lib.PyStr Lib.F64 Lib.F64Ord Model.Base Model.Line Model.Registry Model.Populate Model.Window Model.Cache
  Model.Csv Model.CsvCache Model.Builtin Model.Classes Spec.Lines Spec.Payload Spec.Arrays Spec.Parts Spec.Trace Spec.Interval Spec.Tables Spec.Events
  Spec.Written Spec.Classes Spec.History Spec.Cached Spec.CachedClasses
  Proofs.LineP Proofs.PopulateP Proofs.WrittenP Proofs.CsvP Proofs.ClassesR Proofs.CachedEx Proofs.CachedClassesEx Proofs.CachedClassesP.
Import ListNotations.
Local Open Scope list_scope.

(** ** C105 *)
(** Histories over files holding such reports: a construction returns what it returns
    with the cache disabled. *)
Theorem C105_same : forall (F content digest header : Type) trepr tparse (frepr : F -> str) (fparse : str -> option F) (f_of : Z -> F) num_cell bool_cell
  (deq : digest -> digest -> bool) (md5 : content -> digest) (file : content -> list str) (head : content -> header)
  fuel (all : classes) (T : content -> Prop),
  let body := fun c => ftrace_body (file c) in
  let enc := csv_of trepr frepr f_of in
  let dec := frame_of tparse fparse num_cell bool_cell in
  let K := fun k => exists a, In (a, k) all in
  (forall x, tparse (trepr x) = Some x) ->
  NoDup (map fst all) -> NoDup (map (fun d => k_word (snd d)) all) -> NoDup (map (fun d => k_pyname (snd d)) all) ->
  (forall c, T c -> exists l, known_report fparse fuel all (file c) l) ->
  unambiguous body K T -> digest_faithful deq md5 T ->
  forall s cf, Reach deq md5 body head enc dec (class_frame fuel) K T false s -> selection K (c_defs cf) ->
  fst (construct deq md5 body head enc dec (class_frame fuel) cf s) =
  fst (construct deq md5 body head enc dec (class_frame fuel) (uncached cf) s).
Proof. exact @known_same. Qed.
(** Even if constructions died: whenever the directory has complete metadata, is not
    there, or is not asked for, the trace shows what the present report prints. *)
Theorem C105_read : forall (F content digest header : Type) trepr tparse (frepr : F -> str) (fparse : str -> option F) (f_of : Z -> F) num_cell bool_cell
  (deq : digest -> digest -> bool) (md5 : content -> digest) (file : content -> list str) (head : content -> header)
  fuel (all : classes) (T : content -> Prop),
  let body := fun c => ftrace_body (file c) in
  let enc := csv_of trepr frepr f_of in
  let dec := frame_of tparse fparse num_cell bool_cell in
  let K := fun k => exists a, In (a, k) all in
  (forall x, tparse (trepr x) = Some x) ->
  NoDup (map fst all) -> NoDup (map (fun d => k_word (snd d)) all) -> NoDup (map (fun d => k_pyname (snd d)) all) ->
  (forall c, T c -> exists l, known_report fparse fuel all (file c) l) ->
  unambiguous body K T -> digest_faithful deq md5 T ->
  forall b s cf l, Reach deq md5 body head enc dec (class_frame fuel) K T b s ->
  c_defs cf <> [] -> NoDup (map fst (c_defs cf)) -> incl (c_defs cf) all ->
  known_report fparse fuel all (file (f_trace s)) l ->
  b = false \/ c_nocache cf = true \/ match f_cache s with Some d => exists m, d_meta d = Some (MOk m) | None => True end ->
  exists tr ts us, fst (construct deq md5 body head enc dec (class_frame fuel) cf s) = Ok tr /\
    Forall2 printed_time (entry_lines l) ts /\ Assigned fzero ts us /\
    t_base tr = hd fzero us /\ t_end tr = last us fzero /\ t_head tr = Some (head (f_trace s)) /\
    map fst (t_frames tr) = map fst (c_defs cf) /\
    (windows_ok (c_win cf) (c_abs cf) (t_base tr) -> forall a k, In (a, k) (c_defs cf) ->
     exists fr, dget eqs a (t_frames tr) = Some fr /\
       Forall2 (row_shows (snd (kind_of k)) (lengths (texts_of a l)) (fun t => if c_norm cf then fsub t (t_base tr) else t))
         (filter (fun x => eqs a (m_attr x) && in_both (c_win cf) (c_abs cf) (t_base tr) (m_time x)) (marked 0 l us)) fr).
Proof. exact @known_read. Qed.

(** A report of five kinds of events, with the classes of trappy: switches, frequencies
    whose columns are renamed, idle states one of which stands for -1, masks, and
    events of a file system. *)
Definition builtin (n : str) : klass :=
  match find (fun r => eqs n (k_pyname (fst r))) builtin_regs with Some r => fst r | None => Kls 0 [] None [] false end.
Definition ex_all : classes :=
  [($"sched_switch", builtin $"SchedSwitch"); ($"cpu_frequency", builtin $"SchedCpuFrequency"); ($"cpu_idle", builtin $"CpuIdle");
   ($"sched_load_avg_sched_group", builtin $"SchedLoadAvgSchedGroup"); ($"f2fs", builtin $"FilesystemF2FSSyncFileExit");
   ($"ext4", builtin $"FilesystemExt4SyncFileEnter")].
Definition tl (us name : str) (t : text) : tline :=
  TLine $"   " $"kworker/0:1" $"77" None $"  " $"001" (Some ($" ", $"d..3")) $" " $"12" (Some us) [(name, $" ")] (text_str t).
Definition W (us name a : str) (t : text) : entry := EWrote (tl us name t) a t.
Definition idle (state : str) : text := TFields [PF (Grp $"state" state []); PF (Grp $"cpu_id" $"1" [])].
Definition sg (mask : str) : text := TFields [PF (Grp $"cpus" mask []); PF (Grp $"load" $"7" [])].
Definition ex_entries : list entry :=
  [ W $"500000" $"sched_switch" $"sched_switch" (TSwitch (Side [$"adb"; $"server"] 20 120) $"R+" (Side [$"swapper/1"] 0 120));
    W $"500001" $"cpu_idle" $"cpu_idle" (idle $"4294967295");
    EJunk ($"CPU:1 [LOST 5 EVENTS]" ++ [nl]);
    W $"500002" $"cpu_idle" $"cpu_idle" (idle $"2");
    W $"500005" $"cpu_frequency" $"cpu_frequency" (TFields [PF (Grp $"state" $"1400000" []); PF (Grp $"cpu_id" $"3" [])]);
    W $"500006" $"sched_load_avg_sg" $"sched_load_avg_sched_group" (sg $"f");
    W $"500007" $"sched_load_avg_sg" $"sched_load_avg_sched_group" (sg $"3");
    W $"500008" $"f2fs_sync_file_exit" $"f2fs"
      (TIs [FF $"dev" $"(259,14)" $"(259" [$"14)"]; FF $"ino" $"3" $"3" []] (FF $"checkpoint" $"not needed" $"not" [$"needed"]) [FF $"ret" $"0" $"0" []]);
    EForeign (tl $"600000" $"irq_entry" (TFree $"irq=3")) ].
Definition ex_hdr : list str := [$"version = 6" ++ [nl]; $"cpus=4" ++ [nl]].
Definition ex_file (l : list entry) : list str := ex_hdr ++ map entry_str l.
Definition exT (c : list str) : Prop := c = ex_file ex_entries.
Definition exK (k : klass) : Prop := exists a, In (a, k) ex_all.
Definition leq (a b : list str) : bool := if list_eq_dec (list_eq_dec ascii_dec) a b then true else false.
(** Decimal fractions, kept as text. *)
Definition dec_text (s : str) : option str :=
  match split_once "." s with
  | Some (a, b) => if forallb is_digit a && forallb is_digit b && negb (eqs a []) && negb (eqs b []) then Some s else None
  | None => if forallb is_digit s && negb (eqs s []) then Some s else None
  end.
Definition ex_enc := csv_of float_text (fun s : str => s) str_of_Z.
Definition ex_dec := frame_of float_read dec_text CStr (fun b : bool => CStr (if b then $"True" else $"False")).
Notation cconstruct := (construct leq (fun c => c) (fun c => ftrace_body c) (fun c : list str => List.length c) ex_enc ex_dec (class_frame 5)).
Notation cReach := (Reach leq (fun c => c) (fun c => ftrace_body c) (fun c : list str => List.length c) ex_enc ex_dec (class_frame 5) exK exT).
Definition cfg (defs : classes) : config := Cfg defs false false (fzero, None) (fzero, None).
Definition reportb (l : list entry) : bool :=
  match l with EJunk _ :: _ => false | _ => true end && forallb (entryb ex_all) l && (Z.of_nat (List.length l) <? 2^63)%Z &&
  forallb (fun d => titlesb (snd (kind_of (snd d))) (texts_of (fst d) l) && entry_keptb dec_text (snd (kind_of (snd d))) (fst d) l &&
                    forallb (fun q => (arrays q <? 5)%nat) (parts_in (texts_of (fst d) l))) ex_all.
Lemma reportb_ok l : reportb l = true -> known_report dec_text 5 ex_all (ex_file l) l.
Proof.
  unfold reportb. intros H. apply andb_true_iff in H as [H H0]. apply andb_true_iff in H as [H H1]. apply andb_true_iff in H as [H H2]. exists ex_hdr. split; [reflexivity|]. split.
  { unfold ex_hdr. do 2 (apply Forall_cons; [left; apply occurs_false; vm_compute; reflexivity|]). apply Forall_nil. }
  split; [destruct l as [|[| |]]; try exact I; discriminate H|]. split; [now apply entriesb_ok|]. split; [now apply Z.ltb_lt|].
  intros a k Hi. rewrite forallb_forall in H0. specialize (H0 _ Hi). cbn [fst snd] in H0. apply andb_true_iff in H0 as [H0 H3]. apply andb_true_iff in H0 as [H0 H4].
  split; [now apply titlesb_ok|]. split; [now apply entry_keptb_ok|]. intros q Hq. rewrite forallb_forall in H3. now apply Nat.ltb_lt, H3.
Qed.
Definition pairsb {A} (p : A -> A -> bool) (l : list A) : bool := forallb (fun x => forallb (p x) l) l.
Example C105_ex_hyp : (forall x, float_read (float_text x) = Some x) /\
  NoDup (map fst ex_all) /\ NoDup (map (fun d => k_word (snd d)) ex_all) /\ NoDup (map (fun d => k_pyname (snd d)) ex_all) /\
  known_report dec_text 5 ex_all (ex_file ex_entries) ex_entries /\
  unambiguous (fun c => ftrace_body c) exK exT /\ digest_faithful leq (fun c => c) exT.
Proof.
  split; [exact float_round|]. do 3 (split; [apply nodupb_ok; vm_compute; reflexivity|]).
  split; [apply reportb_ok; vm_compute; reflexivity|]. split.
  - assert (D : forallb (fun line => pairsb (fun d1 d2 : str * klass => negb (contains (k_word (snd d1)) line && contains (k_word (snd d2)) line) || eqs (fst d1) (fst d2)) ex_all)
                  (ftrace_body (ex_file ex_entries)) = true) by (vm_compute; reflexivity).
    intros c line k1 k2 -> Hl (a1 & H1) (a2 & H2) C1 C2. rewrite forallb_forall in D. specialize (D line Hl). unfold pairsb in D.
    rewrite forallb_forall in D. specialize (D _ H1). rewrite forallb_forall in D. specialize (D _ H2). cbn [fst snd] in D. rewrite C1, C2 in D.
    cbn [andb negb orb] in D. apply PyStrFacts.eqs_eq in D. subst a2.
    assert (N : NoDup (map fst ex_all)) by (apply nodupb_ok; vm_compute; reflexivity).
    assert (X := CachedP.nodup_inj fst ex_all (a1, k1) (a1, k2) N H1 H2 eq_refl). injection X as <-. reflexivity.
  - split; auto. intros a b. unfold leq. destruct (list_eq_dec (list_eq_dec ascii_dec) a b); split; congruence.
Qed.
(** Constructing for one event, then for all, then reading all from the files. *)
Definition ex_s1 := snd (cconstruct (cfg [($"cpu_idle", builtin $"CpuIdle")]) (Fs (ex_file ex_entries) None)).
Definition ex_s2 := snd (cconstruct (cfg ex_all) ex_s1).
Definition cells_in {header} (r : res (@trace header)) : res (list (str * list dict)) :=
  do t <- r ;; Ok (map (fun x => (fst x, map (fun r => skipn 4 (snd r)) (snd x))) (t_frames t)).
Lemma ex_selection defs : defs = [($"cpu_idle", builtin $"CpuIdle")] \/ defs = ex_all -> selection exK defs.
Proof.
  intros [->| ->]; (split; [discriminate|split; [apply nodupb_ok; vm_compute; reflexivity|split; [apply nodupb_ok; vm_compute; reflexivity|]]]);
    repeat constructor; unfold exK; eexists; unfold ex_all; cbn [In fst snd]; auto 9.
Qed.
Example C105_ex : cReach false ex_s2 /\
  match f_cache ex_s2 with Some d => map fst (d_tables d) =
    [$"CpuIdle"; $"SchedSwitch"; $"SchedCpuFrequency"; $"SchedLoadAvgSchedGroup"; $"FilesystemF2FSSyncFileExit"; $"FilesystemExt4SyncFileEnter"] | None => False end /\
  cells_in (fst (cconstruct (cfg ex_all) ex_s2)) =
  Ok [($"sched_switch", [[($"prev_comm", CStr $"adb server"); ($"prev_pid", CInt 20); ($"prev_prio", CInt 120); ($"prev_state", CStr $"R+");
                          ($"next_comm", CStr $"swapper/1"); ($"next_pid", CInt 0); ($"next_prio", CInt 120)]]);
      ($"cpu_frequency", [[($"frequency", CInt 1400000); ($"cpu", CInt 3)]]);
      ($"cpu_idle", [[($"state", CInt (-1)); ($"cpu_id", CInt 1)]; [($"state", CInt 2); ($"cpu_id", CInt 1)]]);
      ($"sched_load_avg_sched_group", [[($"cpus", CStr $"0000000f"); ($"load", CInt 7)]; [($"cpus", CStr $"00000003"); ($"load", CInt 7)]]);
      ($"f2fs", [[($"dev", CStr $"(259 14)"); ($"inode", CInt 3); ($"checkpoint", CStr $"not needed"); ($"ret", CInt 0)]]);
      ($"ext4", [])].
Proof.
  split; [|vm_compute; auto].
  assert (H1 : cReach false ex_s1).
  { unfold ex_s1. apply R_construct; [|apply ex_selection; now left]. apply R_start. reflexivity. }
  unfold ex_s2. revert H1. generalize ex_s1. intros s H1. apply R_construct; [exact H1|apply ex_selection; now right].
Qed.

(** Masks none of which has a letter, and inodes of the ext4 events: the first
    construction gives the padded mask and the text, the second, from the file, numbers. *)
Definition mask_entries : list entry := [ W $"500006" $"sched_load_avg_sg" $"sched_load_avg_sched_group" (sg $"3") ].
Definition ext4_entries : list entry :=
  [ W $"500007" $"ext4_sync_file_enter" $"ext4" (TPairs [($"dev", $"8,1"); ($"ino", $"99"); ($"parent", $"2")]) ].
Theorem C105_numbers_refuted :
  let s := fun l => Fs (ex_file l) None in
  let cm := cfg [($"sched_load_avg_sched_group", builtin $"SchedLoadAvgSchedGroup")] in
  let ce := cfg [($"ext4", builtin $"FilesystemExt4SyncFileEnter")] in
  Forall (entry_ok ex_all) mask_entries /\ Forall (entry_ok ex_all) ext4_entries /\
  cells_in (fst (cconstruct cm (s mask_entries))) = Ok [($"sched_load_avg_sched_group", [[($"cpus", CStr $"00000003"); ($"load", CInt 7)]])] /\
  cells_in (fst (cconstruct cm (snd (cconstruct cm (s mask_entries))))) = Ok [($"sched_load_avg_sched_group", [[($"cpus", CInt 3); ($"load", CInt 7)]])] /\
  cells_in (fst (cconstruct ce (s ext4_entries))) = Ok [($"ext4", [[($"dev", CStr $"8,1"); ($"inode", CStr $"99"); ($"parent", CStr $"2")]])] /\
  cells_in (fst (cconstruct ce (snd (cconstruct ce (s ext4_entries))))) = Ok [($"ext4", [[($"dev", CStr $"8,1"); ($"inode", CInt 99); ($"parent", CInt 2)]])].
Proof.
  do 2 (split; [apply entriesb_ok; vm_compute; reflexivity|]). repeat (split; [vm_compute; reflexivity|]). vm_compute; reflexivity.
Qed.
Print Assumptions C105_same.
Print Assumptions C105_read.
Print Assumptions C105_numbers_refuted.
