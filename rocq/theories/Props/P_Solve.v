(** C95: expressions over a written report. *)
From Coq Require Import List Ascii String ZArith NArith QArith Qcanon Reals Qreals Bool Lia.
From Flocq Require Import BinarySingleNaN.
From Verif Require Import Lib.PyStr Lib.PyStrFacts Lib.TotalOrder Lib.F64 Model.Base Model.Line Model.Registry Model.Builtin Model.Populate Model.Window Model.Cache
  Model.Files Model.Classes Model.Stats Model.Grammar Model.Accessor Model.PlotReport Model.Solve
  Spec.Lines Spec.Payload Spec.Arrays Spec.Parts Spec.Trace Spec.Interval Spec.Written Spec.Events Spec.Classes Spec.Power Spec.Grammar Spec.Accessor Spec.Solve
  Proofs.ClassesR Proofs.PlotReportP Proofs.SolveP Proofs.SolveQ.
Import ListNotations.
Local Open Scope nat_scope.
Local Open Scope list_scope.

(** The rows that an accessor stands for are those printed in the report: one for each event of the attribute that
    is inside the windows and has the wanted values, with its time, its pivot value and its value in the column.
    With [Proper], all that C40 says about sessions of expressions holds of such rows. *)
Theorem C95_source : forall (content digest header csv : Type)
  (deq : digest -> digest -> bool) (md5 : content -> digest) (file : content -> list str)
  (head : content -> header) (enc : frame -> csv) (dec : csv -> option frame)
  (fuel : nat) (c : config) (s : fsys) hdr items,
  NoDup (map fst (c_defs c)) -> NoDup (map (fun d => k_word (snd d)) (c_defs c)) -> (forall a k, In (a, k) (c_defs c) -> given_name k = a) ->
  c_nocache c = true \/ (f_cache s = None /\ c_defs c <> []) ->
  file (f_trace s) = hdr ++ map entry_str items ->
  Forall junk_ok hdr -> begins items -> Forall (entry_ok (c_defs c)) items ->
  (forall a k, In (a, k) (c_defs c) -> titles_ok (snd (kind_of k)) (texts_of a items) /\
     forall q, In q (parts_in (texts_of a items)) -> (arrays q < fuel)%nat) ->
  exists tr ts us, fst (do_parse deq md5 (fun x => ftrace_body (file x)) head enc dec (class_frame fuel) c s) = Ok tr /\
    Forall2 printed_time (entry_lines items) ts /\ Assigned fzero ts us /\ t_base tr = hd fzero us /\
    let shift := fun t => if c_norm c then fsub t (t_base tr) else t in
    let marks := fun a => events_of a (in_both (c_win c) (c_abs c) (t_base tr)) items us in
    let len := fun a => lengths (texts_of a items) in
    (windows_ok (c_win c) (c_abs c) (t_base tr) -> Forall (fun u => is_finite u = true) us ->
     (forall a, In a (map fst (c_defs c)) -> Distinct shift (marks a)) ->
     (forall a k, In (a, k) (c_defs c) -> AllOrNone (snd (kind_of k)) (len a) (pivot_of k) (marks a)) ->
     forall pvars attr from to filters fill, Ours (c_defs c) pvars attr ->
     let w := world_of (c_defs c) (t_frames tr) pvars attr from to filters fill in
     Proper time_leb w /\
     forall a k col sel, In (a, k) (c_defs c) -> pvars a = None ->
     Only (Wanted (snd (kind_of k)) (len a) shift (marks a) from to filters) (marks a) sel ->
     sel <> [] -> Has (snd (kind_of k)) (len a) (marks a) col -> (forall p, pivot_of k = Some p -> Has (snd (kind_of k)) (len a) (marks a) p) ->
     exists rows, Source time_leb w a col rows /\ Forall2 (RowOf (snd (kind_of k)) (len a) shift (pivot_of k) col) sel rows).
Proof.
  intros content digest header csv deq md5 file head enc dec fuel c s hdr items H1 H2 H3 H4 H5 H6 H7 H8 H9.
  destruct (report_solve deq md5 file head enc dec fuel c s hdr items H1 H2 H3 H4 H5 H6 H7 H8 H9) as (tr & ts & us & HE & HT & HA & HB & HF).
  exists tr, ts, us. do 4 (split; [assumption|]). cbv zeta in *. intros Hw Hf HD HP pvars attr from to filters fill HO.
  destruct (HF Hw Hf HD HP pvars attr from to filters fill HO) as [P1 P2]. split; [exact P1|].
  intros a k col sel Ha Hp HW Hs G1 G2. exact (proj1 (P2 a k col sel Ha Hp HW) Hs (conj G1 G2)).
Qed.
(** [Parser(trace).solve("event:column")]: the index is the times of these events, there is a series for each pivot value,
    and a cell is the value that was printed last. *)
Theorem C95_solve : forall (content digest header csv : Type)
  (deq : digest -> digest -> bool) (md5 : content -> digest) (file : content -> list str)
  (head : content -> header) (enc : frame -> csv) (dec : csv -> option frame)
  (fuel : nat) (c : config) (s : fsys) hdr items,
  NoDup (map fst (c_defs c)) -> NoDup (map (fun d => k_word (snd d)) (c_defs c)) -> (forall a k, In (a, k) (c_defs c) -> given_name k = a) ->
  c_nocache c = true \/ (f_cache s = None /\ c_defs c <> []) ->
  file (f_trace s) = hdr ++ map entry_str items ->
  Forall junk_ok hdr -> begins items -> Forall (entry_ok (c_defs c)) items ->
  (forall a k, In (a, k) (c_defs c) -> titles_ok (snd (kind_of k)) (texts_of a items) /\
     forall q, In q (parts_in (texts_of a items)) -> (arrays q < fuel)%nat) ->
  exists tr ts us, fst (do_parse deq md5 (fun x => ftrace_body (file x)) head enc dec (class_frame fuel) c s) = Ok tr /\
    Forall2 printed_time (entry_lines items) ts /\ Assigned fzero ts us /\ t_base tr = hd fzero us /\
    let shift := fun t => if c_norm c then fsub t (t_base tr) else t in
    let marks := fun a => events_of a (in_both (c_win c) (c_abs c) (t_base tr)) items us in
    let len := fun a => lengths (texts_of a items) in
    (windows_ok (c_win c) (c_abs c) (t_base tr) -> Forall (fun u => is_finite u = true) us ->
     (forall a, In a (map fst (c_defs c)) -> Distinct shift (marks a)) ->
     (forall a k, In (a, k) (c_defs c) -> AllOrNone (snd (kind_of k)) (len a) (pivot_of k) (marks a)) ->
     forall pvars attr from to filters fill, Ours (c_defs c) pvars attr ->
     let w := world_of (c_defs c) (t_frames tr) pvars attr from to filters fill in
     forall a k col sel, In (a, k) (c_defs c) -> pvars a = None ->
     Only (Wanted (snd (kind_of k)) (len a) shift (marks a) from to filters) (marks a) sel ->
     sel <> [] -> Has (snd (kind_of k)) (len a) (marks a) col -> (forall p, pivot_of k = Some p -> Has (snd (kind_of k)) (len a) (marks a) p) ->
     fill = true -> forall W (lib : library Qc cell W) text, Text 6 (EAcc a col) text ->
     let times := map (fun m => time (shift (m_time m))) sel in
     exists rows cols, Forall2 (RowOf (snd (kind_of k)) (len a) shift (pivot_of k) col) sel rows /\
       fst (parser_solve time_leb cell_leb w lib empty_table text) = Ok (l_frame lib (times, cols)) /\ keys_of (map fst cols) rows /\
       forall p cells, In (p, cells) cols -> Forall2 (fun t x => CellOf (fun x y => (x <= y)%Qc) rows p t x) times cells).
Proof.
  intros content digest header csv deq md5 file head enc dec fuel c s hdr items H1 H2 H3 H4 H5 H6 H7 H8 H9.
  destruct (report_solve deq md5 file head enc dec fuel c s hdr items H1 H2 H3 H4 H5 H6 H7 H8 H9) as (tr & ts & us & HE & HT & HA & HB & HF).
  exists tr, ts, us. do 4 (split; [assumption|]). cbv zeta in *. intros Hw Hf HD HP pvars attr from to filters fill HO.
  destruct (HF Hw Hf HD HP pvars attr from to filters fill HO) as [P1 P2]. 
  intros a k col sel Ha Hp HW Hs G1 G2 Hfi W lib text Ht. exact (proj1 (proj2 (P2 a k col sel Ha Hp HW) W lib text Ht) Hfi Hs (conj G1 G2)).
Qed.
(** Nothing printed inside the windows: a ValueError.  A column, or the pivot column, that no event has: a KeyError. *)
Theorem C95_missing : forall (content digest header csv : Type)
  (deq : digest -> digest -> bool) (md5 : content -> digest) (file : content -> list str)
  (head : content -> header) (enc : frame -> csv) (dec : csv -> option frame)
  (fuel : nat) (c : config) (s : fsys) hdr items,
  NoDup (map fst (c_defs c)) -> NoDup (map (fun d => k_word (snd d)) (c_defs c)) -> (forall a k, In (a, k) (c_defs c) -> given_name k = a) ->
  c_nocache c = true \/ (f_cache s = None /\ c_defs c <> []) ->
  file (f_trace s) = hdr ++ map entry_str items ->
  Forall junk_ok hdr -> begins items -> Forall (entry_ok (c_defs c)) items ->
  (forall a k, In (a, k) (c_defs c) -> titles_ok (snd (kind_of k)) (texts_of a items) /\
     forall q, In q (parts_in (texts_of a items)) -> (arrays q < fuel)%nat) ->
  exists tr ts us, fst (do_parse deq md5 (fun x => ftrace_body (file x)) head enc dec (class_frame fuel) c s) = Ok tr /\
    Forall2 printed_time (entry_lines items) ts /\ Assigned fzero ts us /\ t_base tr = hd fzero us /\
    let shift := fun t => if c_norm c then fsub t (t_base tr) else t in
    let marks := fun a => events_of a (in_both (c_win c) (c_abs c) (t_base tr)) items us in
    let len := fun a => lengths (texts_of a items) in
    (windows_ok (c_win c) (c_abs c) (t_base tr) -> Forall (fun u => is_finite u = true) us ->
     (forall a, In a (map fst (c_defs c)) -> Distinct shift (marks a)) ->
     (forall a k, In (a, k) (c_defs c) -> AllOrNone (snd (kind_of k)) (len a) (pivot_of k) (marks a)) ->
     forall pvars attr from to filters fill, Ours (c_defs c) pvars attr ->
     let w := world_of (c_defs c) (t_frames tr) pvars attr from to filters fill in
     forall a k col sel, In (a, k) (c_defs c) -> pvars a = None ->
     Only (Wanted (snd (kind_of k)) (len a) shift (marks a) from to filters) (marks a) sel ->
     forall W (lib : library Qc cell W) text, Text 6 (EAcc a col) text ->
     (sel = [] -> fst (parser_solve time_leb cell_leb w lib empty_table text) = Err EValue) /\
     (sel <> [] -> ~ Has (snd (kind_of k)) (len a) (marks a) col \/ (exists p, pivot_of k = Some p /\ ~ Has (snd (kind_of k)) (len a) (marks a) p) ->
      fst (parser_solve time_leb cell_leb w lib empty_table text) = Err EKey)).
Proof.
  intros content digest header csv deq md5 file head enc dec fuel c s hdr items H1 H2 H3 H4 H5 H6 H7 H8 H9.
  destruct (report_solve deq md5 file head enc dec fuel c s hdr items H1 H2 H3 H4 H5 H6 H7 H8 H9) as (tr & ts & us & HE & HT & HA & HB & HF).
  exists tr, ts, us. do 4 (split; [assumption|]). cbv zeta in *. intros Hw Hf HD HP pvars attr from to filters fill HO.
  destruct (HF Hw Hf HD HP pvars attr from to filters fill HO) as [P1 P2]. 
  intros a k col sel Ha Hp HW W lib text Ht. exact (proj2 (proj2 (P2 a k col sel Ha Hp HW) W lib text Ht)).
Qed.
(** Finding: the pivot of the system calls is "pid", a column that their rows never have (they have "__pid"), so that no
    column of system calls can be used in an expression. *)
Theorem C95_syscalls : forall (content digest header csv : Type)
  (deq : digest -> digest -> bool) (md5 : content -> digest) (file : content -> list str)
  (head : content -> header) (enc : frame -> csv) (dec : csv -> option frame)
  (fuel : nat) (c : config) (s : fsys) hdr items,
  NoDup (map fst (c_defs c)) -> NoDup (map (fun d => k_word (snd d)) (c_defs c)) -> (forall a k, In (a, k) (c_defs c) -> given_name k = a) ->
  c_nocache c = true \/ (f_cache s = None /\ c_defs c <> []) ->
  file (f_trace s) = hdr ++ map entry_str items ->
  Forall junk_ok hdr -> begins items -> Forall (entry_ok (c_defs c)) items ->
  (forall a k, In (a, k) (c_defs c) -> titles_ok (snd (kind_of k)) (texts_of a items) /\
     forall q, In q (parts_in (texts_of a items)) -> (arrays q < fuel)%nat) ->
  exists tr ts us, fst (do_parse deq md5 (fun x => ftrace_body (file x)) head enc dec (class_frame fuel) c s) = Ok tr /\
    Forall2 printed_time (entry_lines items) ts /\ Assigned fzero ts us /\ t_base tr = hd fzero us /\
    let shift := fun t => if c_norm c then fsub t (t_base tr) else t in
    let marks := fun a => events_of a (in_both (c_win c) (c_abs c) (t_base tr)) items us in
    let len := fun a => lengths (texts_of a items) in
    (windows_ok (c_win c) (c_abs c) (t_base tr) -> Forall (fun u => is_finite u = true) us ->
     (forall a, In a (map fst (c_defs c)) -> Distinct shift (marks a)) ->
     (forall a k, In (a, k) (c_defs c) -> AllOrNone (snd (kind_of k)) (len a) (pivot_of k) (marks a)) ->
     forall pvars attr from to filters fill, Ours (c_defs c) pvars attr ->
     let w := world_of (c_defs c) (t_frames tr) pvars attr from to filters fill in
     forall a k col sel, In (a, k) (c_defs c) -> pvars a = None ->
     Only (Wanted (snd (kind_of k)) (len a) shift (marks a) from to filters) (marks a) sel ->
     k_pyname k = $"SysEnter" \/ k_pyname k = $"SysExit" -> sel <> [] ->
     forall W (lib : library Qc cell W) text, Text 6 (EAcc a col) text ->
     fst (parser_solve time_leb cell_leb w lib empty_table text) = Err EKey).
Proof.
  intros content digest header csv deq md5 file head enc dec fuel c s hdr items H1 H2 H3 H4 H5 H6 H7 H8 H9.
  destruct (report_solve deq md5 file head enc dec fuel c s hdr items H1 H2 H3 H4 H5 H6 H7 H8 H9) as (tr & ts & us & HE & HT & HA & HB & HF).
  exists tr, ts, us. do 4 (split; [assumption|]). cbv zeta in *. intros Hw Hf HD HP pvars attr from to filters fill HO.
  destruct (HF Hw Hf HD HP pvars attr from to filters fill HO) as [P1 P2]. 
  intros a k col sel Ha Hp HW Hn Hs W lib text Ht. apply (proj2 (proj2 (proj2 (P2 a k col sel Ha Hp HW) W lib text Ht)) Hs).
  right. exists $"pid". assert (Ek : pivot_of k = Some $"pid" /\ snd (kind_of k) = Same /\ (fst (kind_of k) = Enters \/ fst (kind_of k) = Exits)).
  { unfold pivot_of, kind_of. destruct Hn as [-> | ->]; vm_compute; auto. }
  destruct Ek as (-> & E2 & E3). split; auto. rewrite E2. intros (m & v & Im & Hv).
  apply (syscall_pid (fst (kind_of k)) m Same (lengths (texts_of a items)) E3 eq_refl) in Hv; auto.
  apply filter_In in Im as [Im J]. apply andb_true_iff in J as [J _]. exact (marked_texts _ _ _ _ Ha _ _ H8 m Im J).
Qed.
(** Without normalising, the times of the events differ, as the theorems require. *)
Theorem C95_distinct : forall items ts us keep a, Forall2 printed_time (entry_lines items) ts -> Assigned fzero ts us -> Forall (fun u => is_finite u = true) us ->
  Distinct (fun t => t) (events_of a keep items us).
Proof. exact times_differ. Qed.
(** Times are those of the doubles. *)
Theorem C95_time : forall x, Q2R (this (time x)) = B2R x.
Proof. exact time_value. Qed.
(** The orders in which times and pivot values are sorted. *)
Theorem C95_orders : total_order time_leb /\ total_order cell_leb /\ (forall a b, time_leb a b = true <-> (a <= b)%Qc) /\
  (forall x y, cell_leb (CInt x) (CInt y) = true <-> (x <= y)%Z) /\ (forall x s, cell_leb (CInt x) (CStr s) = true) /\
  (forall a b, cell_leb (CStr a) (CStr b) = true <-> (exists r, b = a ++ r) \/
     exists p x y a' b', a = p ++ x :: a' /\ b = p ++ y :: b' /\ (N_of_ascii x < N_of_ascii y)%N).
Proof.
  split; [exact time_order|]. split; [exact cell_order|]. split; [exact time_leb_iff|]. split; [intros x y; apply Z.leb_le|]. split; [reflexivity|exact text_leb_iff].
Qed.
(** Which column separates the series of a class. *)
Theorem C95_pivots : forall k p, pivot_of k = Some p <-> exists l, In (p, l) by_pivot /\ In (k_pyname k) l.
Proof. exact pivots_ok. Qed.

(** A report of temperatures, frequencies and a system call. *)
Definition builtin (n : str) : klass :=
  match find (fun r => eqs n (k_pyname (fst r))) builtin_regs with Some r => fst r | None => Registry.Kls 0 [] None [] false end.
Definition ex_defs : list (str * klass) := [($"thermal", builtin $"Thermal"); ($"cpu_frequency", builtin $"SchedCpuFrequency"); ($"sys_exit", builtin $"SysExit")].
Definition tl (us name : str) (t : text) : tline :=
  TLine $"   " $"swapper" $"0" None $"  " $"001" (Some ($" ", $"d..3")) $" " $"12" (Some us) [(name, $" ")] (text_str t).
Definition W (us name a : str) (t : text) : entry := EWrote (tl us name t) a t.
Definition F (l : list (str * str)) : text := TFields (map (fun kv => PF (Grp (fst kv) (snd kv) [])) l).
Definition ex_items : list entry :=
  [ W $"500000" $"thermal_temperature" $"thermal" (F [($"id", $"0"); ($"temp", $"40000")]);
    W $"625000" $"cpu_frequency" $"cpu_frequency" (F [($"state", $"1400000"); ($"cpu_id", $"3")]);
    EJunk ($"CPU:1 [LOST 5 EVENTS]" ++ [nl]);
    W $"750000" $"thermal_temperature" $"thermal" (F [($"id", $"1"); ($"temp", $"50000")]);
    W $"812500" $"sys_exit" $"sys_exit" (TExit 64 (-1));
    W $"875000" $"thermal_temperature" $"thermal" (F [($"id", $"0"); ($"temp", $"42000")]) ].
Definition ex_hdr : list str := [$"version = 6" ++ [nl]].
Definition ex_cfg : config := Cfg ex_defs true true (fzero, None) (fzero, None).
Definition ex_us : list F64.float := [f_of_ratio 12500 1000; f_of_ratio 12625 1000; f_of_ratio 12750 1000; f_of_ratio 128125 10000; f_of_ratio 12875 1000].
Definition ex_lib : library Qc cell (list Qc * list (option cell * list (option cell))) :=
  Lib (fun _ => ([], [])) (fun _ => None) (fun x => x) (fun _ => Err EKey) Ok (fun _ a _ => Ok a).
Definition ex_solve (from : option Qc) (filters : list (str * list cell)) (text : str) :=
  match fst (do_parse (fun _ _ : unit => true) (fun _ => tt) (fun x => ftrace_body x) (fun x : list str => List.length x)
    (fun f : frame => f) Some (class_frame 5) ex_cfg (Fs (ex_hdr ++ map entry_str ex_items) None)) with
  | Ok tr => match fst (parser_solve time_leb cell_leb (world_of ex_defs (t_frames tr) (fun _ => None) (fun _ => Err EKey) from None filters true)
                          ex_lib empty_table text) with
             | Ok (idx, cols) => Ok (map this idx, cols)
             | Err x => Err x
             end
  | Err x => Err x
  end.
Example C95_ex : ex_solve (Some 0%Qc) [] $"thermal:temp" =
  Ok ([0; 1 # 4; 3 # 8]%Q, [(Some (CInt 0), [Some (CInt 40000); Some (CInt 40000); Some (CInt 42000)]); (Some (CInt 1), [None; Some (CInt 50000); Some (CInt 50000)])]).
Proof. vm_compute. reflexivity. Qed.
Example C95_ex_filter : ex_solve None [($"id", [CInt 1])] $"thermal:temp" = Ok ([1 # 4]%Q, [(Some (CInt 1), [Some (CInt 50000)])]).
Proof. vm_compute. reflexivity. Qed.
Example C95_ex_error : ex_solve None [] $"thermal:frequency" = Err EKey /\ ex_solve (Some (Q2Qc 1)) [] $"thermal:temp" = Err EValue /\
  ex_solve None [] $"sys_exit:ret" = Err EKey /\ ex_solve None [] $"cpu_frequency:state" = Err EKey.
Proof. vm_compute. auto. Qed.
Notation ex_marks := (fun a => events_of a (in_both (fzero, None) (fzero, None) (hd fzero ex_us)) ex_items ex_us).
Notation ex_shift := (fun t => fsub t (hd fzero ex_us)).
Example C95_ex_meets :
  Forall junk_ok ex_hdr /\ begins ex_items /\ Forall (entry_ok ex_defs) ex_items /\
  NoDup (map fst ex_defs) /\ NoDup (map (fun d => k_word (snd d)) ex_defs) /\ (forall a k, In (a, k) ex_defs -> given_name k = a) /\
  Forall (fun d => titles_ok (snd (kind_of (snd d))) (texts_of (fst d) ex_items) /\
     Forall (fun q => (arrays q < 5)%nat) (parts_in (texts_of (fst d) ex_items))) ex_defs /\
  Forall (fun u => is_finite u = true) ex_us /\
  (forall a, In a (map fst ex_defs) -> Distinct ex_shift (ex_marks a)) /\
  (forall a k, In (a, k) ex_defs -> AllOrNone (snd (kind_of k)) (lengths (texts_of a ex_items)) (pivot_of k) (ex_marks a)) /\
  Ours ex_defs (fun _ => None) (fun _ => Err EKey) /\
  Has Same (lengths (texts_of $"thermal" ex_items)) (ex_marks $"thermal") $"temp" /\ Text 6 (EAcc $"thermal" $"temp") $"thermal:temp".
Proof.
  assert (Hd : forall ms, nodup_b time_leb (map (fun m => time (ex_shift (m_time m))) ms) = true -> Distinct ex_shift ms).
  { intros ms. unfold Distinct. now rewrite (nodup_b_spec time_leb time_order). }
  assert (Hm : forall a key, forallb (has_field (lengths (texts_of a ex_items)) key) (ex_marks a) = true ->
    forall m, In m (ex_marks a) -> exists ps val more, m_text m = TFields ps /\ In (key, (val, more)) (flat_map (part_cells (lengths (texts_of a ex_items))) ps) /\ no_space val).
  { intros a key B m J. rewrite forallb_forall in B. apply has_field_ok. now apply B. }
  split; [|split; [exact I|split; [apply entriesb_ok; vm_compute; reflexivity|split; [|split; [|split; [|split; [|split; [|split; [|split; [|split; [|split]]]]]]]]]]].
  - unfold ex_hdr. apply Forall_cons; [left; apply PopulateP.occurs_false; vm_compute; reflexivity|]. apply Forall_nil.
  - apply nodupb_ok. vm_compute. reflexivity.
  - apply nodupb_ok. vm_compute. reflexivity.
  - intros a k [[= <- <-]|[[= <- <-]|[[= <- <-]|[]]]]; vm_compute; reflexivity.
  - unfold ex_defs. do 3 (apply Forall_cons; [split; [apply titlesb_ok; vm_compute; reflexivity|vm_compute; repeat constructor]|]). apply Forall_nil.
  - unfold ex_us. repeat (constructor; [vm_compute; reflexivity|]). constructor.
  - intros a [<-|[<-|[<-|[]]]]; apply Hd; vm_compute; reflexivity.
  - intros a k [[= <- <-]|[[= <- <-]|[[= <- <-]|[]]]] p m [= <-] Hh Im.
    + destruct (Hm $"thermal" $"id" ltac:(vm_compute; reflexivity) m Im) as (ps & val & more & E1 & E2 & E3). apply (field_cell _ _ m ps _ $"id" val more E1 E2); auto.
    + destruct (Hm $"cpu_frequency" $"cpu_id" ltac:(vm_compute; reflexivity) m Im) as (ps & val & more & E1 & E2 & E3).
      apply (field_cell _ _ m ps _ $"cpu_id" val more E1 E2); auto.
    + destruct Hh as (m' & v & Im' & Hv). exfalso. apply (syscall_pid Exits m' Same (lengths (texts_of $"sys_exit" ex_items)) (or_intror eq_refl) eq_refl) in Hv; auto.
      assert (B : forallb (fun m => match m_text m with TExit _ _ => true | _ => false end) (ex_marks $"sys_exit") = true) by (vm_compute; reflexivity).
      rewrite forallb_forall in B. apply B in Im'. destruct (m_text m'); try discriminate. exact I.
  - intros e k [H|H]; discriminate.
  - assert (E : exists m, In m (ex_marks $"thermal")) by (destruct (ex_marks $"thermal") as [|m l] eqn:E; [apply (f_equal (@List.length mark)) in E; vm_compute in E; discriminate|exists m; now left]). destruct E as (m & Im).
    destruct (Hm $"thermal" $"temp" ltac:(vm_compute; reflexivity) m Im) as (ps & val & more & E1 & E2 & E3).
    destruct (field_cell Same _ m ps $"temp" $"temp" val more E1 E2 eq_refl E3) as (v & Hv). exists m, v. split; auto.
  - do 6 (apply T_looser; [lia|]). apply (T_acc $"thermal" [] [] $"temp"); [apply D_one| constructor | constructor |];
      (eexists; eexists; split; [reflexivity|split; [reflexivity|repeat (constructor; [reflexivity|]); constructor]]).
Qed.

Print Assumptions C95_source.
Print Assumptions C95_solve.
Print Assumptions C95_missing.
Print Assumptions C95_syscalls.
Print Assumptions C95_distinct.
Print Assumptions C95_time.
Print Assumptions C95_orders.
Print Assumptions C95_pivots.
