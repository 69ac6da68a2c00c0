(** C106: the series that a plot shows of a written report. *)
From Coq Require Import List Ascii String ZArith NArith QArith Qcanon Bool Sorted Lia.
From Flocq Require Import BinarySingleNaN.
From Verif Require Import Lib.PyStr Lib.PyStrFacts Lib.TotalOrder Lib.F64 Model.Base Model.Line Model.Registry Model.Builtin Model.Populate Model.Window Model.Cache
  Model.Files Model.Tasks Model.Stats Model.Accessor Model.Solve Model.Constraint Model.Classes Model.ConstraintReport Spec.Accessor Spec.Constraint
  Spec.Lines Spec.Payload Spec.Arrays Spec.Parts Spec.Trace Spec.Interval Spec.Written Spec.Events Spec.Classes Spec.Solve Spec.ConstraintReport
  Proofs.ClassesR Proofs.SolveP Proofs.SolveQ Proofs.ConstraintReportP.
Import ListNotations.
Local Open Scope nat_scope.
Local Open Scope list_scope.

(** A constraint on an event of the trace, with a pivot: one series for each value that a plotted event has in the pivot
    column, with one point for each plotted event that has this value, in the order of the report. *)
Theorem C106_series : forall (content digest header csv : Type)
  (deq : digest -> digest -> bool) (md5 : content -> digest) (file : content -> list str)
  (head : content -> header) (enc : frame -> csv) (dec : csv -> option frame)
  (fuel : nat) (c : config) (s : fsys) hdr items,
  NoDup (map fst (c_defs c)) -> NoDup (map (fun d => k_word (snd d)) (c_defs c)) -> (forall a k, In (a, k) (c_defs c) -> given_name k = a) ->
  c_nocache c = true \/ (f_cache s = None /\ c_defs c <> []) ->
  file (f_trace s) = hdr ++ map entry_str items ->
  Forall junk_ok hdr -> begins items -> Forall (entry_ok (c_defs c)) items ->
  (forall a k, In (a, k) (c_defs c) -> titles_ok (snd (kind_of k)) (texts_of a items) /\
     forall q, In q (parts_in (texts_of a items)) -> (arrays q < fuel)%nat) ->
  exists tr ts us, fst (do_parse deq md5 (fun x => ftrace_body (file x)) head enc dec (class_frame fuel) c s) = Ok tr /\
    Forall2 printed_time (entry_lines items) ts /\ Assigned fzero ts us /\ t_base tr = hd fzero us /\
    let shift := fun t => if c_norm c then fsub t (t_base tr) else t in
    let marks := fun a => events_of a (in_both (c_win c) (c_abs c) (t_base tr)) items us in
    let len := fun a => lengths (texts_of a items) in
    (windows_ok (c_win c) (c_abs c) (t_base tr) -> Forall (fun u => is_finite u = true) us ->
     forall order, Enumerates order ->
     forall a k p col filters win, In (a, k) (c_defs c) -> no_colon_ends a -> p <> PIVOT -> NoDup (map fst filters) ->
     (forall m, In m (marks a) -> ~ CellIn (snd (kind_of k)) (len a) m p (CStr PIVOT_VAL)) ->
     exists r, constraint_result order (t_frames tr) p col (given_name k) filters win = Ok r /\ NoDup (map fst r) /\
       forall v points, In (v, points) r <-> exists u, v = Some u /\ points <> [] /\ Has (snd (kind_of k)) (len a) (marks a) col /\
         Series (snd (kind_of k)) (len a) shift
           (fun m => Plotted (snd (kind_of k)) (len a) shift win filters (marks a) m /\ CellIn (snd (kind_of k)) (len a) m p u) col (marks a) points).
Proof.
  intros content digest header csv deq md5 file head enc dec fuel c s hdr items H1 H2 H3 H4 H5 H6 H7 H8 H9.
  destruct (report_world deq md5 file head enc dec fuel c s hdr items H1 H2 H3 H4 H5 H6 H7 H8 H9) as (tr & ts & us & HE & HT & HA & HB & HF).
  exists tr, ts, us. do 4 (split; [assumption|]). cbv zeta in *. intros Hw Hf order HO a k p col filters win Ia Hn Hp Hd Hv.
  destruct (HF Hw Hf) as (_ & F2 & F3). destruct (F2 a k Ia) as (fr & G & F). rewrite (H3 _ _ Ia).
  exact (result_series order HO _ _ _ _ fr _ a G Hn F (F3 a) p col filters win Hp Hd Hv).
Qed.
(** Without a pivot: one series of all plotted events, if there are any and some event has the column. *)
Theorem C106_default : forall (content digest header csv : Type)
  (deq : digest -> digest -> bool) (md5 : content -> digest) (file : content -> list str)
  (head : content -> header) (enc : frame -> csv) (dec : csv -> option frame)
  (fuel : nat) (c : config) (s : fsys) hdr items,
  NoDup (map fst (c_defs c)) -> NoDup (map (fun d => k_word (snd d)) (c_defs c)) -> (forall a k, In (a, k) (c_defs c) -> given_name k = a) ->
  c_nocache c = true \/ (f_cache s = None /\ c_defs c <> []) ->
  file (f_trace s) = hdr ++ map entry_str items ->
  Forall junk_ok hdr -> begins items -> Forall (entry_ok (c_defs c)) items ->
  (forall a k, In (a, k) (c_defs c) -> titles_ok (snd (kind_of k)) (texts_of a items) /\
     forall q, In q (parts_in (texts_of a items)) -> (arrays q < fuel)%nat) ->
  exists tr ts us, fst (do_parse deq md5 (fun x => ftrace_body (file x)) head enc dec (class_frame fuel) c s) = Ok tr /\
    Forall2 printed_time (entry_lines items) ts /\ Assigned fzero ts us /\ t_base tr = hd fzero us /\
    let shift := fun t => if c_norm c then fsub t (t_base tr) else t in
    let marks := fun a => events_of a (in_both (c_win c) (c_abs c) (t_base tr)) items us in
    let len := fun a => lengths (texts_of a items) in
    (windows_ok (c_win c) (c_abs c) (t_base tr) -> Forall (fun u => is_finite u = true) us ->
     forall order a k col filters win, In (a, k) (c_defs c) -> no_colon_ends a ->
     exists r points, constraint_result order (t_frames tr) PIVOT col (given_name k) filters win = Ok r /\
       Series (snd (kind_of k)) (len a) shift (Plotted (snd (kind_of k)) (len a) shift win filters (marks a)) col (marks a) points /\
       (Has (snd (kind_of k)) (len a) (marks a) col -> r = match points with [] => [] | _ => [(Some (CStr PIVOT_VAL), points)] end) /\
       (~ Has (snd (kind_of k)) (len a) (marks a) col -> r = [])).
Proof.
  intros content digest header csv deq md5 file head enc dec fuel c s hdr items H1 H2 H3 H4 H5 H6 H7 H8 H9.
  destruct (report_world deq md5 file head enc dec fuel c s hdr items H1 H2 H3 H4 H5 H6 H7 H8 H9) as (tr & ts & us & HE & HT & HA & HB & HF).
  exists tr, ts, us. do 4 (split; [assumption|]). cbv zeta in *. intros Hw Hf order a k col filters win Ia Hn.
  destruct (HF Hw Hf) as (_ & F2 & F3). destruct (F2 a k Ia) as (fr & G & F). rewrite (H3 _ _ Ia).
  exact (result_default order _ _ _ _ fr _ a G Hn F (F3 a) col filters win).
Qed.
(** Colons around the name of the event do not matter; an event that the trace does not have is an AttributeError. *)
Theorem C106_colons : forall order frames p col a i j filters win, no_colon_ends a ->
  constraint_result order frames p col (repeat ":"%char i ++ a ++ repeat ":"%char j) filters win = constraint_result order frames p col a filters win.
Proof. exact result_colons. Qed.
Theorem C106_attribute : forall order frames p col t filters win,
  (forall i j n, In n (map fst frames) -> no_colon_ends n -> t <> repeat ":"%char i ++ n ++ repeat ":"%char j) ->
  constraint_result order frames p col t filters win = Err EAttribute.
Proof. exact result_missing. Qed.
(** All constraints of a plot, paired or permuted: results and labels. *)
Theorem C106_zip : forall order traces columns templates pivot filters win,
  (forall tr t, In tr traces -> In t templates -> no_colon_ends t /\ In t (map fst (snd tr))) ->
  let m := Nat.max (List.length traces) (Nat.max (List.length columns) (List.length templates)) in
  (List.length traces = m \/ List.length traces = 1) -> (List.length columns = m \/ List.length columns = 1) -> (List.length templates = m \/ List.length templates = 1) ->
  exists cs, manager order traces columns templates pivot filters win true = Ok cs /\ List.length cs = m /\
    forall i d, nth_error cs i = Some d -> exists tr c t, nth_or_only traces i tr /\ nth_or_only columns i c /\ nth_or_only templates i t /\
      constraint_result order (snd tr) pivot c t filters win = Ok (md_result d) /\ md_column d = c /\ md_template d = t /\
      md_index d = (if Nat.eqb (List.length traces) m then i else 0) /\ nth_error (constraint_labels cs) i = Some (label_of (fst tr) (if Nat.eqb (List.length traces) m then i else 0) t c).
Proof. exact manager_zip. Qed.
Theorem C106_permuted : forall order traces columns templates pivot filters win,
  (forall tr t, In tr traces -> In t templates -> no_colon_ends t /\ In t (map fst (snd tr))) ->
  let m := Nat.max (List.length traces) (Nat.max (List.length columns) (List.length templates)) in
  (List.length traces = m \/ List.length traces = 1) -> (List.length columns = m \/ List.length columns = 1) -> (List.length templates = m \/ List.length templates = 1) ->
  exists cs, manager order traces columns templates pivot filters win false = Ok cs /\ List.length cs = m * m /\
    forall i j, i < m -> j < m -> exists d tr c t, nth_error cs (i * m + j) = Some d /\ nth_or_only traces i tr /\ nth_or_only columns j c /\ nth_or_only templates i t /\
      constraint_result order (snd tr) pivot c t filters win = Ok (md_result d) /\ md_column d = c /\ md_template d = t /\
      md_index d = i /\ nth_error (constraint_labels cs) (i * m + j) = Some (label_of (fst tr) i t c).
Proof. exact manager_permuted. Qed.
(** The pivots of a plot: the values that have a series in some constraint, each once; numbers ascending. *)
Theorem C106_pivots : forall order cs, Enumerates order ->
  NoDup (manager_pivots order cs) /\ (forall v, In v (manager_pivots order cs) <-> exists d s, In d cs /\ In (Some v, s) (md_result d)) /\
  ((forall v, In v (manager_pivots order cs) -> exists z, v = CInt z) ->
   StronglySorted (fun a b => exists x y, a = CInt x /\ b = CInt y /\ (x <= y)%Z) (manager_pivots order cs)).
Proof. exact manager_pivots_ok. Qed.
(** The index of a constraint's column: its first place among the columns. *)
Theorem C106_index : forall columns d i, get_column_index columns d = Some i <->
  nth_error columns i = Some (md_column d) /\ forall j, j < i -> nth_error columns j <> Some (md_column d).
Proof. intros columns d. exact (index_spec (md_column d) columns). Qed.

(** A report of temperatures. *)
Definition builtin (n : str) : klass :=
  match find (fun r => eqs n (k_pyname (fst r))) builtin_regs with Some r => fst r | None => Registry.Kls 0 [] None [] false end.
Definition ex_defs : list (str * klass) := [($"thermal", builtin $"Thermal"); ($"cpu_frequency", builtin $"SchedCpuFrequency")].
Definition tl (us name : str) (t : text) : tline :=
  TLine $"   " $"swapper" $"0" None $"  " $"001" (Some ($" ", $"d..3")) $" " $"12" (Some us) [(name, $" ")] (text_str t).
Definition W (us name a : str) (t : text) : entry := EWrote (tl us name t) a t.
Definition F (l : list (str * str)) : text := TFields (map (fun kv => PF (Grp (fst kv) (snd kv) [])) l).
Definition ex_items : list entry :=
  [ W $"500000" $"thermal_temperature" $"thermal" (F [($"id", $"1"); ($"temp", $"40000")]);
    W $"625000" $"cpu_frequency" $"cpu_frequency" (F [($"state", $"1400000"); ($"cpu_id", $"3")]);
    EJunk ($"CPU:1 [LOST 5 EVENTS]" ++ [nl]);
    W $"750000" $"thermal_temperature" $"thermal" (F [($"id", $"0"); ($"temp", $"50000"); ($"trip", $"2")]);
    W $"875000" $"thermal_temperature" $"thermal" (F [($"id", $"1"); ($"temp", $"42000")]);
    W $"937500" $"thermal_temperature" $"thermal" (F [($"id", $"0"); ($"temp", $"44000")]) ].
Definition ex_hdr : list str := [$"version = 6" ++ [nl]].
Definition ex_cfg : config := Cfg ex_defs true true (fzero, None) (fzero, None).
Definition ex_us : list F64.float := [f_of_ratio 12500 1000; f_of_ratio 12625 1000; f_of_ratio 12750 1000; f_of_ratio 12875 1000; f_of_ratio 129375 10000].
(** A set, in the order of the last occurrences. *)
Definition opt_eqb (a b : option cell) : bool := match a, b with Some x, Some y => cell_eqb x y | None, None => true | _, _ => false end.
Fixpoint nub (l : list (option cell)) : list (option cell) :=
  match l with [] => [] | x :: r => if existsb (opt_eqb x) r then nub r else x :: nub r end.
Definition ex_frames : list (str * frame) :=
  match fst (do_parse (fun _ _ : unit => true) (fun _ => tt) (fun x => ftrace_body x) (fun x : list str => List.length x)
    (fun f : frame => f) Some (class_frame 5) ex_cfg (Fs (ex_hdr ++ map entry_str ex_items) None)) with
  | Ok tr => t_frames tr
  | Err _ => []
  end.
Definition shown_points (r : res (list (option cell * list (Qc * option cell)))) :=
  match r with Ok l => Ok (map (fun vs => (fst vs, map (fun x => (this (fst x), snd x)) (snd vs))) l) | Err x => Err x end.
Example C106_ex :
  shown_points (constraint_result nub ex_frames $"id" $"temp" $"thermal" [] None) =
    Ok [(Some (CInt 1), [(0, Some (CInt 40000)); (3 # 8, Some (CInt 42000))]%Q); (Some (CInt 0), [(1 # 4, Some (CInt 50000)); (7 # 16, Some (CInt 44000))]%Q)] /\
  shown_points (constraint_result nub ex_frames $"id" $"temp" $"thermal:" [($"id", [CInt 0; CInt 7]); ($"no_such", [])] None) =
    Ok [(Some (CInt 0), [(1 # 4, Some (CInt 50000)); (7 # 16, Some (CInt 44000))]%Q)] /\
  shown_points (constraint_result nub ex_frames PIVOT $"trip" $"thermal" [] (Some (Q2Qc (1 # 3), Q2Qc (2 # 5)))) =
    Ok [(Some (CStr PIVOT_VAL), [(1 # 4, Some (CInt 2)); (3 # 8, None); (7 # 16, None)]%Q)] /\
  constraint_result nub ex_frames $"id" $"no_such" $"thermal" [] None = Ok [] /\
  constraint_result nub ex_frames $"no_such" $"temp" $"thermal" [] None = Ok [] /\
  constraint_result nub ex_frames $"id" $"temp" $"sched_switch" [] None = Err EAttribute.
Proof. vm_compute. repeat split; reflexivity. Qed.
Example C106_ex_plot : exists cs, manager nub [($"", ex_frames)] [$"temp"; $"trip"] [$"thermal"] $"id" [] None true = Ok cs /\
  constraint_labels cs = [$"Trace 0:thermal:temp"; $"Trace 0:thermal:trip"] /\ manager_pivots nub cs = [CInt 0; CInt 1] /\
  map (get_column_index [$"temp"; $"trip"]) cs = [Some 0; Some 1].
Proof. eexists. split; [vm_compute; reflexivity|]. vm_compute. repeat split; reflexivity. Qed.
Lemma opt_eqb_eq a b : opt_eqb a b = true <-> a = b.
Proof. destruct a as [x|], b as [y|]; cbn; try (split; [discriminate|congruence]); [|tauto]. rewrite TasksP.cell_eqb_eq. split; congruence. Qed.
Notation ex_marks := (fun a => events_of a (in_both (fzero, None) (fzero, None) (hd fzero ex_us)) ex_items ex_us).
Example C106_ex_meets :
  Enumerates nub /\ Forall junk_ok ex_hdr /\ begins ex_items /\ Forall (entry_ok ex_defs) ex_items /\
  NoDup (map fst ex_defs) /\ NoDup (map (fun d => k_word (snd d)) ex_defs) /\ (forall a k, In (a, k) ex_defs -> given_name k = a) /\
  Forall (fun d => titles_ok (snd (kind_of (snd d))) (texts_of (fst d) ex_items) /\
     Forall (fun q => (arrays q < 5)%nat) (parts_in (texts_of (fst d) ex_items))) ex_defs /\
  Forall (fun u => is_finite u = true) ex_us /\ no_colon_ends $"thermal" /\
  Has Same (lengths (texts_of $"thermal" ex_items)) (ex_marks $"thermal") $"temp".
Proof.
  assert (Hm : forall a key, forallb (has_field (lengths (texts_of a ex_items)) key) (ex_marks a) = true ->
    forall m, In m (ex_marks a) -> exists ps val more, m_text m = TFields ps /\ In (key, (val, more)) (flat_map (part_cells (lengths (texts_of a ex_items))) ps) /\ no_space val).
  { intros a key B m J. rewrite forallb_forall in B. apply has_field_ok. now apply B. }
  split; [|split; [|split; [exact I|split; [apply entriesb_ok; vm_compute; reflexivity|split; [|split; [|split; [|split; [|split; [|split]]]]]]]]].
  - assert (Q : forall l v, In v (nub l) <-> In v l).
    { induction l as [|x l IH]; intros v; [tauto|]. cbn [nub]. destruct (existsb (opt_eqb x) l) eqn:E.
      - rewrite IH. split; [now right|]. intros [<-|J]; auto. apply existsb_exists in E as (y & J & E). apply opt_eqb_eq in E. now subst y.
      - cbn [In]. now rewrite IH. }
    intros l. split; [apply Q|]. induction l as [|x l IH]; [constructor|]. cbn [nub]. destruct (existsb (opt_eqb x) l) eqn:E; [exact IH|].
    destruct x as [x|]; [|exact IH]. cbn [flat_map app]. constructor; [|exact IH]. intros J. apply in_flat_map in J as ([y|] & J & K); [|destruct K]. destruct K as [->|[]].
    apply (proj1 (Q l _)) in J. assert (existsb (opt_eqb (Some x)) l = true) by (apply existsb_exists; exists (Some x); split; [exact J|now apply opt_eqb_eq]). congruence.
  - unfold ex_hdr. apply Forall_cons; [left; apply PopulateP.occurs_false; vm_compute; reflexivity|]. apply Forall_nil.
  - apply nodupb_ok. vm_compute. reflexivity.
  - apply nodupb_ok. vm_compute. reflexivity.
  - intros a k [[= <- <-]|[[= <- <-]|[]]]; vm_compute; reflexivity.
  - unfold ex_defs. do 2 (apply Forall_cons; [split; [apply titlesb_ok; vm_compute; reflexivity|vm_compute; repeat constructor]|]). apply Forall_nil.
  - unfold ex_us. repeat (constructor; [vm_compute; reflexivity|]). constructor.
  - intros r. split; [intros K; vm_compute in K; discriminate K|]. intros K. apply (f_equal (@rev ascii)) in K. rewrite rev_app_distr in K. cbn [rev app] in K. vm_compute in K. discriminate K.
  - assert (E : exists m, In m (ex_marks $"thermal")) by (destruct (ex_marks $"thermal") as [|m l] eqn:E; [apply (f_equal (@List.length mark)) in E; vm_compute in E; discriminate|exists m; now left]). destruct E as (m & Im).
    destruct (Hm $"thermal" $"temp" ltac:(vm_compute; reflexivity) m Im) as (ps & val & more & E1 & E2 & E3).
    destruct (field_cell Same _ m ps $"temp" $"temp" val more E1 E2 eq_refl E3) as (v & Hv). exists m, v. split; [exact Im|exact Hv].
Qed.
(** Findings: a window that begins before the first event of a kind shows nothing of that kind; a table whose name begins or
    ends with a colon cannot be plotted; a column that is given twice has the index of its first place both times. *)
Theorem C106_early_refuted : constraint_result nub ex_frames $"id" $"temp" $"thermal" [] (Some (Q2Qc (-(1 # 8)), Q2Qc 1)) = Ok [] /\
  constraint_result nub ex_frames $"cpu" $"frequency" $"cpu_frequency" [] (Some (0%Qc, Q2Qc 1)) = Ok [] /\
  shown_points (constraint_result nub ex_frames $"cpu" $"frequency" $"cpu_frequency" [] None) = Ok [(Some (CInt 3), [(1 # 8, Some (CInt 1400000))]%Q)].
Proof. vm_compute. repeat split; reflexivity. Qed.
Theorem C106_colon_refuted : forall order p col filters win fr,
  constraint_result order [($"probe:", fr)] p col $"probe:" filters win = Err EAttribute.
Proof. reflexivity. Qed.
Theorem C106_twice_refuted : exists cs, manager nub [($"a", ex_frames); ($"b", ex_frames)] [$"temp"; $"temp"] [$"thermal"] $"id" [] None true = Ok cs /\
  constraint_labels cs = [$"a:thermal:temp"; $"b:thermal:temp"] /\ map (get_column_index [$"temp"; $"temp"]) cs = [Some 0; Some 0].
Proof. eexists. split; [vm_compute; reflexivity|]. vm_compute. split; reflexivity. Qed.

Print Assumptions C106_series.
Print Assumptions C106_default.
Print Assumptions C106_colons.
Print Assumptions C106_attribute.
Print Assumptions C106_zip.
Print Assumptions C106_permuted.
Print Assumptions C106_pivots.
Print Assumptions C106_index.
Print Assumptions C106_early_refuted.
Print Assumptions C106_colon_refuted.
Print Assumptions C106_twice_refuted.
