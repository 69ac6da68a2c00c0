(** C107: an interactive line plot of a written report. *)
From Coq Require Import List Ascii String ZArith NArith QArith Qcanon Bool Sorted Lia.
From Flocq Require Import BinarySingleNaN.
From Verif Require Import Lib.PyStr Lib.PyStrFacts Lib.TotalOrder Lib.F64 Model.Base Model.Line Model.Registry Model.Builtin Model.Populate Model.Window Model.Cache
  Model.Files Model.Tasks Model.Stats Model.Accessor Model.Solve Model.Constraint Model.Dups Model.ILineGen Model.ILine Model.Signals Model.Events Model.Classes Model.ConstraintReport Model.LineReport
  Spec.Accessor Spec.Constraint Spec.Signals Spec.ILine
  Spec.Lines Spec.Payload Spec.Arrays Spec.Parts Spec.Trace Spec.Interval Spec.Written Spec.Events Spec.Classes Spec.Solve Spec.ConstraintReport Spec.LineReport
  Proofs.ClassesR Proofs.SolveP Proofs.SolveQ Proofs.SignalsP Proofs.ILineP Proofs.ConstraintReportP Proofs.LineReportP Props.P_ConstraintReport.
Import ListNotations.
Local Open Scope nat_scope.
Local Open Scope list_scope.

(** One plot for each value of the pivot that some signal has a curve for; in it, under the labels of their signals, the
    curves that the signals have for the value. *)
Theorem C107_view : forall (content digest header csv : Type)
  (deq : digest -> digest -> bool) (md5 : content -> digest) (file : content -> list str)
  (head : content -> header) (enc : Base.frame -> csv) (dec : csv -> option Base.frame)
  (fuel : nat) (c : config) (s : fsys) hdr items,
  NoDup (map fst (c_defs c)) -> NoDup (map (fun d => k_word (snd d)) (c_defs c)) -> (forall a k, In (a, k) (c_defs c) -> given_name k = a) ->
  c_nocache c = true \/ (f_cache s = None /\ c_defs c <> []) ->
  file (f_trace s) = hdr ++ map entry_str items ->
  Forall junk_ok hdr -> begins items -> Forall (entry_ok (c_defs c)) items ->
  (forall a k, In (a, k) (c_defs c) -> titles_ok (snd (kind_of k)) (texts_of a items) /\
     forall q, In q (parts_in (texts_of a items)) -> (arrays q < fuel)%nat) ->
  exists tr ts us, fst (do_parse deq md5 (fun x => ftrace_body (file x)) head enc dec (class_frame fuel) c s) = Ok tr /\
    Forall2 printed_time (entry_lines items) ts /\ Assigned fzero ts us /\ t_base tr = hd fzero us /\
    let shift := fun t => if c_norm c then fsub t (t_base tr) else t in
    let marks := fun a => events_of a (in_both (c_win c) (c_abs c) (t_base tr)) items us in
    let len := fun a => lengths (texts_of a items) in
    (windows_ok (c_win c) (c_abs c) (t_base tr) -> Forall (fun u => is_finite u = true) us ->
     forall order, Enumerates order ->
     forall sigs xs pivot filters win, Forall2 (Means [c_defs c]) sigs xs -> xs <> [] -> NoDup (map fst filters) ->
     let event := fun x : klass * str * option (list Z) => given_name (fst (fst x)) in
     let column := fun x : klass * str * option (list Z) => snd (fst x) in
     let shape := fun x : klass * str * option (list Z) => snd (kind_of (fst (fst x))) in
     (forall x, In x xs -> Distinct shift (marks (event x)) /\ forall m, In m (marks (event x)) ->
        ~ CellIn (shape x) (len (event x)) m pivot (CStr PIVOT_VAL) /\
        forall v, CellIn (shape x) (len (event x)) m (column x) v -> exists z, v = CInt z) ->
     let curve := fun x => Curve (shape x) (len (event x)) shift (marks (event x)) pivot win filters (column x) in
     forall (name : str) (F : Type) (uuid : nat -> F) draw label max per_line title,
     exists pivots fs,
       NoDup pivots /\ (forall v, In v pivots <-> exists x points, In x xs /\ curve x v points) /\
       ((forall v, In v pivots -> exists z, v = CInt z) -> StronglySorted (fun a b => exists y z, a = CInt y /\ b = CInt z /\ (y <= z)%Z) pivots) /\
       List.length fs = List.length pivots /\
       (forall i v ft, nth_error pivots i = Some v -> nth_error fs i = Some ft -> exists pairs,
          Drawn (fun x points => curve x v points) (fun x => label_of name 0 (event x) (column x)) xs pairs /\
          PlotOf time_leb (fun l => l) draw pairs (if cell_eqb v (CStr PIVOT_VAL) then [] else pivot ++ $": " ++ label v) ft) /\
       line_view order uuid [(name, c_defs c, t_frames tr)] sigs pivot filters win false draw label max per_line title = page uuid max per_line title fs).
Proof.
  intros content digest header csv deq md5 file head enc dec fuel c s hdr items H1 H2 H3 H4 H5 H6 H7 H8 H9.
  destruct (report_world deq md5 file head enc dec fuel c s hdr items H1 H2 H3 H4 H5 H6 H7 H8 H9) as (tr & ts & us & HE & HT & HA & HB & HF).
  exists tr, ts, us. do 4 (split; [assumption|]). cbv zeta in *. intros Hw Hf order HO sigs xs pivot filters win HS NE Hd HX name F uuid draw label max per_line title.
  destruct (HF Hw Hf) as (_ & F2 & F3).
  exact (view_ok order HO name (c_defs c) (t_frames tr) _ _ _ H3 F2 F3 sigs xs HS pivot filters win Hd (fun x I => proj1 (HX x I)) (fun x m I J => proj1 (proj2 (HX x I) m J))
    (fun x m v I J => proj2 (proj2 (HX x I) m J) v) uuid draw label max per_line title NE).
Qed.
(** Concatenated: one plot for each signal; in it, under the values of the pivot, the curves of the signal. *)
Theorem C107_concat : forall (content digest header csv : Type)
  (deq : digest -> digest -> bool) (md5 : content -> digest) (file : content -> list str)
  (head : content -> header) (enc : Base.frame -> csv) (dec : csv -> option Base.frame)
  (fuel : nat) (c : config) (s : fsys) hdr items,
  NoDup (map fst (c_defs c)) -> NoDup (map (fun d => k_word (snd d)) (c_defs c)) -> (forall a k, In (a, k) (c_defs c) -> given_name k = a) ->
  c_nocache c = true \/ (f_cache s = None /\ c_defs c <> []) ->
  file (f_trace s) = hdr ++ map entry_str items ->
  Forall junk_ok hdr -> begins items -> Forall (entry_ok (c_defs c)) items ->
  (forall a k, In (a, k) (c_defs c) -> titles_ok (snd (kind_of k)) (texts_of a items) /\
     forall q, In q (parts_in (texts_of a items)) -> (arrays q < fuel)%nat) ->
  exists tr ts us, fst (do_parse deq md5 (fun x => ftrace_body (file x)) head enc dec (class_frame fuel) c s) = Ok tr /\
    Forall2 printed_time (entry_lines items) ts /\ Assigned fzero ts us /\ t_base tr = hd fzero us /\
    let shift := fun t => if c_norm c then fsub t (t_base tr) else t in
    let marks := fun a => events_of a (in_both (c_win c) (c_abs c) (t_base tr)) items us in
    let len := fun a => lengths (texts_of a items) in
    (windows_ok (c_win c) (c_abs c) (t_base tr) -> Forall (fun u => is_finite u = true) us ->
     forall order, Enumerates order ->
     forall sigs xs pivot filters win, Forall2 (Means [c_defs c]) sigs xs -> xs <> [] -> NoDup (map fst filters) ->
     let event := fun x : klass * str * option (list Z) => given_name (fst (fst x)) in
     let column := fun x : klass * str * option (list Z) => snd (fst x) in
     let shape := fun x : klass * str * option (list Z) => snd (kind_of (fst (fst x))) in
     (forall x, In x xs -> Distinct shift (marks (event x)) /\ forall m, In m (marks (event x)) ->
        ~ CellIn (shape x) (len (event x)) m pivot (CStr PIVOT_VAL) /\
        forall v, CellIn (shape x) (len (event x)) m (column x) v -> exists z, v = CInt z) ->
     let curve := fun x => Curve (shape x) (len (event x)) shift (marks (event x)) pivot win filters (column x) in
     forall (name : str) (F : Type) (uuid : nat -> F) draw label max per_line title,
     exists pivots fs,
       NoDup pivots /\ (forall v, In v pivots <-> exists x points, In x xs /\ curve x v points) /\
       ((forall v, In v pivots -> exists z, v = CInt z) -> StronglySorted (fun a b => exists y z, a = CInt y /\ b = CInt z /\ (y <= z)%Z) pivots) /\
       List.length fs = List.length xs /\
       (forall i x ft, nth_error xs i = Some x -> nth_error fs i = Some ft -> exists pairs,
          Drawn (fun v points => curve x v points) (fun v => if cell_eqb v (CStr PIVOT_VAL) then join $"," (map column xs) else pivot ++ $": " ++ label v) pivots pairs /\
          PlotOf time_leb (fun l => l) draw pairs (label_of name 0 (event x) (column x)) ft) /\
       line_view order uuid [(name, c_defs c, t_frames tr)] sigs pivot filters win true draw label max per_line title = page uuid max per_line title fs).
Proof.
  intros content digest header csv deq md5 file head enc dec fuel c s hdr items H1 H2 H3 H4 H5 H6 H7 H8 H9.
  destruct (report_world deq md5 file head enc dec fuel c s hdr items H1 H2 H3 H4 H5 H6 H7 H8 H9) as (tr & ts & us & HE & HT & HA & HB & HF).
  exists tr, ts, us. do 4 (split; [assumption|]). cbv zeta in *. intros Hw Hf order HO sigs xs pivot filters win HS NE Hd HX name F uuid draw label max per_line title.
  destruct (HF Hw Hf) as (_ & F2 & F3).
  exact (concat_ok order HO name (c_defs c) (t_frames tr) _ _ _ H3 F2 F3 sigs xs HS pivot filters win Hd (fun x I => proj1 (HX x I)) (fun x m I J => proj1 (proj2 (HX x I) m J))
    (fun x m v I J => proj2 (proj2 (HX x I) m J) v) uuid draw label max per_line title NE).
Qed.
(** Signals that mean nothing to the traces are rejected. *)
Theorem C107_reject : forall order (F : Type) (uuid : nat -> F) (traces : list ltrace) sigs pivot filters win concat draw label max per_line title,
  (forall xs, ~ Forall2 (Means (map (fun t => snd (fst t)) traces)) sigs xs) ->
  line_view order uuid traces sigs pivot filters win concat draw label max per_line title = Err EValue.
Proof. exact @view_rejects. Qed.

Definition texts_only {A} (r : res (A * list (script nat Qc (option Q)))) :=
  match r with
  | Ok (_, ss) => Ok (map (fun s => (snd (fst s), fst (snd s), map (map (fun d => match d with DT t => (Some (this t), None) | DV v => (None, v) end)) (snd (snd s)))) ss)
  | Err e => Err e
  end.
Definition ex_view (sigs : list str) (pivot : str) (concat : bool) :=
  texts_only (line_view nub (fun i => i) [($"boot", ex_defs, ex_frames)] sigs pivot [] None concat None (fun v => match v with CInt z => str_of_nat (Z.to_nat z) | CStr s => s | CDict => [] end) 100 2 None).
(** By value of the pivot, all in one (filled by position), and by signal. *)
Example C107_ex :
  ex_view [$"thermal:temp"; $"cpu_frequency:frequency"] $"id" false =
    Ok [($"id: 0", [$"index"; $"boot:thermal:temp"], [[(Some (1 # 4), None); (None, Some 50000)]; [(Some (7 # 16), None); (None, Some 44000)]]);
        ($"id: 1", [$"index"; $"boot:thermal:temp"], [[(Some 0, None); (None, Some 40000)]; [(Some (3 # 8), None); (None, Some 42000)]])]%Q /\
  ex_view [$"thermal:temp"; $"cpu_frequency:frequency"] PIVOT false =
    Ok [([], [$"index"; $"boot:thermal:temp"; $"boot:cpu_frequency:frequency"],
         [[(Some 0, None); (None, Some 40000); (None, None)]; [(Some (1 # 8), None); (None, Some (90000 # 2)); (None, Some 1400000)];
          [(Some (1 # 4), None); (None, Some 50000); (None, Some 1400000)]; [(Some (3 # 8), None); (None, Some 42000); (None, Some 1400000)];
          [(Some (7 # 16), None); (None, Some 44000); (None, Some 1400000)]])]%Q /\
  ex_view [$"thermal:temp"] $"id" true =
    Ok [($"boot:thermal:temp", [$"index"; $"id: 0"; $"id: 1"],
         [[(Some 0, None); (None, None); (None, Some 40000)]; [(Some (1 # 4), None); (None, Some 50000); (None, Some (82000 # 2))];
          [(Some (3 # 8), None); (None, Some (94000 # 2)); (None, Some 42000)]; [(Some (7 # 16), None); (None, Some 44000); (None, Some 42000)]])]%Q /\
  ex_view [$"thermal:temp"; $"nothing:temp"] $"id" false = Err EValue.
Proof. vm_compute. repeat split; reflexivity. Qed.
(** The signals mean something, and whatever events the table shows are at different times, without the default pivot, and
    with integers in the column. *)
Definition ints_only (col : str) (fr : Base.frame) : bool :=
  forallb (fun r => match dlookup col (snd r) with None => true | Some (CInt _) => true | Some _ => false end) fr.
Fixpoint distinct_times (l : list Q) : bool := match l with [] => true | t :: r => negb (existsb (Qeq_bool t) r) && distinct_times r end.
Lemma distinct_times_ok l : distinct_times (map this l) = true -> NoDup l.
Proof.
  induction l as [|t l IH]; cbn [map distinct_times]; [constructor|]. intros H. apply andb_prop in H as [A B]. constructor; [|exact (IH B)].
  intros I. apply negb_true_iff in A. assert (existsb (Qeq_bool (this t)) (map this l) = true); [|congruence].
  apply existsb_exists. exists (this t). split; [now apply in_map|]. apply Qeq_bool_iff. reflexivity.
Qed.
Example C107_ex_meets :
  Forall2 (Means [ex_defs]) [$"thermal:temp:0x10,3,7"; $"cpu_frequency:frequency"]
    [(builtin $"Thermal", $"temp", Some [16; 3; 7]%Z); (builtin $"SchedCpuFrequency", $"frequency", None)] /\
  exists fr, dget eqs $"thermal" ex_frames = Some fr /\ forall c L shift ms, Forall2 (row_shows c L shift) ms fr ->
    Distinct shift ms /\ forall m, In m ms -> ~ CellIn c L m $"id" (CStr PIVOT_VAL) /\ forall v, CellIn c L m $"temp" v -> exists z, v = CInt z.
Proof.
  split.
  - constructor; [|constructor; [|constructor]].
    + exists $"thermal", (Some $"0x10,3,7"). cbn [fst snd]. split; [|split].
      * apply (Sig_colour $"thermal" $"temp" $"0x10,3,7" []); auto; try discriminate; try (split; [discriminate|]); cbn; intuition discriminate.
      * exists [$"0x10"; $"3"; $"7"]. split; [apply (P3 $"0x10" $"3" $"7"); cbn; intuition discriminate|].
        constructor; [left; split; [now exists $"10"|reflexivity]|]. constructor; [|constructor; [|constructor]]; right; (split; [intros r; discriminate|reflexivity]).
      * exists [], ex_defs, []. split; [reflexivity|]. split; [vm_compute; reflexivity|constructor].
    + exists $"cpu_frequency", None. cbn [fst snd]. split; [|split; [exact I|]].
      * apply (Sig_plain $"cpu_frequency" $"frequency"); (split; [discriminate|]); cbn; intuition discriminate.
      * exists [], ex_defs, []. split; [reflexivity|]. split; [vm_compute; reflexivity|constructor].
  - assert (C : match dget eqs $"thermal" ex_frames with Some fr => distinct_times (map this (map fst (Accessor.g_rows (gframe_of fr)))) && ints_only $"id" fr && ints_only $"temp" fr | None => false end = true)
      by (vm_compute; reflexivity).
    destruct (dget eqs $"thermal" ex_frames) as [fr|]; [|discriminate C]. exists fr. split; [reflexivity|].
    apply andb_prop in C as [C C3]. apply andb_prop in C as [C1 C2]. apply distinct_times_ok in C1.
    intros c L shift ms H. split; [unfold Distinct; rewrite <- (times_eq shift c L ms fr H); exact C1|].
    assert (K : forall col, ints_only col fr = true -> forall m v, In m ms -> CellIn c L m col v -> exists z, v = CInt z).
    { intros col B m v Im Hv. destruct (F2_in_l _ _ _ _ H Im) as (r & Ir & Hr). apply (SolveP.row_cell _ _ _ _ _ _ _ Hr) in Hv.
      unfold ints_only in B. rewrite forallb_forall in B. specialize (B r Ir). rewrite Hv in B. destruct v; [eauto|discriminate|discriminate]. }
    intros m Im. split; [|intros v; exact (K _ C3 m v Im)]. intros Hv. destruct (K _ C2 m _ Im Hv) as (z & Ez). discriminate Ez.
Qed.

(** Finding: a signal whose event lacks the pivot column is left out without a word. *)
Theorem C107_pivot_refuted :
  ex_view [$"cpu_frequency:frequency"] $"id" false = Err ERuntime /\
  ex_view [$"thermal:temp"; $"cpu_frequency:frequency"] $"id" false = ex_view [$"thermal:temp"] $"id" false.
Proof. vm_compute. split; reflexivity. Qed.

Print Assumptions C107_view.
Print Assumptions C107_concat.
Print Assumptions C107_reject.
Print Assumptions C107_pivot_refuted.
