(** C109: an interactive line plot of several written reports. *)
From Coq Require Import List Ascii String ZArith NArith QArith Qcanon Bool Sorted Lia.
From Flocq Require Import BinarySingleNaN.
From Verif Require Import Lib.PyStr Lib.PyStrFacts Lib.TotalOrder Lib.F64 Lib.F64Ord Model.Base Model.Line Model.Registry Model.Builtin Model.Populate Model.Window Model.Cache
  Model.Files Model.Tasks Model.Stats Model.Accessor Model.Solve Model.Constraint Model.Dups Model.ILineGen Model.ILine Model.Signals Model.Events Model.Classes Model.ConstraintReport Model.LineReport
  Spec.Accessor Spec.Constraint Spec.Signals Spec.ILine
  Spec.Lines Spec.Payload Spec.Arrays Spec.Parts Spec.Trace Spec.Interval Spec.Written Spec.Events Spec.Classes Spec.Solve Spec.ConstraintReport Spec.LineReport Spec.LineTraces
  Proofs.ClassesR Proofs.SolveP Proofs.SolveQ Proofs.SignalsP Proofs.ILineP Proofs.ConstraintReportP Proofs.LineReportP Proofs.LineTracesP Proofs.PrintedP Props.P_ConstraintReport Props.P_LineReport.
Import ListNotations.
Local Open Scope nat_scope.
Local Open Scope list_scope.

(** The tables of a parsed report show what was printed in it. *)
Theorem C109_shows : forall (content digest header csv : Type)
  (deq : digest -> digest -> bool) (md5 : content -> digest) (file : content -> list str)
  (head : content -> header) (enc : Base.frame -> csv) (dec : csv -> option Base.frame)
  (fuel : nat) (c : config) (s : fsys) hdr items,
  NoDup (map fst (c_defs c)) -> NoDup (map (fun d => k_word (snd d)) (c_defs c)) -> (forall a k, In (a, k) (c_defs c) -> given_name k = a) ->
  c_nocache c = true \/ (f_cache s = None /\ c_defs c <> []) ->
  file (f_trace s) = hdr ++ map entry_str items ->
  Forall junk_ok hdr -> begins items -> Forall (entry_ok (c_defs c)) items ->
  (forall a k, In (a, k) (c_defs c) -> titles_ok (snd (kind_of k)) (texts_of a items) /\
     forall q, In q (parts_in (texts_of a items)) -> (arrays q < fuel)%nat) ->
  exists tr ts us, fst (do_parse deq md5 (fun x => ftrace_body (file x)) head enc dec (class_frame fuel) c s) = Ok tr /\
    Forall2 printed_time (entry_lines items) ts /\ Assigned fzero ts us /\ t_base tr = hd fzero us /\
    (windows_ok (c_win c) (c_abs c) (t_base tr) -> Forall (fun u => is_finite u = true) us ->
     Shows (Writing (c_defs c) (fun a => events_of a (in_both (c_win c) (c_abs c) (t_base tr)) items us) (fun a => lengths (texts_of a items))
       (fun t => if c_norm c then fsub t (t_base tr) else t)) (t_frames tr)).
Proof.
  intros content digest header csv deq md5 file head enc dec fuel c s hdr items H1 H2 H3 H4 H5 H6 H7 H8 H9.
  destruct (report_world deq md5 file head enc dec fuel c s hdr items H1 H2 H3 H4 H5 H6 H7 H8 H9) as (tr & ts & us & HE & HT & HA & HB & HF).
  exists tr, ts, us. do 4 (split; [assumption|]). cbv zeta in *. intros Hw Hf. destruct (HF Hw Hf) as (_ & F2 & F3).
  split; [|exact F3]. intros a k I. split; [exact (H3 a k I)|exact (F2 a k I)].
Qed.
(** Traces and signals that fit have lines. *)
Theorem C109_lines :
  forall order, Enumerates order ->
  forall (traces : list (str * writing)) (tables : list ltrace),
  Forall2 (fun t l => fst l = (fst t, wr_defs (snd t)) /\ Shows (snd t) (snd l)) traces tables ->
  forall sigs xs, Forall2 (Means (map (fun t => wr_defs (snd t)) traces)) sigs xs ->
  traces <> [] /\ xs <> [] -> List.length traces = 1 \/ List.length xs = 1 \/ List.length traces = List.length xs ->
  (forall t x, In t traces -> In x xs -> In (given_name (fst (fst x))) (map fst (wr_defs (snd t)))) ->
  let signals := map (fun x : klass * str * option (list Z) => (given_name (fst (fst x)), snd (fst x))) xs in
  exists ls, Lines traces signals ls.
Proof. intros order HO traces tables HT sigs xs HS NE FI KN signals. eapply lines_exist; eassumption. Qed.
(** One plot for each value of the pivot that some line has a curve for; in it, under their labels, the curves that the lines
    have for the value. *)
Theorem C109_view :
  forall order, Enumerates order ->
  forall (traces : list (str * writing)) (tables : list ltrace),
  Forall2 (fun t l => fst l = (fst t, wr_defs (snd t)) /\ Shows (snd t) (snd l)) traces tables ->
  forall sigs xs, Forall2 (Means (map (fun t => wr_defs (snd t)) traces)) sigs xs ->
  traces <> [] /\ xs <> [] -> List.length traces = 1 \/ List.length xs = 1 \/ List.length traces = List.length xs ->
  (forall t x, In t traces -> In x xs -> In (given_name (fst (fst x))) (map fst (wr_defs (snd t)))) ->
  let signals := map (fun x : klass * str * option (list Z) => (given_name (fst (fst x)), snd (fst x))) xs in
  forall pivot filters win, NoDup (map fst filters) ->
  forall (F : Type) (uuid : nat -> F) draw label max per_line title ls,
  Lines traces signals ls -> (forall l, In l ls -> Regular pivot l) ->
  let curve := ln_curve pivot win filters in
  exists pivots fs,
    NoDup pivots /\ (forall v, In v pivots <-> exists l points, In l ls /\ curve l v points) /\
    ((forall v, In v pivots -> exists z, v = CInt z) -> StronglySorted (fun a b => exists y z, a = CInt y /\ b = CInt z /\ (y <= z)%Z) pivots) /\
    List.length fs = List.length pivots /\
    (forall i v ft, nth_error pivots i = Some v -> nth_error fs i = Some ft -> exists pairs,
       Drawn (fun l points => curve l v points) ln_label ls pairs /\
       PlotOf time_leb (fun l => l) draw pairs (if cell_eqb v (CStr PIVOT_VAL) then [] else pivot ++ $": " ++ label v) ft) /\
    line_view order uuid tables sigs pivot filters win false draw label max per_line title = page uuid max per_line title fs.
Proof.
  intros order HO traces tables HT sigs xs HS NE FI KN signals pivot filters win HF F uuid draw label max per_line title ls HL HR.
  exact (traces_view order HO traces tables HT sigs xs HS NE FI KN pivot filters win HF uuid draw label max per_line title ls HL HR).
Qed.
(** Concatenated: one plot for each line; in it, under the values of the pivot, the curves of the line. *)
Theorem C109_concat :
  forall order, Enumerates order ->
  forall (traces : list (str * writing)) (tables : list ltrace),
  Forall2 (fun t l => fst l = (fst t, wr_defs (snd t)) /\ Shows (snd t) (snd l)) traces tables ->
  forall sigs xs, Forall2 (Means (map (fun t => wr_defs (snd t)) traces)) sigs xs ->
  traces <> [] /\ xs <> [] -> List.length traces = 1 \/ List.length xs = 1 \/ List.length traces = List.length xs ->
  (forall t x, In t traces -> In x xs -> In (given_name (fst (fst x))) (map fst (wr_defs (snd t)))) ->
  let signals := map (fun x : klass * str * option (list Z) => (given_name (fst (fst x)), snd (fst x))) xs in
  forall pivot filters win, NoDup (map fst filters) ->
  forall (F : Type) (uuid : nat -> F) draw label max per_line title ls,
  Lines traces signals ls -> (forall l, In l ls -> Regular pivot l) ->
  let curve := ln_curve pivot win filters in
  exists pivots fs,
    NoDup pivots /\ (forall v, In v pivots <-> exists l points, In l ls /\ curve l v points) /\
    ((forall v, In v pivots -> exists z, v = CInt z) -> StronglySorted (fun a b => exists y z, a = CInt y /\ b = CInt z /\ (y <= z)%Z) pivots) /\
    List.length fs = List.length ls /\
    (forall i l ft, nth_error ls i = Some l -> nth_error fs i = Some ft -> exists pairs,
       Drawn (fun v points => curve l v points) (fun v => if cell_eqb v (CStr PIVOT_VAL) then join $"," (map snd signals) else pivot ++ $": " ++ label v) pivots pairs /\
       PlotOf time_leb (fun l => l) draw pairs (ln_label l) ft) /\
    line_view order uuid tables sigs pivot filters win true draw label max per_line title = page uuid max per_line title fs.
Proof.
  intros order HO traces tables HT sigs xs HS NE FI KN signals pivot filters win HF F uuid draw label max per_line title ls HL HR.
  exact (traces_concat order HO traces tables HT sigs xs HS NE FI KN pivot filters win HF uuid draw label max per_line title ls HL HR).
Qed.

(** The report of [P_ConstraintReport], and the same without its first event: another trace, whose times are counted from
    another event. *)
Definition frames_of (items : list entry) : list (str * Base.frame) :=
  match fst (do_parse (fun _ _ : unit => true) (fun _ => tt) (fun x => ftrace_body x) (fun x : list str => List.length x)
    (fun f : Base.frame => f) Some (class_frame 5) ex_cfg (Fs (ex_hdr ++ map entry_str items) None)) with
  | Ok tr => t_frames tr
  | Err _ => []
  end.
Definition ex_less : list entry := skipn 1 ex_items.
Definition ex_two (name name' : str) (sigs : list str) (pivot : str) (concat : bool) :=
  texts_only (line_view nub (fun i => i) [(name, ex_defs, ex_frames); (name', ex_defs, frames_of ex_less)] sigs pivot [] None concat None
    (fun v => match v with CInt z => str_of_nat (Z.to_nat z) | CStr s => s | CDict => [] end) 100 2 None).
Example C109_ex :
  ex_two $"boot" $"idle" [$"thermal:temp"] $"id" false =
    Ok [($"id: 0", [$"index"; $"boot:thermal:temp"; $"idle:thermal:temp"],
         [[(Some (1 # 8), None); (None, None); (None, Some 50000)]; [(Some (1 # 4), None); (None, Some 50000); (None, Some (94000 # 2))];
          [(Some (5 # 16), None); (None, Some (94000 # 2)); (None, Some 44000)]; [(Some (7 # 16), None); (None, Some 44000); (None, Some 44000)]]);
        ($"id: 1", [$"index"; $"boot:thermal:temp"; $"idle:thermal:temp"],
         [[(Some 0, None); (None, Some 40000); (None, None)]; [(Some (1 # 4), None); (None, Some (82000 # 2)); (None, Some 42000)];
          [(Some (3 # 8), None); (None, Some 42000); (None, Some 42000)]])]%Q /\
  ex_two [] [] [$"thermal:temp"; $"cpu_frequency:frequency"] PIVOT false =
    Ok [([], [$"index"; $"Trace 0:thermal:temp"; $"Trace 1:cpu_frequency:frequency"],
         [[(Some 0, None); (None, Some 40000); (None, Some 1400000)]; [(Some (1 # 4), None); (None, Some 50000); (None, Some 1400000)];
          [(Some (3 # 8), None); (None, Some 42000); (None, Some 1400000)]; [(Some (7 # 16), None); (None, Some 44000); (None, Some 1400000)]])]%Q.
Proof. vm_compute. split; reflexivity. Qed.
(** Whatever was printed in reports with these tables, the lines are regular. *)
Definition sound (col pivot a : str) (frames : list (str * Base.frame)) : bool :=
  match dget eqs a frames with Some fr => distinct_times (map this (map fst (Accessor.g_rows (gframe_of fr)))) && ints_only pivot fr && ints_only col fr | None => false end.
Lemma sound_regular l frames pivot : Shows (ln_report l) frames -> In (ln_event l, ln_class l) (wr_defs (ln_report l)) ->
  sound (ln_column l) pivot (ln_event l) frames = true -> Regular pivot l.
Proof.
  intros [T _] I C. destruct (T _ _ I) as (_ & fr & G & H). unfold sound in C. rewrite G in C. apply andb_prop in C as [C C3]. apply andb_prop in C as [C1 C2]. apply distinct_times_ok in C1.
  unfold Regular. cbv zeta. split; [unfold Distinct; rewrite <- (times_eq _ _ _ _ fr H); exact C1|].
  assert (K : forall col, ints_only col fr = true -> forall m v, In m (wr_marks (ln_report l) (ln_event l)) ->
    CellIn (snd (kind_of (ln_class l))) (wr_len (ln_report l) (ln_event l)) m col v -> exists z, v = CInt z).
  { intros col B m v Im Hv. destruct (F2_in_l _ _ _ _ H Im) as (r & Ir & Hr). apply (SolveP.row_cell _ _ _ _ _ _ _ Hr) in Hv.
    unfold ints_only in B. rewrite forallb_forall in B. specialize (B r Ir). rewrite Hv in B. destruct v; [eauto|discriminate|discriminate]. }
  intros m Im. split; [|intros v; exact (K _ C3 m v Im)]. intros Hv. destruct (K _ C2 m _ Im Hv) as (z & Ez). discriminate Ez.
Qed.
Lemma ex_shows items : begins items -> Forall (entry_ok ex_defs) items ->
  (forall a k, In (a, k) ex_defs -> titles_ok (snd (kind_of k)) (texts_of a items) /\ forall q, In q (parts_in (texts_of a items)) -> (arrays q < 5)%nat) ->
  forallb clear_time (entry_lines items) = true -> increasing fzero (map seconds (entry_lines items)) = true ->
  forallb (fun u => is_finite u) (map seconds (entry_lines items)) = true -> F64Ord.num (fadd fzero (hd fzero (map seconds (entry_lines items)))) = true ->
  exists w, wr_defs w = ex_defs /\ Shows w (frames_of items).
Proof.
  intros H1 H2 H3 H4 H5 H6 H7. destruct C106_ex_meets as (_ & J & _ & _ & N1 & N2 & N3 & _).
  destruct (C109_shows _ _ _ _ (fun _ _ : unit => true) (fun _ => tt) (fun x => x) (fun x : list str => List.length x) (fun f : Base.frame => f) Some 5 ex_cfg
    (Fs (ex_hdr ++ map entry_str items) None) ex_hdr items N1 N2 N3 (or_introl eq_refl) eq_refl J H1 H2 H3) as (tr & ts & us & E & HT & HA & HB & HS).
  apply times_are in HT; [|exact H4]. subst ts. apply assigned_same in HA; [|exact H5]. subst us.
  unfold frames_of. rewrite E. eexists. split; [|apply HS].
  - reflexivity.
  - unfold windows_ok, ex_cfg. cbn [c_win c_abs fst snd]. rewrite HB. split; [exact H7|]. split; [reflexivity|]. split; [exact I|]. split; [exact I|]. left. split; [reflexivity|exact I].
  - apply Forall_forall. rewrite forallb_forall in H6. exact H6.
Qed.
Example C109_ex_shows : (exists w, wr_defs w = ex_defs /\ Shows w ex_frames) /\ (exists w, wr_defs w = ex_defs /\ Shows w (frames_of ex_less)).
Proof.
  assert (T : forall l : list entry, (forall d, In d ex_defs -> titles_ok (snd (kind_of (snd d))) (texts_of (fst d) l) /\ Forall (fun q => (arrays q < 5)%nat) (parts_in (texts_of (fst d) l))) ->
    forall a k, In (a, k) ex_defs -> titles_ok (snd (kind_of k)) (texts_of a l) /\ forall q, In q (parts_in (texts_of a l)) -> (arrays q < 5)%nat).
  { intros l H a k Ia. destruct (H _ Ia) as [A B]. split; [exact A|]. apply Forall_forall. exact B. }
  split.
  - assert (EF : ex_frames = frames_of ex_items) by (unfold ex_frames, frames_of; reflexivity). rewrite EF. clear EF. apply ex_shows; [exact I|apply entriesb_ok; vm_compute; reflexivity| |vm_compute; reflexivity|vm_compute; reflexivity|vm_compute; reflexivity|vm_compute; reflexivity].
    apply T. apply Forall_forall. unfold ex_defs. do 2 (apply Forall_cons; [split; [apply titlesb_ok; vm_compute; reflexivity|vm_compute; repeat constructor]|]). apply Forall_nil.
  - apply ex_shows; [exact I|apply entriesb_ok; vm_compute; reflexivity| |vm_compute; reflexivity|vm_compute; reflexivity|vm_compute; reflexivity|vm_compute; reflexivity].
    apply T. apply Forall_forall. unfold ex_defs. do 2 (apply Forall_cons; [split; [apply titlesb_ok; vm_compute; reflexivity|vm_compute; repeat constructor]|]). apply Forall_nil.
Qed.
Example C109_ex_meets : forall w w', wr_defs w = ex_defs -> wr_defs w' = ex_defs -> Shows w ex_frames -> Shows w' (frames_of ex_less) ->
  let traces := [($"boot", w); ($"idle", w')] in
  let xs := [(builtin $"Thermal", $"temp", None)] in
  Forall2 (fun t l => fst l = (fst t, wr_defs (snd t)) /\ Shows (snd t) (snd l)) traces [($"boot", ex_defs, ex_frames); ($"idle", ex_defs, frames_of ex_less)] /\
  Forall2 (Means (map (fun t => wr_defs (snd t)) traces)) [$"thermal:temp"] xs /\ List.length xs = 1 /\
  (forall t x, In t traces -> In x xs -> In (given_name (fst (fst x))) (map fst (wr_defs (snd t)))) /\
  forall ls, Lines traces (map (fun x : klass * str * option (list Z) => (given_name (fst (fst x)), snd (fst x))) xs) ls -> forall l, In l ls -> Regular $"id" l.
Proof.
  intros w w' D D' S S' traces xs. split; [|split; [|split; [reflexivity|split]]].
  - constructor; [cbn [fst snd]; split; [now rewrite D|exact S]|]. constructor; [cbn [fst snd]; split; [now rewrite D'|exact S']|constructor].
  - unfold traces. cbn [map snd]. rewrite D, D'. constructor; [|constructor]. exists $"thermal", None. cbn [fst snd]. split; [|split; [exact I|]].
    + apply (Sig_plain $"thermal" $"temp"); (split; [discriminate|]); cbn; intuition discriminate.
    + exists [], ex_defs, [ex_defs]. split; [reflexivity|]. split; [vm_compute; reflexivity|constructor].
  - intros t x [<-|[<-|[]]] [<-|[]]; cbn [fst snd]; rewrite ?D, ?D'; left; vm_compute; reflexivity.
  - intros ls [_ H] l Il. apply In_nth_error in Il as (i & Il). destruct (H i l Il) as (A & B & C & _).
    assert (E : (ln_event l, ln_column l) = ($"thermal", $"temp")). { apply nth_or_only_In in B as [B|[]]. rewrite <- B. vm_compute. reflexivity. }
    injection E as E1 E2. apply nth_or_only_In in A as [A|[A|[]]]; injection A as _ A.
    + assert (Sh : Shows (ln_report l) ex_frames) by (rewrite <- A; exact S). refine (sound_regular l ex_frames $"id" Sh C _). rewrite E1, E2. vm_compute. reflexivity.
    + assert (Sh : Shows (ln_report l) (frames_of ex_less)) by (rewrite <- A; exact S'). refine (sound_regular l (frames_of ex_less) $"id" Sh C _). rewrite E1, E2. vm_compute. reflexivity.
Qed.

(** Finding: traces given the same name: the lines of the first are not shown. *)
Theorem C109_names_refuted :
  ex_two $"boot" $"boot" [$"thermal:temp"] $"id" false =
  texts_only (line_view nub (fun i => i) [($"boot", ex_defs, frames_of ex_less)] [$"thermal:temp"] $"id" [] None false None
    (fun v => match v with CInt z => str_of_nat (Z.to_nat z) | CStr s => s | CDict => [] end) 100 2 None).
Proof. vm_compute. reflexivity. Qed.
(** Finding: a signal that only one of the traces has ends the plot of all. *)
Theorem C109_lacking_refuted : forall name name' fr,
  line_view nub (fun i => i) [(name, ex_defs, ex_frames); (name', [], [($"other", fr)])] [$"thermal:temp"] $"id" [] None false None (fun _ => []) 100 2 None = Err EAttribute.
Proof. intros name name' fr. vm_compute. reflexivity. Qed.

Print Assumptions C109_shows.
Print Assumptions C109_lines.
Print Assumptions C109_view.
Print Assumptions C109_concat.
Print Assumptions C109_names_refuted.
Print Assumptions C109_lacking_refuted.
