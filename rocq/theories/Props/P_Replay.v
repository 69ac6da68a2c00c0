(** C102: callbacks over a written report. *)
From Coq Require Import List Ascii String ZArith NArith QArith Qcanon Reals Qreals Bool Sorted Lia.
From Flocq Require Import BinarySingleNaN.
From Verif Require Import Lib.PyStr Lib.PyStrFacts Lib.F64 Model.Base Model.Line Model.Registry Model.Builtin Model.Populate Model.Window Model.Cache
  Model.Files Model.Classes Model.Callbacks Model.PlotReport Model.Solve Model.Replay
  Spec.Lines Spec.Payload Spec.Arrays Spec.Parts Spec.Trace Spec.Interval Spec.Written Spec.Events Spec.Classes Spec.Power Spec.Solve Spec.Replay
  Proofs.ClassesR Proofs.PlotReportP Proofs.SolveP Proofs.SolveQ Proofs.ReplayP Props.P_Solve.
Import ListNotations.
Local Open Scope nat_scope.
Local Open Scope list_scope.

(** The functions are called once for each printed event of their names inside the windows, in the order of the report and
    whatever the order of the map; each call is told what the event printed. *)
Theorem C102_calls : forall (content digest header csv : Type)
  (deq : digest -> digest -> bool) (md5 : content -> digest) (file : content -> list str)
  (head : content -> header) (enc : frame -> csv) (dec : csv -> option frame)
  (fuel : nat) (c : config) (s : fsys) hdr items,
  NoDup (map fst (c_defs c)) -> NoDup (map (fun d => k_word (snd d)) (c_defs c)) -> (forall a k, In (a, k) (c_defs c) -> given_name k = a) ->
  c_nocache c = true \/ (f_cache s = None /\ c_defs c <> []) ->
  file (f_trace s) = hdr ++ map entry_str items ->
  Forall junk_ok hdr -> begins items -> Forall (entry_ok (c_defs c)) items ->
  (forall a k, In (a, k) (c_defs c) -> titles_ok (snd (kind_of k)) (texts_of a items) /\
     forall q, In q (parts_in (texts_of a items)) -> (arrays q < fuel)%nat) ->
  exists tr ts us, fst (do_parse deq md5 (fun x => ftrace_body (file x)) head enc dec (class_frame fuel) c s) = Ok tr /\
    Forall2 printed_time (entry_lines items) ts /\ Assigned fzero ts us /\ t_base tr = hd fzero us /\
    let shift := fun t => if c_norm c then fsub t (t_base tr) else t in
    let marks := fun a => events_of a (in_both (c_win c) (c_abs c) (t_base tr)) items us in
    let len := fun a => lengths (texts_of a items) in
    (windows_ok (c_win c) (c_abs c) (t_base tr) -> Forall (fun u => is_finite u = true) us ->
     forall names, NoDup names ->
     (forall a, In a names -> exists k, In (a, k) (c_defs c) /\ forall m, In m (marks a) -> CellIn (snd (kind_of k)) (len a) m $"__line" (CInt (m_pos m))) ->
     exists calls, replay (t_frames tr) names = Ok calls /\
       Forall2 (fun m x => fst x = m_attr m /\ exists k, In (m_attr m, k) (c_defs c) /\
                  Tells (snd (kind_of k)) (len (m_attr m)) shift (marks (m_attr m)) m (snd x))
         (asked names (in_both (c_win c) (c_abs c) (t_base tr)) items us) calls).
Proof.
  intros content digest header csv deq md5 file head enc dec fuel c s hdr items H1 H2 H3 H4 H5 H6 H7 H8 H9.
  destruct (report_world deq md5 file head enc dec fuel c s hdr items H1 H2 H3 H4 H5 H6 H7 H8 H9) as (tr & ts & us & HE & HT & HA & HB & HF).
  exists tr, ts, us. do 4 (split; [assumption|]). cbv zeta in *. intros Hw Hf. destruct (HF Hw Hf) as (HN & HR & _).
  intros names Hn HL. exact (trace_replay _ _ _ _ _ _ _ HR names Hn HL).
Qed.
(** A name that is no attribute: an AttributeError, before any call if the classes named earlier have their lines. *)
Theorem C102_unknown : forall (content digest header csv : Type)
  (deq : digest -> digest -> bool) (md5 : content -> digest) (file : content -> list str)
  (head : content -> header) (enc : frame -> csv) (dec : csv -> option frame)
  (fuel : nat) (c : config) (s : fsys) hdr items,
  NoDup (map fst (c_defs c)) -> NoDup (map (fun d => k_word (snd d)) (c_defs c)) -> (forall a k, In (a, k) (c_defs c) -> given_name k = a) ->
  c_nocache c = true \/ (f_cache s = None /\ c_defs c <> []) ->
  file (f_trace s) = hdr ++ map entry_str items ->
  Forall junk_ok hdr -> begins items -> Forall (entry_ok (c_defs c)) items ->
  (forall a k, In (a, k) (c_defs c) -> titles_ok (snd (kind_of k)) (texts_of a items) /\
     forall q, In q (parts_in (texts_of a items)) -> (arrays q < fuel)%nat) ->
  exists tr ts us, fst (do_parse deq md5 (fun x => ftrace_body (file x)) head enc dec (class_frame fuel) c s) = Ok tr /\
    Forall2 printed_time (entry_lines items) ts /\ Assigned fzero ts us /\ t_base tr = hd fzero us /\
    let shift := fun t => if c_norm c then fsub t (t_base tr) else t in
    let marks := fun a => events_of a (in_both (c_win c) (c_abs c) (t_base tr)) items us in
    let len := fun a => lengths (texts_of a items) in
    (windows_ok (c_win c) (c_abs c) (t_base tr) -> Forall (fun u => is_finite u = true) us ->
     forall names, (forall a, In a names -> forall k, In (a, k) (c_defs c) -> forall m, In m (marks a) -> CellIn (snd (kind_of k)) (len a) m $"__line" (CInt (m_pos m))) ->
     (exists a, In a names /\ ~ In a (map fst (c_defs c))) -> replay (t_frames tr) names = Err EAttribute).
Proof.
  intros content digest header csv deq md5 file head enc dec fuel c s hdr items H1 H2 H3 H4 H5 H6 H7 H8 H9.
  destruct (report_world deq md5 file head enc dec fuel c s hdr items H1 H2 H3 H4 H5 H6 H7 H8 H9) as (tr & ts & us & HE & HT & HA & HB & HF).
  exists tr, ts, us. do 4 (split; [assumption|]). cbv zeta in *. intros Hw Hf. destruct (HF Hw Hf) as (HN & HR & _).
  intros names HL HU. exact (trace_unknown _ _ _ _ _ _ _ HN HR names HL HU).
Qed.
(** The lines are as wanted for events that print no field of the name "__line", in reports of fewer than 2^32-1 lines. *)
Theorem C102_lines : forall c L m, ~ In $"__line" (map (fun x => column c (fst x)) (text_cells L (m_text m))) -> (m_pos m <> 4294967295)%Z ->
  CellIn c L m $"__line" (CInt (m_pos m)).
Proof. exact line_cell. Qed.

(** The report of C95. *)
Definition ex_replay (items : list entry) (names : list str) : res (list (str * list (str * cbval))) :=
  match fst (do_parse (fun _ _ : unit => true) (fun _ => tt) (fun x => ftrace_body x) (fun x : list str => List.length x)
    (fun f : frame => f) Some (class_frame 5) ex_cfg (Fs (ex_hdr ++ map entry_str items) None)) with
  | Ok tr => replay (t_frames tr) names
  | Err x => Err x
  end.
Definition seen (k : str) (r : res (list (str * list (str * cbval)))) : res (list (str * cbval)) :=
  do l <- r ;; mapM (fun x => match dget eqs k (snd x) with Some v => Ok (fst x, v) | None => Err EKey end) l.
Definition ex_names : list str := [$"cpu_frequency"; $"thermal"].
Example C102_ex : seen $"__line" (ex_replay ex_items ex_names) =
    Ok [($"thermal", VCell (CInt 0)); ($"cpu_frequency", VCell (CInt 1)); ($"thermal", VCell (CInt 3)); ($"thermal", VCell (CInt 5))] /\
  seen $"temp" (ex_replay ex_items [$"thermal"]) = Ok [($"thermal", VCell (CInt 40000)); ($"thermal", VCell (CInt 50000)); ($"thermal", VCell (CInt 42000))] /\
  ex_replay ex_items [$"thermal"; $"power"] = Err EAttribute.
Proof. vm_compute. auto. Qed.
(** The hypotheses on the report are met by C95_ex_meets. *)
Example C102_ex_meets : NoDup ex_names /\
  forall a, In a ex_names -> exists k, In (a, k) ex_defs /\ forall m, In m (ex_marks a) -> CellIn (snd (kind_of k)) (lengths (texts_of a ex_items)) m $"__line" (CInt (m_pos m)).
Proof.
  split; [apply nodupb_ok; vm_compute; reflexivity|].
  assert (K : forall c L ms, forallb (fun m => negb (existsb (eqs $"__line") (map (fun x => column c (fst x)) (text_cells L (m_text m)))) && negb (m_pos m =? 4294967295)%Z) ms = true ->
    forall m, In m ms -> CellIn c L m $"__line" (CInt (m_pos m))).
  { intros c L ms B m I. rewrite forallb_forall in B. apply B, andb_prop in I as [B1 B2]. apply C102_lines.
    - intros J. apply Bool.negb_true_iff in B1. assert (E : existsb (eqs $"__line") (map (fun x => column c (fst x)) (text_cells L (m_text m))) = true).
      { apply existsb_exists. exists $"__line". split; [exact J|reflexivity]. } congruence.
    - intros E. rewrite E in B2. discriminate B2. }
  intros a [<-|[<-|[]]].
  - exists (builtin $"SchedCpuFrequency"). split; [right; left; reflexivity|]. apply K. vm_compute. reflexivity.
  - exists (builtin $"Thermal"). split; [left; reflexivity|]. apply K. vm_compute. reflexivity.
Qed.
(** Finding: a field of the name "__line" takes the place of the line number, and the events are replayed in another order. *)
Definition ex_bad : list entry :=
  [ W $"500000" $"thermal_temperature" $"thermal" (F [($"id", $"0"); ($"__line", $"7")]);
    W $"625000" $"cpu_frequency" $"cpu_frequency" (F [($"state", $"1400000"); ($"cpu_id", $"3")]) ].
Theorem C102_order_refuted : exists items names,
  Forall (entry_ok ex_defs) items /\ begins items /\ (do calls <- ex_replay items names ;; Ok (map fst calls)) = Ok [$"cpu_frequency"; $"thermal"] /\
  flat_map (fun i => match i with EWrote _ a _ => [a] | _ => [] end) items = [$"thermal"; $"cpu_frequency"].
Proof.
  exists ex_bad, ex_names. split; [apply entriesb_ok; vm_compute; reflexivity|]. split; [exact I|]. split; [vm_compute; reflexivity|]. reflexivity.
Qed.

Print Assumptions C102_calls.
Print Assumptions C102_unknown.
Print Assumptions C102_lines.
Print Assumptions C102_order_refuted.
