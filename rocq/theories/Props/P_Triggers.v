(** C101: triggers and aggregators over a written report. *)
From Coq Require Import List Ascii String ZArith NArith QArith Qcanon Reals Qreals Bool Sorted Lia.
From Flocq Require Import BinarySingleNaN.
From Verif Require Import Lib.PyStr Lib.PyStrFacts Lib.TotalOrder Lib.F64 Model.Base Model.Line Model.Registry Model.Builtin Model.Populate Model.Window Model.Cache
  Model.Files Model.Classes Model.Tasks Model.Topology Model.Stats Model.PlotReport Model.Solve Model.Triggers
  Spec.Lines Spec.Payload Spec.Arrays Spec.Parts Spec.Trace Spec.Interval Spec.Written Spec.Events Spec.Classes Spec.Power Spec.Topology Spec.Stats Spec.Solve Spec.Triggers
  Proofs.ClassesR Proofs.PlotReportP Proofs.SolveP Proofs.SolveQ Proofs.TriggersP Props.P_Solve.
Import ListNotations.
Local Open Scope nat_scope.
Local Open Scope list_scope.

(** The series of a trigger for a node has the times of the printed events that fire it, each with the value of the trigger. *)
Theorem C101_trigger : forall (content digest header csv : Type)
  (deq : digest -> digest -> bool) (md5 : content -> digest) (file : content -> list str)
  (head : content -> header) (enc : frame -> csv) (dec : csv -> option frame)
  (fuel : nat) (c : config) (s : fsys) hdr items,
  NoDup (map fst (c_defs c)) -> NoDup (map (fun d => k_word (snd d)) (c_defs c)) -> (forall a k, In (a, k) (c_defs c) -> given_name k = a) ->
  c_nocache c = true \/ (f_cache s = None /\ c_defs c <> []) ->
  file (f_trace s) = hdr ++ map entry_str items ->
  Forall junk_ok hdr -> begins items -> Forall (entry_ok (c_defs c)) items ->
  (forall a k, In (a, k) (c_defs c) -> titles_ok (snd (kind_of k)) (texts_of a items) /\
     forall q, In q (parts_in (texts_of a items)) -> (arrays q < fuel)%nat) ->
  exists tr ts us, fst (do_parse deq md5 (fun x => ftrace_body (file x)) head enc dec (class_frame fuel) c s) = Ok tr /\
    Forall2 printed_time (entry_lines items) ts /\ Assigned fzero ts us /\ t_base tr = hd fzero us /\
    let shift := fun t => if c_norm c then fsub t (t_base tr) else t in
    let marks := fun a => events_of a (in_both (c_win c) (c_abs c) (t_base tr)) items us in
    let len := fun a => lengths (texts_of a items) in
    (windows_ok (c_win c) (c_abs c) (t_base tr) -> Forall (fun u => is_finite u = true) us ->
     forall V (g : rtrigger V) node k, In (r_event g, k) (c_defs c) ->
     Usable (snd (kind_of k)) (len (r_event g)) (marks (r_event g)) g ->
     exists sel, Picked (Fires (snd (kind_of k)) (len (r_event g)) (marks (r_event g)) g node) (marks (r_event g)) sel /\
       r_generate (t_frames tr) g node = Ok (map (fun m => (time (shift (m_time m)), r_value g)) sel)).
Proof.
  intros content digest header csv deq md5 file head enc dec fuel c s hdr items H1 H2 H3 H4 H5 H6 H7 H8 H9.
  destruct (report_world deq md5 file head enc dec fuel c s hdr items H1 H2 H3 H4 H5 H6 H7 H8 H9) as (tr & ts & us & HE & HT & HA & HB & HF).
  exists tr, ts, us. do 4 (split; [assumption|]). cbv zeta in *. intros Hw Hf. destruct (HF Hw Hf) as (HN & HR & _).
  intros V g node k I U. exact (proj1 (trace_generate _ _ _ _ _ HR g node k I) U).
Qed.
(** No printed event has the pivot, or a column that a function looks at: a KeyError for every node. An event that is no
    attribute of the trace: an AttributeError. *)
Theorem C101_fails : forall (content digest header csv : Type)
  (deq : digest -> digest -> bool) (md5 : content -> digest) (file : content -> list str)
  (head : content -> header) (enc : frame -> csv) (dec : csv -> option frame)
  (fuel : nat) (c : config) (s : fsys) hdr items,
  NoDup (map fst (c_defs c)) -> NoDup (map (fun d => k_word (snd d)) (c_defs c)) -> (forall a k, In (a, k) (c_defs c) -> given_name k = a) ->
  c_nocache c = true \/ (f_cache s = None /\ c_defs c <> []) ->
  file (f_trace s) = hdr ++ map entry_str items ->
  Forall junk_ok hdr -> begins items -> Forall (entry_ok (c_defs c)) items ->
  (forall a k, In (a, k) (c_defs c) -> titles_ok (snd (kind_of k)) (texts_of a items) /\
     forall q, In q (parts_in (texts_of a items)) -> (arrays q < fuel)%nat) ->
  exists tr ts us, fst (do_parse deq md5 (fun x => ftrace_body (file x)) head enc dec (class_frame fuel) c s) = Ok tr /\
    Forall2 printed_time (entry_lines items) ts /\ Assigned fzero ts us /\ t_base tr = hd fzero us /\
    let shift := fun t => if c_norm c then fsub t (t_base tr) else t in
    let marks := fun a => events_of a (in_both (c_win c) (c_abs c) (t_base tr)) items us in
    let len := fun a => lengths (texts_of a items) in
    (windows_ok (c_win c) (c_abs c) (t_base tr) -> Forall (fun u => is_finite u = true) us ->
     forall V (g : rtrigger V) node,
     (forall k, In (r_event g, k) (c_defs c) -> ~ Usable (snd (kind_of k)) (len (r_event g)) (marks (r_event g)) g ->
      r_generate (t_frames tr) g node = Err EKey) /\
     (~ In (r_event g) (map fst (c_defs c)) -> r_generate (t_frames tr) g node = Err EAttribute)).
Proof.
  intros content digest header csv deq md5 file head enc dec fuel c s hdr items H1 H2 H3 H4 H5 H6 H7 H8 H9.
  destruct (report_world deq md5 file head enc dec fuel c s hdr items H1 H2 H3 H4 H5 H6 H7 H8 H9) as (tr & ts & us & HE & HT & HA & HB & HF).
  exists tr, ts, us. do 4 (split; [assumption|]). cbv zeta in *. intros Hw Hf. destruct (HF Hw Hf) as (HN & HR & _).
  intros V g node. split.
  - intros k I N. exact (proj2 (trace_generate _ _ _ _ _ HR g node k I) N).
  - intros N. unfold r_generate. rewrite (proj2 (dget_None eqs eqs_eq _ _)); [reflexivity|]. intros I. apply N. now rewrite <- HN.
Qed.
(** [MultiTriggerAggregator(triggers, topology, aggfunc).aggregate(level=name)]: one result for each group of the level,
    the sum of what [aggfunc] gives for the nodes of the group.  It is applied to a series over the times of all events of
    the triggers' classes, whose value is that of the last trigger which an event of this time fires. *)
Theorem C101_aggregate : forall (content digest header csv : Type)
  (deq : digest -> digest -> bool) (md5 : content -> digest) (file : content -> list str)
  (head : content -> header) (enc : frame -> csv) (dec : csv -> option frame)
  (fuel : nat) (c : config) (s : fsys) hdr items,
  NoDup (map fst (c_defs c)) -> NoDup (map (fun d => k_word (snd d)) (c_defs c)) -> (forall a k, In (a, k) (c_defs c) -> given_name k = a) ->
  c_nocache c = true \/ (f_cache s = None /\ c_defs c <> []) ->
  file (f_trace s) = hdr ++ map entry_str items ->
  Forall junk_ok hdr -> begins items -> Forall (entry_ok (c_defs c)) items ->
  (forall a k, In (a, k) (c_defs c) -> titles_ok (snd (kind_of k)) (texts_of a items) /\
     forall q, In q (parts_in (texts_of a items)) -> (arrays q < fuel)%nat) ->
  exists tr ts us, fst (do_parse deq md5 (fun x => ftrace_body (file x)) head enc dec (class_frame fuel) c s) = Ok tr /\
    Forall2 printed_time (entry_lines items) ts /\ Assigned fzero ts us /\ t_base tr = hd fzero us /\
    let shift := fun t => if c_norm c then fsub t (t_base tr) else t in
    let marks := fun a => events_of a (in_both (c_win c) (c_abs c) (t_base tr)) items us in
    let len := fun a => lengths (texts_of a items) in
    (windows_ok (c_win c) (c_abs c) (t_base tr) -> Forall (fun u => is_finite u = true) us ->
     (forall a, In a (map fst (c_defs c)) -> Distinct shift (marks a)) ->
     forall V (zero : V) gs enum clusters calls R (f : list (Qc * V) -> R) add name groups,
     enumerates enum -> gs <> [] ->
     (forall g, In g gs -> exists k, In (r_event g, k) (c_defs c) /\ Usable (snd (kind_of k)) (len (r_event g)) (marks (r_event g)) g) ->
     let topo := built cell_eqb enum clusters calls in
     get_level enum topo name = Ok groups -> (forall g, In g groups -> g <> []) ->
     exists idx ser rs, Times shift marks gs idx /\
       (forall g n, In g groups -> In n g -> Shown (c_defs c) shift marks len zero gs n idx (ser n)) /\
       r_aggregate (t_frames tr) enum zero gs topo f add name = Ok rs /\
       Forall2 (fun g r => exists n rest, g = n :: rest /\ r = fold_left add (map (fun m => f (ser m)) rest) (f (ser n))) groups rs).
Proof.
  intros content digest header csv deq md5 file head enc dec fuel c s hdr items H1 H2 H3 H4 H5 H6 H7 H8 H9.
  destruct (report_world deq md5 file head enc dec fuel c s hdr items H1 H2 H3 H4 H5 H6 H7 H8 H9) as (tr & ts & us & HE & HT & HA & HB & HF).
  exists tr, ts, us. do 4 (split; [assumption|]). cbv zeta in *. intros Hw Hf. destruct (HF Hw Hf) as (HN & HR & _).
  intros HD V zero gs enum clusters calls R f add name groups. exact (trace_aggregate _ _ _ _ _ H1 HR HD enum zero gs clusters calls f add name groups).
Qed.

(** The report of C95: which processors report a temperature above 41 degrees. *)
Definition hot (v : cell) : bool := match v with CInt z => (41000 <? z)%Z | _ => false end.
Definition ex_trigs : list (rtrigger Z) :=
  [ RTrig $"thermal" [] 1%Z $"id"; RTrig $"thermal" [($"temp", FFun hot); ($"nope", FVal (CInt 7))] 10%Z $"id" ].
Definition ex_traced {A} (f : list (str * frame) -> res A) : res A :=
  match fst (do_parse (fun _ _ : unit => true) (fun _ => tt) (fun x => ftrace_body x) (fun x : list str => List.length x)
    (fun f : frame => f) Some (class_frame 5) ex_cfg (Fs (ex_hdr ++ map entry_str ex_items) None)) with
  | Ok tr => f (t_frames tr)
  | Err x => Err x
  end.
Definition shown (s : list (Qc * Z)) : list (Q * Z) := map (fun x => (this (fst x), snd x)) s.
Definition ex_agg (name : str) := ex_traced (fun fr => r_aggregate fr (fun l => l) 0%Z ex_trigs (built cell_eqb (fun l => l) [[CInt 0; CInt 1]; [CInt 2]] [])
  (fun s => [shown s]) (@app _) name).
Example C101_ex : ex_agg $"cluster" =
  Ok [[[(0, 1%Z); (1 # 4, 0%Z); (3 # 8, 10%Z)]; [(0, 0%Z); (1 # 4, 10%Z); (3 # 8, 0%Z)]]; [[(0, 0%Z); (1 # 4, 0%Z); (3 # 8, 0%Z)]]]%Q /\
  ex_agg $"node" = Err EKey.
Proof. vm_compute. auto. Qed.
Example C101_ex_error : ex_traced (fun fr => r_generate fr (RTrig $"thermal" [] 1%Z $"cpu") (CInt 0)) = Err EKey /\
  ex_traced (fun fr => r_generate fr (RTrig $"thermal" [($"nope", FFun hot)] 1%Z $"id") (CInt 0)) = Err EKey /\
  ex_traced (fun fr => r_generate fr (RTrig $"power" [] 1%Z $"id") (CInt 0)) = Err EAttribute.
Proof. vm_compute. auto. Qed.
(** The hypotheses on the report are met by C95_ex_meets. *)
Example C101_ex_meets : enumerates (fun l : list cell => l) /\
  forall g, In g ex_trigs -> exists k, In (r_event g, k) ex_defs /\ Usable (snd (kind_of k)) (lengths (texts_of (r_event g) ex_items)) (ex_marks (r_event g)) g.
Proof.
  assert (Hm : forall key, forallb (has_field (lengths (texts_of $"thermal" ex_items)) key) (ex_marks $"thermal") = true ->
    Has Same (lengths (texts_of $"thermal" ex_items)) (ex_marks $"thermal") key).
  { intros key B. rewrite forallb_forall in B.
    assert (E : exists m, In m (ex_marks $"thermal")) by (destruct (ex_marks $"thermal") as [|m l] eqn:E; [apply (f_equal (@List.length mark)) in E; vm_compute in E; discriminate|exists m; now left]). destruct E as (m & Im).
    destruct (has_field_ok _ _ _ (B m Im)) as (ps & val & more & E1 & E2 & E3). destruct (field_cell Same _ m ps key key val more E1 E2 eq_refl E3) as (v & Hv). exists m, v. split; auto. }
  split; [intros l _; apply Permutation.Permutation_refl|].
  intros g Ig. exists (builtin $"Thermal"). destruct Ig as [<-|[<-|[]]]; (split; [left; reflexivity|]).
  - split; [apply Hm; vm_compute; reflexivity|]. intros k p [].
  - split; [apply Hm; vm_compute; reflexivity|]. intros k p [[= <- <-]|[E|[]]]; [apply Hm; vm_compute; reflexivity|discriminate E].
Qed.

Print Assumptions C101_trigger.
Print Assumptions C101_fails.
Print Assumptions C101_aggregate.
