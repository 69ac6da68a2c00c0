(** C91: plots of whole traces. *)
From Coq Require Import List Ascii String ZArith QArith Bool Sorted Lia Lqa.
From Verif Require Import Lib.PyStr Model.Base Model.Residency Model.Systrace Model.Files Model.EventPlot Model.EventBars Model.EventInfo Model.PlotTrace
  Spec.Residency Spec.EventPlot Spec.EventBars Spec.EventInfo Spec.PlotTrace Proofs.PlotTraceP.
Import ListNotations.
Local Open Scope nat_scope.
Local Open Scope list_scope.

(** From the table of switches to the bars: whatever window is shown, each time a chosen task ran is drawn, in the path of the
    task and on the row of the cpu, and nothing else is.  There is a row for each of the cpus. *)
Theorem C91_runs : forall open src t en ps r0 rows init rn n,
  match src with SPath p => open (kind_of p) p | STrace t => Ok t end = Ok t -> pt_switches t = Some (r0 :: rows) -> r0 :: rows = init ++ [rn] ->
  InTime (r0 :: rows) -> Regular (execnames_of en) (pids_of ps) (r0 :: rows) -> cpus_int (pt_cpus t) = Ok n -> n <> 0%Z ->
  exists g, plot_trace true open src en ps = Ok (g, (s_time r0, s_time rn)) /\ Labels [] $"CPU :" n (g_lanes g) /\
    forall st x y, Rising x -> exists paths, draw st x y g = Ok paths /\
      AllRuns (execnames_of en) (pids_of ps) (r0 :: rows) x y paths /\ OnlyRuns (execnames_of en) (pids_of ps) (r0 :: rows) x y paths.
Proof. exact plot_trace_ok. Qed.
Theorem C91_chosen : forall en ps, Chosen [] en (execnames_of en) /\ Chosen 0%Z ps (pids_of ps).
Proof. intros. split; [apply chosen_names|apply chosen_pids]. Qed.
(** All of it is inside the chart if no cpu has a number as large as their number, *)
Theorem C91_inside : forall en ps rows x paths n, OnlyRuns en ps rows x (y_main (Z.to_nat n)) paths -> (forall r, In r rows -> 0 <= s_cpu r < n)%Z ->
  forall m p sk q h, In (m, p) paths -> In sk p -> s_y sk = Some q -> Covers q (stroke_width (y_main (Z.to_nat n))) h -> (0 <= h <= main_height (Z.to_nat n))%Q.
Proof. exact plot_inside. Qed.
(** which is so for every systrace. *)
Theorem C91_systrace : forall (rows : list (switch Q)) n, systrace_cpus (Some (map s_cpu rows)) = Ok (Some n) -> (forall r, In r rows -> 0 <= s_cpu r)%Z ->
  cpus_int (systrace_attr (Some n)) = Ok n /\ n <> 0%Z /\ forall r, In r rows -> (0 <= s_cpu r < n)%Z.
Proof. exact systrace_inside. Qed.
Theorem C91_fails : forall open src en ps,
  plot_trace false open src en ps = Err ERuntime /\
  (forall p e, src = SPath p -> open (kind_of p) p = Err e -> plot_trace true open src en ps = Err e) /\
  (forall t, match src with SPath p => open (kind_of p) p | STrace t => Ok t end = Ok t ->
     (pt_switches t = None -> plot_trace true open src en ps = Err EAttribute) /\
     (pt_switches t = Some [] -> plot_trace true open src en ps = Err EIndex) /\
     (forall rows r e, pt_switches t = Some rows -> event_data (execnames_of en) (pids_of ps) rows = Ok r -> cpus_int (pt_cpus t) = Err e -> plot_trace true open src en ps = Err e) /\
     (forall rows r, pt_switches t = Some rows -> event_data (execnames_of en) (pids_of ps) rows = Ok r -> cpus_int (pt_cpus t) = Ok 0%Z -> plot_trace true open src en ps = Err ERuntime)).
Proof. exact plot_trace_fails. Qed.
Theorem C91_kind : forall p, (exists b, p = b ++ $"html") /\ kind_of p = KSysTrace \/ ~ (exists b, p = b ++ $"html") /\ kind_of p = KFTrace.
Proof. exact kind_ok. Qed.

Definition sw (t : Q) (p n : Z) (c : string) (cpu : Z) : switch Q := Switch t p n (CStr (list_ascii_of_string c)) cpu.
Definition ex_rows : list (switch Q) := [sw 1 0 7 "ls" 0; sw 2 0 8 "cat" 1; sw 3 7 0 "swapper/0" 0; sw 4 8 7 "ls" 1; sw 5 7 0 "swapper/1" 1].
Definition ex_open (k : kind) (p : str) : res ptrace :=
  match k with
  | KFTrace => Ok (PTrace (Some ex_rows) (ftrace_cpus [($"version", $"6"); ($"cpus", $"2")]))
  | KSysTrace => Ok (PTrace (Some ex_rows) (systrace_attr (Some 2%Z)))
  end.
Definition ex_x : scale := Scale 1 5 0 400.
Example C91_ex : match plot_trace true ex_open (SPath $"trace.dat") SelNone (SelOne 7%Z) with
  | Ok (g, d) => (g_lanes g, d, draw false ex_x (y_main 2) g)
  | Err _ => ([], (0, 0)%Q, Err EFuel)
  end = ([(0, LS $"CPU :0"); (1, LS $"CPU :1")], (1, 5)%Q,
         match draw false ex_x (y_main 2) (Graph [] [$"ls-7"] [($"ls-7", [(LZ 0, [(1, 3)]); (LZ 1, [(4, 5)])])])%Q with r => r end) /\
  plot_trace true ex_open (SPath $"trace.html") SelNone (SelOne 7%Z) = plot_trace true ex_open (SPath $"trace.dat") SelNone (SelOne 7%Z).
Proof. split; vm_compute; reflexivity. Qed.
Example C91_ex_paths : match draw false ex_x (y_main 2) (Graph [] [$"ls-7"] [($"ls-7", [(LZ 0, [(1, 3)]); (LZ 1, [(4, 5)])])])%Q with
  | Ok [(n, p)] => eqs n $"ls-7" && forallb (fun s => Qle_bool 0 (s_from s) && Qle_bool (s_to s) 400) p && (List.length p =? 4)
  | _ => false
  end = true.
Proof. vm_compute. reflexivity. Qed.
Example C91_ex_meets : InTime ex_rows /\ Regular [] [] ex_rows /\ cpus_int (ftrace_cpus [($"version", $"6"); ($"cpus", $"2")]) = Ok 2%Z /\
  systrace_cpus (Some (map s_cpu ex_rows)) = Ok (Some 2%Z) /\ (forall r, In r ex_rows -> 0 <= s_cpu r < 2)%Z.
Proof.
  split; [unfold InTime; repeat constructor; vm_compute; discriminate|]. split; [|split; [reflexivity|split; [reflexivity|]]].
  - split.
    + intros r I. repeat (destruct I as [<-|I]; [split; [vm_compute; discriminate|now eexists]|]). destruct I.
    + intros b r mid r' rest E W N En. assert (forall r, In r ex_rows -> s_next r = 0%Z \/ s_comm r = (if (s_next r =? 7)%Z then CStr $"ls" else CStr $"cat")) as F.
      { intros q I. repeat (destruct I as [<-|I]; [(now left) || (now right)|]). destruct I. }
      destruct W as (W & _). destruct (F r) as [C|C]; [rewrite E; apply in_elt|contradiction|].
      destruct (F r') as [C'|C']; [rewrite E; apply in_app_iff; right; right; apply in_elt|congruence|]. now rewrite C, C', En.
  - intros r I. repeat (destruct I as [<-|I]; [cbn; lia|]). destruct I.
Qed.
(** A trace that was filtered to other events, and one without a header. *)
Example C91_ex_fails : plot_trace true ex_open (STrace (PTrace (Some []) (CNum 2))) SelNone SelNone = Err EIndex /\
  plot_trace true ex_open (STrace (PTrace (Some ex_rows) (ftrace_cpus []))) SelNone SelNone = Err EType.
Proof. split; vm_compute; reflexivity. Qed.

(** The header of an ftrace counts the cpus that recorded something: those with larger numbers are drawn outside the chart. *)
Theorem C91_inside_refuted : ~ (forall open src t g d en ps x paths, match src with SPath p => open (kind_of p) p | STrace t => Ok t end = Ok t ->
  plot_trace true open src en ps = Ok (g, d) -> draw false x (y_main (List.length (g_lanes g))) g = Ok paths ->
  forall m p sk q, In (m, p) paths -> In sk p -> s_y sk = Some q -> (q <= main_height (List.length (g_lanes g)))%Q).
Proof.
  intros H. set (t := PTrace (Some [sw 1 0 7 "ls" 4; sw 2 7 0 "swapper/4" 4]) (ftrace_cpus [($"cpus", $"2")])).
  destruct (plot_trace true ex_open (STrace t) SelNone SelNone) as [[g d]|] eqn:E; [|vm_compute in E; discriminate].
  specialize (H ex_open (STrace t) t g d SelNone SelNone ex_x).
  assert (exists paths p sk q, draw false ex_x (y_main (List.length (g_lanes g))) g = Ok paths /\ In ($"ls-7", p) paths /\ In sk p /\ s_y sk = Some q /\
    ~ (q <= main_height (List.length (g_lanes g)))%Q) as (paths & p & sk & q & A & B & C & D & F).
  { vm_compute in E. injection E as <- <-. do 4 eexists. split; [vm_compute; reflexivity|]. split; [now left|]. split; [now left|]. split; [reflexivity|].
    vm_compute. intros C. now apply C. }
  apply F. exact (H paths eq_refl E A _ _ _ _ B C D).
Qed.
(** Asking for the idle task shows all tasks. *)
Theorem C91_idle_refuted : ~ (forall (p : Z) l, pids_of (SelOne p) = l -> In p l).
Proof. intros H. exact (H 0%Z [] eq_refl). Qed.

Print Assumptions C91_runs.
Print Assumptions C91_chosen.
Print Assumptions C91_inside.
Print Assumptions C91_systrace.
Print Assumptions C91_fails.
Print Assumptions C91_kind.
Print Assumptions C91_inside_refuted.
Print Assumptions C91_idle_refuted.
