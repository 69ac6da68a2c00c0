(** Property C77: a written report is read back. *)
From Coq Require Import List Ascii String ZArith NArith Bool.
From Verif Require Import Lib.PyStr Lib.F64 Lib.F64Ord Model.Base Model.Line Model.Registry Model.Populate Model.Window Model.Cache
  Spec.Lines Spec.Payload Spec.Arrays Spec.Parts Spec.Trace Spec.Interval Spec.Written
  Proofs.LineP Proofs.WrittenP Proofs.WrittenQ.
Import ListNotations.
Local Open Scope list_scope.

(** After the header, the selected events of a report become rows: for every
    attribute one row per event written for it, in the order of the file, holding
    every field and array element printed and the place where it was printed. *)
Theorem C77_frames : forall ws hdr items,
  Forall junk_ok hdr -> starts_event items -> Forall (item_ok ws) items ->
  exists st ts us, populate ws fzero (ftrace_body (hdr ++ map item_str items)) = Ok st /\
    Forall2 printed_time (event_lines items) ts /\ Assigned fzero ts us /\
    p_base st = hd fzero us /\ p_end st = last us fzero /\ p_lines st = Z.of_nat (List.length items) /\
    forall a fuel, columns_ok (parts_of a items) -> (forall q, In q (parts_of a items) -> (arrays q < fuel)%nat) ->
      exists fr, create_dataframe fuel generate_data_dict (arr a st) = Ok fr /\
        Forall2 (row_of (trace_len (parts_of a items)) (fun t => t))
          (filter (fun s => eqs a (s_attr s)) (stamped 0 items us)) fr.
Proof. exact written_frames. Qed.

(** The constructed trace: the same rows inside both windows, moved to start at
    the time of the first event if asked for. *)
Theorem C77_trace : forall (content digest header csv : Type)
  (deq : digest -> digest -> bool) (md5 : content -> digest) (file : content -> list str)
  (head : content -> header) (enc : frame -> csv) (dec : csv -> option frame)
  (mk : klass -> list event -> res frame) (fuel : nat) (c : config) (s : fsys) hdr items,
  NoDup (map fst (c_defs c)) -> NoDup (map (fun d => k_word (snd d)) (c_defs c)) ->
  (forall a k es, In (a, k) (c_defs c) -> mk k es = create_dataframe fuel generate_data_dict es) ->
  c_nocache c = true \/ (f_cache s = None /\ c_defs c <> []) ->
  file (f_trace s) = hdr ++ map item_str items ->
  Forall junk_ok hdr -> starts_event items ->
  Forall (item_ok (map (fun d => (k_word (snd d), d)) (c_defs c))) items ->
  (forall a k, In (a, k) (c_defs c) -> columns_ok (parts_of a items) /\
     forall q, In q (parts_of a items) -> (arrays q < fuel)%nat) ->
  exists tr ts us,
    fst (do_parse deq md5 (fun x => ftrace_body (file x)) head enc dec mk c s) = Ok tr /\
    Forall2 printed_time (event_lines items) ts /\ Assigned fzero ts us /\
    t_base tr = hd fzero us /\ t_end tr = last us fzero /\ t_head tr = Some (head (f_trace s)) /\
    map fst (t_frames tr) = map fst (c_defs c) /\
    (windows_ok (c_win c) (c_abs c) (t_base tr) -> forall a k, In (a, k) (c_defs c) ->
     exists fr, dget eqs a (t_frames tr) = Some fr /\
       Forall2 (row_of (trace_len (parts_of a items)) (fun t => if c_norm c then fsub t (t_base tr) else t))
         (filter (fun x => eqs a (s_attr x) && in_both (c_win c) (c_abs c) (t_base tr) (s_time x))
                 (stamped 0 items us)) fr).
Proof. exact (fun content digest header csv => read_back (content:=content) (digest:=digest) (header:=header) (csv:=csv)). Qed.

(** A report with a header, two kinds of selected events, one with arrays, an
    event nobody selected and a lost-events notice. *)
Definition kT : klass := Kls 1 $"thermal_power:" (Some $"thermal_power") $"Thermal" false.
Definition kW : klass := Kls 2 $"sched_wakeup:" (Some $"sched_wakeup") $"Wakeup" false.
Definition tl (us name data : str) : tline :=
  TLine $"   " $"kworker/0:1" $"77" None $"  " $"001" (Some ($" ", $"d..3")) $" " $"12" (Some us) [(name, $" ")] data.
Definition pT1 : list part := [PF (Grp $"freq" $"1000" []); PA $"load" [$"9"; $"80"]].
Definition pT2 : list part := [PF (Grp $"freq" $"0x10" []); PA $"load" [$"7"]].
Definition pW : list part := [PF (Grp $"comm" $"some" [$"task"]); PF (Grp $"pid" $"33" [])].
Definition ex_hdr : list str := [$"version = 6" ++ [nl]; $"cpus=2" ++ [nl]].
Definition ex_items : list item :=
  [ Wrote (tl $"500000" $"thermal_power" $"freq=1000 load={9 80}") $"thermal_power" pT1;
    Foreign (tl $"500000" $"irq_entry" $"irq=3");
    Wrote (tl $"500001" $"sched_wakeup" $"comm=some task pid=33") $"sched_wakeup" pW;
    Junk ($"CPU:1 [LOST 5 EVENTS]" ++ [nl]);
    Wrote (tl $"750000" $"thermal_power" $"freq=0x10 load={7}") $"thermal_power" pT2 ].
Definition ex_cfg : config :=
  Cfg [($"thermal_power", kT); ($"sched_wakeup", kW)] true true (fzero, None) (fzero, None).
Notation ex_parse := (do_parse (fun _ _ : unit => true) (fun _ => tt) (fun x => ftrace_body x) (fun x : list str => List.length x)
  (fun f : frame => f) Some (fun _ es => create_dataframe 5 generate_data_dict es)).
Example C77_ex :
  Forall junk_ok ex_hdr /\ starts_event ex_items /\
  Forall (item_ok (map (fun d => (k_word (snd d), d)) (c_defs ex_cfg))) ex_items /\
  (forall a k, In (a, k) (c_defs ex_cfg) -> columns_ok (parts_of a ex_items) /\
     forall q, In q (parts_of a ex_items) -> (arrays q < 5)%nat) /\
  windows_ok (c_win ex_cfg) (c_abs ex_cfg) (f_of_ratio 125 10) /\
  match fst (ex_parse ex_cfg (Fs (ex_hdr ++ map item_str ex_items) None)) with
  | Ok tr => map (fun x => (fst x, map snd (snd x))) (t_frames tr) =
      [($"thermal_power",
        [ [($"__comm", CStr $"kworker/0:1"); ($"__pid", CInt 77); ($"__cpu", CInt 1); ($"__line", CInt 0);
           ($"freq", CInt 1000); ($"load0", CInt 9); ($"load1", CInt 80)];
          [($"__comm", CStr $"kworker/0:1"); ($"__pid", CInt 77); ($"__cpu", CInt 1); ($"__line", CInt 4);
           ($"freq", CInt 16); ($"load0", CInt 7); ($"load1", CInt 0)] ]);
       ($"sched_wakeup",
        [ [($"__comm", CStr $"kworker/0:1"); ($"__pid", CInt 77); ($"__cpu", CInt 1); ($"__line", CInt 2);
           ($"comm", CStr $"some task"); ($"pid", CInt 33)] ])]
      /\ map (fun x => map (fun r => flt (f_of_ratio 24 100) (fst r)) (snd x)) (t_frames tr) = [[false; true]; [false]]
  | Err _ => False
  end.
Proof.
  split; [|split; [exact I|split; [apply items_okb_ok; vm_compute; reflexivity|split; [|split; [|vm_compute; auto]]]]].
  - unfold ex_hdr. do 2 (apply Forall_cons; [left; apply PopulateP.occurs_false; vm_compute; reflexivity|]). apply Forall_nil.
  - intros a k [E|[E|[]]]; injection E as <- <-; (split; [split|]).
    + intros q [<-|[<-|[]]]; vm_compute; repeat constructor; intros H; repeat (destruct H as [H|H]; [discriminate|]); destruct H.
    + left. reflexivity.
    + intros q [<-|[<-|[]]]; vm_compute; repeat constructor.
    + intros q [<-|[]]; vm_compute; repeat constructor; intros H; repeat (destruct H as [H|H]; [discriminate|]); destruct H.
    + right. intros q [<-|[]]; reflexivity.
    + intros q [<-|[]]; vm_compute; repeat constructor.
  - do 2 (split; [vm_compute; reflexivity|]). do 2 (split; [exact I|]). left. split; [reflexivity|exact I].
Qed.
Example C77_ex_text : map item_str (firstn 1 ex_items) =
  [$"   kworker/0:1-77  [001] d..3 12.500000: thermal_power: freq=1000 load={9 80}" ++ [nl]].
Proof. reflexivity. Qed.

(** Without the condition on arrays the elements are not columns: an array that
    the first event of its kind does not have stays text. *)
Theorem C77_late_array_refuted : exists ws items,
  Forall (item_ok ws) items /\
  (forall q, In q (parts_of $"e" items) -> NoDup (map fst (flat_map (part_cells (trace_len (parts_of $"e" items))) q))) /\
  In [PA $"l" [$"3"; $"4"]] (parts_of $"e" items) /\
  flat_map (part_cells (trace_len (parts_of $"e" items))) [PA $"l" [$"3"; $"4"]] = [($"l0", ($"3", [])); ($"l1", ($"4", []))] /\
  match (do st <- populate ws fzero (ftrace_body (map item_str items)) ;;
         create_dataframe 5 generate_data_dict (arr $"e" st)) with
  | Ok fr => map (fun r => (dlookup $"l0" (snd r), dlookup $"l" (snd r))) fr = [(None, None); (None, Some (CStr $"{3 4}"))]
  | Err _ => False
  end.
Proof.
  exists [($"ev:", ($"e", Kls 1 $"ev:" (Some $"e") $"E" false))],
    [Wrote (tl $"5" $"ev" $"x=1") $"e" [PF (Grp $"x" $"1" [])]; Wrote (tl $"6" $"ev" $"l={3 4}") $"e" [PA $"l" [$"3"; $"4"]]].
  split; [apply items_okb_ok; vm_compute; reflexivity|]. split.
  { intros q [<-|[<-|[]]]; vm_compute; repeat constructor; intros H; repeat (destruct H as [H|H]; [discriminate|]); destruct H. }
  split; [right; now left|]. split; vm_compute; reflexivity.
Qed.

Print Assumptions C77_frames.
Print Assumptions C77_trace.
Print Assumptions C77_late_array_refuted.
