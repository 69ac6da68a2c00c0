(** Property C96: reports read through the files of the cache (trappy/base.py, trappy/ftrace.py). *)
From Coq Require Import List Ascii String ZArith NArith Bool Lia.
From Verif Require Import Lib.PyStr Lib.F64 Lib.F64Ord Model.Base Model.Line Model.Registry Model.Populate Model.Window Model.Cache
  Model.Csv Model.CsvCache Spec.Lines Spec.Payload Spec.Arrays Spec.Parts Spec.Trace Spec.Interval Spec.Tables Spec.Written Spec.History Spec.Cached
  Proofs.LineP Proofs.PopulateP Proofs.WrittenP Proofs.WrittenQ Proofs.CsvP Proofs.CachedP Proofs.CachedEx Proofs.CsvCacheP.
Import ListNotations.
Local Open Scope list_scope.

(** ** C96 *)
(** A frame whose rows have the same columns, each of integers of 64 bits or of text
    that is not mistaken for something else, is read back from its file. *)
Theorem C96_frame : forall (F : Type) trepr tparse (frepr : F -> str) (fparse : str -> option F) (f_of : Z -> F) num_cell bool_cell,
  (forall x, tparse (trepr x) = Some x) -> forall f, frame_kept fparse f \/ f = [] ->
  frame_of tparse fparse num_cell bool_cell (csv_of trepr frepr f_of f) = Some f.
Proof. exact @frame_round. Qed.

(** Histories over files holding such reports: a construction returns what it returns
    with the cache disabled. *)
Theorem C96_same : forall (F content digest header : Type) trepr tparse (frepr : F -> str) (fparse : str -> option F) (f_of : Z -> F) num_cell bool_cell
  (deq : digest -> digest -> bool) (md5 : content -> digest) (file : content -> list str) (head : content -> header)
  (mk : klass -> list event -> res frame) fuel (all : classes) (T : content -> Prop),
  let body := fun c => ftrace_body (file c) in
  let enc := csv_of trepr frepr f_of in
  let dec := frame_of tparse fparse num_cell bool_cell in
  let K := fun k => exists a, In (a, k) all in
  (forall x, tparse (trepr x) = Some x) ->
  NoDup (map fst all) -> NoDup (map (fun d => k_word (snd d)) all) -> NoDup (map (fun d => k_pyname (snd d)) all) ->
  (forall k es, K k -> mk k es = create_dataframe fuel generate_data_dict es) ->
  (forall c, T c -> exists items, report fparse fuel all (file c) items) ->
  unambiguous body K T -> digest_faithful deq md5 T ->
  forall s cf, Reach deq md5 body head enc dec mk K T false s -> selection K (c_defs cf) ->
  fst (construct deq md5 body head enc dec mk cf s) = fst (construct deq md5 body head enc dec mk (uncached cf) s).
Proof. exact @cached_same. Qed.
(** Even if constructions died: whenever the directory has complete metadata, is not
    there, or is not asked for, the trace has the rows that the present report prints. *)
Theorem C96_read : forall (F content digest header : Type) trepr tparse (frepr : F -> str) (fparse : str -> option F) (f_of : Z -> F) num_cell bool_cell
  (deq : digest -> digest -> bool) (md5 : content -> digest) (file : content -> list str) (head : content -> header)
  (mk : klass -> list event -> res frame) fuel (all : classes) (T : content -> Prop),
  let body := fun c => ftrace_body (file c) in
  let enc := csv_of trepr frepr f_of in
  let dec := frame_of tparse fparse num_cell bool_cell in
  let K := fun k => exists a, In (a, k) all in
  (forall x, tparse (trepr x) = Some x) ->
  NoDup (map fst all) -> NoDup (map (fun d => k_word (snd d)) all) -> NoDup (map (fun d => k_pyname (snd d)) all) ->
  (forall k es, K k -> mk k es = create_dataframe fuel generate_data_dict es) ->
  (forall c, T c -> exists items, report fparse fuel all (file c) items) ->
  unambiguous body K T -> digest_faithful deq md5 T ->
  forall b s cf items, Reach deq md5 body head enc dec mk K T b s ->
  c_defs cf <> [] -> NoDup (map fst (c_defs cf)) -> incl (c_defs cf) all ->
  report fparse fuel all (file (f_trace s)) items ->
  b = false \/ c_nocache cf = true \/ match f_cache s with Some d => exists m, d_meta d = Some (MOk m) | None => True end ->
  exists tr ts us, fst (construct deq md5 body head enc dec mk cf s) = Ok tr /\
    Forall2 printed_time (event_lines items) ts /\ Assigned fzero ts us /\
    t_base tr = hd fzero us /\ t_end tr = last us fzero /\ t_head tr = Some (head (f_trace s)) /\
    map fst (t_frames tr) = map fst (c_defs cf) /\
    (windows_ok (c_win cf) (c_abs cf) (t_base tr) -> forall a k, In (a, k) (c_defs cf) ->
     exists fr, dget eqs a (t_frames tr) = Some fr /\
       Forall2 (row_of (trace_len (parts_of a items)) (fun t => if c_norm cf then fsub t (t_base tr) else t))
         (filter (fun x => eqs a (s_attr x) && in_both (c_win cf) (c_abs cf) (t_base tr) (s_time x)) (stamped 0 items us)) fr).
Proof. exact @cached_read. Qed.

(** A report with two kinds of events, one of them with arrays. *)
Definition kT : klass := Kls 1 $"thermal_power:" (Some $"thermal_power") $"Thermal" false.
Definition kW : klass := Kls 2 $"sched_wakeup:" (Some $"sched_wakeup") $"Wakeup" false.
Definition ex_all : classes := [($"thermal_power", kT); ($"sched_wakeup", kW)].
Definition tl (comm us name data : str) : tline :=
  TLine $"   " comm $"77" None $"  " $"001" (Some ($" ", $"d..3")) $" " $"12" (Some us) [(name, $" ")] data.
Definition pT1 : list part := [PF (Grp $"freq" $"1000" []); PA $"load" [$"9"; $"80"]].
Definition pT2 : list part := [PF (Grp $"freq" $"0x10" []); PA $"load" [$"7"]].
Definition pW : list part := [PF (Grp $"comm" $"some" [$"task,"; $"really"]); PF (Grp $"pid" $"33" [])].
Definition ex_hdr : list str := [$"version = 6" ++ [nl]; $"cpus=2" ++ [nl]].
Definition ex_items : list item :=
  [ Wrote (tl $"kworker/0:1" $"500000" $"thermal_power" $"freq=1000 load={9 80}") $"thermal_power" pT1;
    Foreign (tl $"12" $"500000" $"irq_entry" $"irq=3");
    Wrote (tl $"sh" $"500001" $"sched_wakeup" $"comm=some task, really pid=33") $"sched_wakeup" pW;
    Junk ($"CPU:1 [LOST 5 EVENTS]" ++ [nl]);
    Wrote (tl $"12" $"750000" $"thermal_power" $"freq=0x10 load={7}") $"thermal_power" pT2 ].
(** The same file later. *)
Definition ex_items2 : list item :=
  [ Wrote (tl $"sh" $"500001" $"sched_wakeup" $"comm=some task, really pid=33") $"sched_wakeup" pW ].
Definition ex_file (items : list item) : list str := ex_hdr ++ map item_str items.
Definition exT (c : list str) : Prop := c = ex_file ex_items \/ c = ex_file ex_items2.
Definition exK (k : klass) : Prop := exists a, In (a, k) ex_all.
Definition leq (a b : list str) : bool := if list_eq_dec (list_eq_dec ascii_dec) a b then true else false.
(** Decimal fractions, kept as text. *)
Definition dec_text (s : str) : option str :=
  match split_once "." s with
  | Some (a, b) => if forallb is_digit a && forallb is_digit b && negb (eqs a []) && negb (eqs b []) then Some s else None
  | None => if forallb is_digit s && negb (eqs s []) then Some s else None
  end.
Definition ex_enc := csv_of float_text (fun s : str => s) str_of_Z.
Definition ex_dec := frame_of float_read dec_text CStr (fun b : bool => CStr (if b then $"True" else $"False")).
Definition mkf (k : klass) (es : list event) : res frame := create_dataframe 5 generate_data_dict es.
Notation cconstruct := (construct leq (fun c => c) (fun c => ftrace_body c) (fun c : list str => List.length c) ex_enc ex_dec mkf).
Notation cReach := (Reach leq (fun c => c) (fun c => ftrace_body c) (fun c : list str => List.length c) ex_enc ex_dec mkf exK exT).
Definition cfg (defs : classes) : config := Cfg defs false false (fzero, None) (fzero, None).

Fixpoint nodupb (l : list str) : bool := match l with [] => true | x :: r => negb (existsb (eqs x) r) && nodupb r end.
Lemma nodup_str (l : list str) : nodupb l = true -> NoDup l.
Proof.
  induction l as [|x l IH]; intros H; constructor; cbn [nodupb] in H; apply andb_true_iff in H as [H1 H2]; auto.
  intros C. apply existsb_eqs in C. now rewrite C in H1.
Qed.
Definition columns_okb (pss : list (list part)) : bool :=
  forallb (fun q => nodupb (map fst (flat_map (part_cells (trace_len pss)) q))) pss &&
  match pss with [] => true | p :: _ => has_array p || forallb (fun q => negb (has_array q)) pss end.
Lemma columns_okb_ok pss : columns_okb pss = true -> columns_ok pss.
Proof.
  unfold columns_okb. intros H. apply andb_true_iff in H as [H1 H2]. rewrite forallb_forall in H1. split.
  - intros q Hq. apply nodup_str. auto.
  - destruct pss as [|p pss]; auto. apply orb_true_iff in H2 as [H2|H2]; [now left|right]. rewrite forallb_forall in H2.
    intros q Hq. specialize (H2 q Hq). now destruct (has_array q).
Qed.
Definition reportb (items : list item) : bool :=
  match items with Junk _ :: _ => false | _ => true end &&
  forallb (item_okb (map (fun d => (k_word (snd d), d)) ex_all)) items && (Z.of_nat (List.length items) <? 2^63)%Z &&
  forallb (fun d => columns_okb (parts_of (fst d) items) && event_keptb dec_text (fst d) items &&
                    forallb (fun q => (arrays q <? 5)%nat) (parts_of (fst d) items)) ex_all.
Lemma reportb_ok items : reportb items = true -> report dec_text 5 ex_all (ex_file items) items.
Proof.
  unfold reportb. intros H. apply andb_true_iff in H as [H H0]. apply andb_true_iff in H as [H H1]. apply andb_true_iff in H as [H H2]. exists ex_hdr. split; [reflexivity|]. split.
  { unfold ex_hdr. do 2 (apply Forall_cons; [left; apply occurs_false; vm_compute; reflexivity|]). apply Forall_nil. }
  split; [destruct items as [|[| |]]; try exact I; discriminate H|]. split; [now apply items_okb_ok|]. split; [now apply Z.ltb_lt|].
  intros a k Hi. rewrite forallb_forall in H0. specialize (H0 _ Hi). cbn [fst] in H0. apply andb_true_iff in H0 as [H0 H3]. apply andb_true_iff in H0 as [H0 H4].
  split; [now apply columns_okb_ok|]. split; [now apply event_keptb_ok|]. intros q Hq. rewrite forallb_forall in H3. now apply Nat.ltb_lt, H3.
Qed.
Example C96_ex_hyp : (forall x, float_read (float_text x) = Some x) /\
  NoDup (map fst ex_all) /\ NoDup (map (fun d => k_word (snd d)) ex_all) /\ NoDup (map (fun d => k_pyname (snd d)) ex_all) /\
  report dec_text 5 ex_all (ex_file ex_items) ex_items /\ report dec_text 5 ex_all (ex_file ex_items2) ex_items2 /\
  unambiguous (fun c => ftrace_body c) exK exT /\ digest_faithful leq (fun c => c) exT.
Proof.
  split; [exact float_round|]. do 3 (split; [apply nodup_str; vm_compute; reflexivity|]).
  do 2 (split; [apply reportb_ok; vm_compute; reflexivity|]). split.
  - assert (D : forall c, exT c -> forallb (fun line => negb (contains (k_word kT) line && contains (k_word kW) line)) (ftrace_body c) = true).
    { intros c [->| ->]; vm_compute; reflexivity. }
    intros c line k1 k2 HT Hl (a1 & [E1|[E1|[]]]) (a2 & [E2|[E2|[]]]) C1 C2; injection E1 as <- <-; injection E2 as <- <-; auto;
      specialize (D c HT); rewrite forallb_forall in D; specialize (D line Hl); rewrite C1, C2 in D; discriminate.
  - split; auto. intros a b. unfold leq. destruct (list_eq_dec (list_eq_dec ascii_dec) a b); split; congruence.
Qed.
(** Constructing for one event, then for both, then reading both from the files. *)
Definition ex_s1 := snd (cconstruct (cfg [($"thermal_power", kT)]) (Fs (ex_file ex_items) None)).
Definition ex_s2 := snd (cconstruct (cfg ex_all) ex_s1).
Definition cells_in {header} (r : res (@trace header)) : res (list (str * list dict)) :=
  do t <- r ;; Ok (map (fun x => (fst x, map snd (snd x))) (t_frames t)).
Lemma ex_selection defs : defs = [($"thermal_power", kT)] \/ defs = ex_all -> selection exK defs.
Proof.
  intros [->| ->]; (split; [discriminate|split; [apply nodup_str; vm_compute; reflexivity|split; [apply nodup_str; vm_compute; reflexivity|]]]);
    repeat constructor; unfold exK; cbn; eauto.
Qed.
Example C96_ex : cReach false ex_s2 /\
  match f_cache ex_s2 with
  | Some d => map fst (d_tables d) = [$"Thermal"; $"Wakeup"] /\
      option_map csv_parse (dget eqs $"Wakeup" (d_tables d)) =
      Some [[$"Time"; $"__comm"; $"__pid"; $"__cpu"; $"__line"; $"comm"; $"pid"];
            [float_text (f_of_ratio 12500001 1000000); $"sh"; $"77"; $"1"; $"2"; $"some task, really"; $"33"]]
  | None => False
  end /\
  cells_in (fst (cconstruct (cfg ex_all) ex_s2)) =
  Ok [($"thermal_power",
       [ [($"__comm", CStr $"kworker/0:1"); ($"__pid", CInt 77); ($"__cpu", CInt 1); ($"__line", CInt 0);
          ($"freq", CInt 1000); ($"load0", CInt 9); ($"load1", CInt 80)];
         [($"__comm", CStr $"12"); ($"__pid", CInt 77); ($"__cpu", CInt 1); ($"__line", CInt 4);
          ($"freq", CInt 16); ($"load0", CInt 7); ($"load1", CInt 0)] ]);
      ($"sched_wakeup",
       [ [($"__comm", CStr $"sh"); ($"__pid", CInt 77); ($"__cpu", CInt 1); ($"__line", CInt 2);
          ($"comm", CStr $"some task, really"); ($"pid", CInt 33)] ])].
Proof.
  split; [|vm_compute; auto].
  assert (H1 : cReach false ex_s1).
  { unfold ex_s1. apply R_construct; [|apply ex_selection; now left]. apply R_start. now left. }
  unfold ex_s2. revert H1. generalize ex_s1. intros s H1. apply R_construct; [exact H1|apply ex_selection; now right].
Qed.
Example C96_ex_frame : frame_kept dec_text [(fzero, [($"a", CStr $"x"); ($"b", CInt 7)]); (fzero, [($"a", CStr $"5"); ($"b", CInt (-2))])].
Proof.
  exists [$"a"; $"b"]. split; [discriminate|]. split; [apply nodup_str; vm_compute; reflexivity|]. split; [intros [H|[H|[]]]; discriminate H|].
  split; [repeat constructor|]. intros n [<-|[<-|[]]].
  - right. exists [$"x"; $"5"]. split; [|apply texts_okb_ok; vm_compute; reflexivity]. intros c. split.
    + intros (r & [<-|[<-|[]]] & H); cbn [snd In] in H; destruct H as [H|[H|[]]]; try discriminate H; injection H as <-; (eexists; split; [|reflexivity]); [now left|right; now left].
    + intros (s & [<-|[<-|[]]] & ->).
      * eexists. split; [left; reflexivity|left; reflexivity].
      * eexists. split; [right; left; reflexivity|left; reflexivity].
  - left. intros c (r & [<-|[<-|[]]] & H); cbn [snd In] in H; destruct H as [H|[H|[]]]; try discriminate H; injection H as <-; eexists; (split; [reflexivity|]); unfold fits; lia.
Qed.

(** A report all of whose events were printed by a task named with a number: the first
    construction gives its name, the second, from the file, the number. *)
Definition bad_items : list item :=
  [ Wrote (tl $"123" $"500001" $"sched_wakeup" $"comm=some task, really pid=33") $"sched_wakeup" pW ].
Definition comms {header} (r : res (@trace header)) : res (list (option cell)) :=
  do t <- r ;; Ok (map (fun x => dlookup $"__comm" (snd x)) (List.concat (map snd (t_frames t)))).
Theorem C96_number_refuted : let s := Fs (ex_file bad_items) None in let c := cfg [($"sched_wakeup", kW)] in
  Forall (item_ok (map (fun d => (k_word (snd d), d)) ex_all)) bad_items /\ columns_ok (parts_of $"sched_wakeup" bad_items) /\
  comms (fst (cconstruct c s)) = Ok [Some (CStr $"123")] /\
  comms (fst (cconstruct c (snd (cconstruct c s)))) = Ok [Some (CInt 123)].
Proof.
  split; [apply items_okb_ok; vm_compute; reflexivity|]. split; [apply columns_okb_ok; vm_compute; reflexivity|]. split; vm_compute; reflexivity.
Qed.
Print Assumptions C96_frame.
Print Assumptions C96_same.
Print Assumptions C96_read.
Print Assumptions C96_number_refuted.
