(** Property C78: binary traces are read through trace-cmd; where their cache is. *)
From Coq Require Import List Ascii String ZArith NArith Bool Lia.
From Verif Require Import Lib.PyStr Lib.F64 Model.Base Model.Line Model.Registry Model.Populate Model.Window Model.Cache
  Model.Files Model.Report Spec.Report Proofs.ReportP.
Import ListNotations.
Local Open Scope list_scope.

(** ** The command *)
(** The events asked for unformatted are those of the registered classes with [parse_raw]. *)
Theorem C78_raw : forall raw r e, In e (raw_events raw r) <-> Wanted raw r e.
Proof. exact raw_events_In. Qed.
Theorem C78_registered : forall raw r k scope r', register r k scope = Ok r' -> raw (named k) = true -> given_name k <> [] ->
  In (given_name k) (raw_events raw r').
Proof. exact registered_raw. Qed.
(** The command asks for all digits of the times, for exactly these events raw and for exactly this file,
    unless the file name looks like an option. *)
Theorem C78_command : forall raws dat t rs fs, ~ dashed dat ->
  (Report (report_cmd raws dat) t rs fs <-> t = true /\ rs = raws /\ fs = [dat]).
Proof. exact command_read. Qed.
Theorem C78_dash_refuted : exists isfile base dat, isfile base = true /\ process_path isfile base = Ok (dat, true) /\
  forall raws t rs fs, Report (report_cmd raws dat) t rs fs -> ~ In dat fs.
Proof. exact command_dashed. Qed.

Definition kA : klass := Kls 1 $"alpha:" (Some $"alpha") $"Alpha" false.
Definition kB : klass := Kls 2 $"beta:" (Some $"beta") $"Beta" false.
Definition kC : klass := Kls 3 $"gamma:" None $"Gamma" false.
Definition ex_raw (k : klass) : bool := N.eqb (k_id k) 2 || N.eqb (k_id k) 3.
Definition ex_reg : res registry :=
  do r <- register (Reg [] [] []) kA $"sched" ;; do r <- register r kC $"all" ;; register r kB $"thermal".
Example C78_ex_command : ~ dashed $"/t/trace.dat" /\
  match ex_reg with
  | Ok r => report_cmd (raw_events ex_raw r) $"/t/trace.dat" =
      [$"trace-cmd"; $"report"; $"-t"; $"-r"; $"beta"; $"-r"; $"gamma"; $"/t/trace.dat"]
  | Err _ => False end.
Proof. split; [intros (c & r & H); discriminate|vm_compute; reflexivity]. Qed.

(** ** The construction *)
(** The command is not run exactly when the cache is in use and either has
    everything that is wanted or cannot be used at all; it is run at most once. *)
Theorem C78_runs : forall (content digest csv : Type) deq md5 enc dec mk run fresh cmd c
  (s : @fsys content digest (list (str * str)) csv) tmp,
  let o := dat_construct deq md5 enc dec mk run fresh cmd c s tmp in
  (o_cmds o = [] <->
     c_nocache c = false /\ (Broken deq md5 s \/ forall a k, In (a, k) (c_defs c) -> Current deq md5 dec s k)) /\
  (o_cmds o = [] \/ o_cmds o = [cmd]).
Proof. exact @commands. Qed.
(** The result is that for a text trace holding the lines printed. *)
Theorem C78_same : forall (content digest csv : Type) deq md5 enc dec mk run fresh cmd c
  (s : @fsys content digest (list (str * str)) csv) tmp lines, run cmd (f_trace s) = Ok lines ->
  let o := dat_construct deq md5 enc dec mk run fresh cmd c s tmp in
  let t := txt_construct deq md5 enc dec mk (fun _ => lines) c s tmp in
  o_res o = o_res t /\ o_fs o = o_fs t.
Proof. exact @same_as_text. Qed.
(** A failure of the command is the failure of the construction. *)
Theorem C78_fails : forall (content digest csv : Type) deq md5 enc dec mk run fresh cmd c
  (s : @fsys content digest (list (str * str)) csv) tmp e, run cmd (f_trace s) = Err e ->
  let o := dat_construct deq md5 enc dec mk run fresh cmd c s tmp in
  o_cmds o <> [] -> o_res o = Err e /\ f_trace (o_fs o) = f_trace s.
Proof. exact @command_fails. Qed.
(** Temporary files: none is left by a construction that succeeds or that runs no
    command; one is left by every other. *)
Theorem C78_temporary : forall (content digest csv : Type) deq md5 enc dec mk run fresh,
  (forall l, ~ In (fresh l) l) -> forall cmd c (s : @fsys content digest (list (str * str)) csv) tmp,
  let o := dat_construct deq md5 enc dec mk run fresh cmd c s tmp in
  match o_res o, o_cmds o with
  | Err _, _ :: _ => exists n ls, o_tmp o = tmp ++ [(n, ls)] /\ ~ In n (map fst tmp)
  | _, _ => o_tmp o = tmp
  end.
Proof. exact @temporaries. Qed.
(** So over a history of constructions exactly the wasted runs leave a file each. *)
Theorem C78_history : forall (content digest csv : Type) deq md5 enc dec mk run fresh,
  (forall l, ~ In (fresh l) l) -> forall cmd cs (s : @fsys content digest (list (str * str)) csv) tmp rs tmp',
  constructions deq md5 enc dec mk run fresh cmd cs s tmp = (rs, tmp') ->
  exists extra, tmp' = tmp ++ extra /\ List.length extra = wasted rs.
Proof. exact @leaks. Qed.

(** A concrete world: a trace file is the report trace-cmd prints for it; an empty
    one makes trace-cmd fail. *)
Definition leq (a b : list str) : bool := if list_eq_dec (list_eq_dec ascii_dec) a b then true else false.
Definition mkf (k : klass) (es : list event) : res frame := create_dataframe 100 generate_data_dict es.
Definition ex_run (cmd : list str) (c : list str) : res (list str) := match c with [] => Err ERuntime | _ => Ok c end.
Definition ex_fresh (l : list str) : str := flat_map (fun n => "x"%char :: n) l ++ $"y".
Notation cs := (constructions leq (fun c => c) (fun f : frame => f) Some mkf ex_run ex_fresh).
Notation cdat := (dat_construct leq (fun c => c) (fun f : frame => f) Some mkf ex_run ex_fresh).
Definition good : list str := [$"cpus=2"; $"a-1 [000] 10.5: alpha: x=1"; $"a-1 [000] 10.75: alpha: x=2"].
Definition cfg (nocache : bool) : config := Cfg [($"alpha", kA)] nocache false (fzero, None) (fzero, None).
Definition brief {A} (r : res (@trace A) * list (list str)) : res nat * nat :=
  (do t <- fst r ;; Ok (match dget eqs $"alpha" (t_frames t) with Some f => List.length f | None => 99%nat end),
   List.length (snd r)).
Lemma fresh_long l n : In n l -> (List.length n < List.length (ex_fresh l))%nat.
Proof.
  unfold ex_fresh. rewrite app_length. change (List.length $"y") with 1%nat. induction l as [|m l IH]; intros [].
  - subst. cbn [flat_map]. rewrite app_length. cbn [List.length]. lia.
  - cbn [flat_map]. rewrite app_length. specialize (IH H). lia.
Qed.
Example C78_ex_fresh : forall l, ~ In (ex_fresh l) l.
Proof. intros l H. apply fresh_long in H. revert H. apply PeanoNat.Nat.lt_irrefl. Qed.
(** Parsed, read from the cache, trace-cmd failing, and parsed again. *)
Example C78_ex_history :
  let h := cs [$"trace-cmd"] [(cfg false, good); (cfg false, good); (cfg false, []); (cfg false, good)] (Fs good None) [] in
  map brief (fst h) = [(Ok 2, 1); (Ok 2, 0); (Err ERuntime, 1); (Ok 2, 1)]%nat /\
  snd h = [($"y", [])] /\ wasted (fst h) = 1%nat.
Proof. split; [vm_compute; reflexivity|split; vm_compute; reflexivity]. Qed.
Definition ex_s : fsys := o_fs (cdat [$"trace-cmd"] (cfg false) (Fs good None) []).
Lemma current_of (s : @fsys (list str) (list str) (list (str * str)) frame) :
  o_cmds (cdat [$"trace-cmd"] (cfg false) s []) = [] ->
  match f_cache s with
  | Some d => match d_meta d with Some (MOk m) => match m_head m with Some _ => True | None => False end | _ => False end
  | None => False end -> Current leq (fun c => c) Some s kA.
Proof.
  intros H B. apply C78_runs in H as [_ [(d & E & H)|H]]; [|apply (H $"alpha"); now left].
  exfalso. rewrite E in B. destruct (d_meta d) as [[m| |]|]; try contradiction.
  destruct H as [H|[H|(m' & H & _ & H')]]; try discriminate. injection H as ->. now rewrite H' in B.
Qed.
Example C78_ex_current : Current leq (fun c => c) Some ex_s kA.
Proof. apply current_of; vm_compute; [reflexivity|exact I]. Qed.
(** The temporary file stays behind when trace-cmd or the parser fails. *)
Theorem C78_leak_refuted :
  (let o := cdat [$"trace-cmd"] (cfg true) (Fs [] None) [] in o_res o = Err ERuntime /\ o_tmp o = [($"y", [])]) /\
  (let o := cdat [$"trace-cmd"] (cfg true) (Fs good None) [] in
   match o_res o with Ok _ => o_tmp o = [] | Err _ => False end) /\
  exists c ls, o_tmp (dat_construct leq (fun c => c) (fun f : frame => f) Some (fun _ _ => Err EValue) ex_run ex_fresh
    [$"trace-cmd"] c (Fs good None) []) = [($"y", ls)] /\ ls <> [].
Proof.
  split; [split; vm_compute; reflexivity|]. split; [vm_compute; reflexivity|].
  exists (cfg true), good. split; [vm_compute; reflexivity|discriminate].
Qed.

(** ** Where the cache is *)
(** Beside the trace file, whatever path leads there. *)
Theorem C78_place : forall cwd p d n, Forall proper cwd -> Leads cwd p d n ->
  cache_path (abs_path cwd) p = abs_path (d ++ [$"." ++ n ++ $".cache"]).
Proof. exact cache_place. Qed.
(** Two paths share a cache exactly when they lead to the same entry. *)
Theorem C78_shared : forall cwd p d n cwd' p' d' n',
  Forall proper cwd -> Leads cwd p d n -> Forall proper cwd' -> Leads cwd' p' d' n' ->
  (cache_path (abs_path cwd) p = cache_path (abs_path cwd') p' <-> d = d' /\ n = n').
Proof. exact cache_shared. Qed.
Theorem C78_table : forall cwd p d n k, Forall proper cwd -> Leads cwd p d n -> ~ In "/"%char (k_pyname k) ->
  csv_path (abs_path cwd) p k = abs_path (d ++ [$"." ++ n ++ $".cache"; k_pyname k ++ $".csv"]).
Proof. exact csv_place. Qed.
Lemma ok_name c : c <> [] -> c <> $"." -> c <> $".." -> existsb (Ascii.eqb "/") c = false -> proper c.
Proof.
  intros A B C D. repeat split; auto. intros H. assert (existsb (Ascii.eqb "/") c = true); [|congruence].
  apply existsb_exists. exists "/"%char. split; auto.
Qed.
Ltac name := apply ok_name; [discriminate|discriminate|discriminate|reflexivity].
Example C78_ex_place : Forall proper [$"home"; $"me"] /\
  Leads [$"home"; $"me"] $"../you/./t//trace.dat" [$"home"; $"you"; $"t"] $"trace.dat" /\
  Leads [$"home"; $"me"] $"/../home/you/t/trace.dat" [$"home"; $"you"; $"t"] $"trace.dat" /\
  cache_path $"/home/me" $"../you/./t//trace.dat" = $"/home/you/t/.trace.dat.cache".
Proof.
  split; [repeat constructor; name|]. split; [|split; [|vm_compute; reflexivity]].
  - split; [name|]. right. exists [$".."; $"you"; $"."; $"t"; []]. split; [reflexivity|]. split.
    + repeat constructor; cbn; intuition discriminate.
    + split; [intros c r [= <- _]; discriminate|].
      apply (Wk_up [$"home"]). apply Wk_down; [name|]. apply Wk_stay; [auto|]. apply Wk_down; [name|]. apply Wk_stay; [auto|]. constructor.
  - split; [name|]. left. exists [$".."; $"home"; $"you"; $"t"]. split; [reflexivity|]. split.
    + repeat constructor; cbn; intuition discriminate.
    + split; [intros (c & r & H & _); discriminate|].
      apply Wk_top. do 3 (apply Wk_down; [name|]). constructor.
Qed.
(** Exactly two slashes at the start are kept, as POSIX allows: another string. *)
Theorem C78_two_slashes_refuted : cache_path $"/home" $"//t/a.dat" <> cache_path $"/home" $"/t/a.dat" /\
  cache_path $"/home" $"///t/a.dat" = cache_path $"/home" $"/t/a.dat".
Proof. split; [vm_compute; discriminate|vm_compute; reflexivity]. Qed.

Print Assumptions C78_raw.
Print Assumptions C78_registered.
Print Assumptions C78_command.
Print Assumptions C78_dash_refuted.
Print Assumptions C78_runs.
Print Assumptions C78_same.
Print Assumptions C78_fails.
Print Assumptions C78_temporary.
Print Assumptions C78_history.
Print Assumptions C78_leak_refuted.
Print Assumptions C78_place.
Print Assumptions C78_shared.
Print Assumptions C78_table.
Print Assumptions C78_two_slashes_refuted.
