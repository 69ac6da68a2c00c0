(** Properties C20-C23: the on-disk cache (trappy/ftrace.py). *)
From Coq Require Import List Ascii String ZArith NArith Bool.
From Verif Require Import Lib.PyStr Lib.F64 Model.Base Model.Line Model.Registry Model.Populate Model.Window Model.Cache
  Spec.Trace Spec.History Proofs.CacheP Proofs.CacheQ.
Import ListNotations.
Local Open Scope list_scope.

(** A concrete file system: the digest is the content itself and tables are kept
    as they are. *)
Definition leq (a b : list str) : bool := if list_eq_dec (list_eq_dec ascii_dec) a b then true else false.
Definition mkf (k : klass) (es : list event) : res frame := create_dataframe 100 generate_data_dict es.
Notation cconstruct := (construct leq (fun c => c) (fun c => c) (fun c : list str => List.length c) (fun f : frame => f) Some mkf).
Notation cparse := (do_parse leq (fun c => c) (fun c => c) (fun c : list str => List.length c) (fun f : frame => f) Some mkf).
Notation cReach := (Reach leq (fun c => c) (fun c => c) (fun c : list str => List.length c) (fun f : frame => f) Some mkf).
Definition kA : klass := Kls 1 $"alpha:" (Some $"alpha") $"Alpha" false.
Definition kB : klass := Kls 2 $"beta:" (Some $"beta") $"Beta" false.
Definition kA2 : klass := Kls 3 $"alpha2:" (Some $"alpha2") $"Alpha" false.
Definition c1 : list str := [$"a-1 [000] 10.5: alpha: x=1"; $"a-1 [000] 10.75: beta: y=2"; $"a-1 [000] 11.0: alpha: x=3"].
Definition c2 : list str := [$"a-1 [000] 20.5: beta: y=7"].
(** A payload that mentions the other event's word. *)
Definition c3 : list str := [$"a-1 [000] 10.5: alpha: x=beta:"; $"a-1 [000] 10.75: beta: y=2"].
(** Two events whose classes share a Python name. *)
Definition c4 : list str := [$"a-1 [000] 10.5: alpha: x=1"; $"a-1 [000] 10.75: alpha2: y=2"; $"a-1 [000] 10.8: alpha2: y=2"].
Definition cfg (defs : classes) : config := Cfg defs false false (fzero, None) (fzero, None).
Definition exK (k : klass) : Prop := k = kA \/ k = kB.
Definition exT (c : list str) : Prop := c = c1 \/ c = c2.
(** The number of rows of each frame. *)
Definition rows {header} (r : res (@trace header)) : res (list (str * nat)) :=
  do t <- r ;; Ok (map (fun x => (fst x, List.length (snd x))) (t_frames t)).

(** ** C20 *)
(** With the cache disabled the directory is irrelevant and left alone. *)
Theorem C20_disabled : forall (content digest header csv : Type) deq md5 body head enc dec mk cf
  (s : @fsys content digest header csv) d,
  fst (construct deq md5 body head enc dec mk (uncached cf) s) =
  fst (construct deq md5 body head enc dec mk (uncached cf) (Fs (f_trace s) d)) /\
  snd (construct deq md5 body head enc dec mk (uncached cf) s) = s.
Proof. exact @disabled. Qed.
(** Over every history, a construction returns what it returns with the cache disabled. *)
Theorem C20_transparent : forall (content digest header csv : Type) deq md5 body head enc dec mk
    (K : klass -> Prop) (T : content -> Prop),
  digest_faithful deq md5 T -> unambiguous body K T -> names_unique K -> tables_faithful body enc dec mk K T ->
  (forall k f, K k -> mk k [] = Ok f -> f = []) ->
  forall (s : @fsys content digest header csv) cf,
  Reach deq md5 body head enc dec mk K T false s -> selection K (c_defs cf) ->
  fst (construct deq md5 body head enc dec mk cf s) = fst (construct deq md5 body head enc dec mk (uncached cf) s).
Proof.
  intros content digest header csv deq md5 body head enc dec mk K T [Hd Hm] Ha Hn Ht He s cf.
  now apply transparent.
Qed.
Lemma ex_selection defs : defs = [($"alpha", kA)] \/ defs = [($"alpha", kA); ($"beta", kB)] -> selection exK defs.
Proof.
  intros [->| ->]; unfold selection; cbn; (split; [discriminate|]); repeat split; repeat constructor; cbn;
    unfold exK; auto; intros H; destruct H as [H|H]; try discriminate; destruct H.
Qed.
Example C20_ex_hyp : digest_faithful leq (fun c => c) exT /\ unambiguous (fun c => c) exK exT /\ names_unique exK /\
  tables_faithful (fun c => c) (fun f : frame => f) Some mkf exK exT /\ (forall k f, exK k -> mkf k [] = Ok f -> f = []).
Proof.
  split; [|split; [|split; [|split]]].
  - split; auto. intros a b. unfold leq. destruct (list_eq_dec (list_eq_dec ascii_dec) a b); split; congruence.
  - intros c line k1 k2 [->| ->] Hl [->| ->] [->| ->]; auto; cbn in Hl;
      repeat (destruct Hl as [<-|Hl]; [vm_compute; congruence|]); destruct Hl.
  - intros k1 k2 [->| ->] [->| ->]; auto; discriminate.
  - intros k c es f f' _ _ _ _ H. congruence.
  - intros k f _ [= <-]. reflexivity.
Qed.
(** Constructing for one event, then for two, then editing the file. *)
Definition ex_s1 := snd (cconstruct (cfg [($"alpha", kA)]) (Fs c1 None)).
Definition ex_s2 := snd (cconstruct (cfg [($"alpha", kA); ($"beta", kB)]) ex_s1).
Example C20_ex : cReach exK exT false (Fs c2 (f_cache ex_s2)) /\
  rows (fst (cconstruct (cfg [($"alpha", kA); ($"beta", kB)]) ex_s1)) = Ok [($"alpha", 2); ($"beta", 1)] /\
  match f_cache ex_s2 with Some d => map fst (d_tables d) = [$"Alpha"; $"Beta"] | None => False end /\
  rows (fst (cconstruct (cfg [($"alpha", kA); ($"beta", kB)]) (Fs c2 (f_cache ex_s2)))) = Ok [($"alpha", 0); ($"beta", 1)].
Proof.
  split; [|vm_compute; auto].
  assert (H1 : cReach exK exT false ex_s1).
  { unfold ex_s1. apply R_construct; [|apply ex_selection; now left]. apply R_start. now left. }
  assert (H2 : cReach exK exT false ex_s2).
  { unfold ex_s2. revert H1. generalize ex_s1. intros s H1. apply R_construct; [exact H1|apply ex_selection; now right]. }
  revert H2. generalize ex_s2. intros s H2. apply (R_edit _ _ _ _ _ _ _ _ _ _ s); [exact H2|now right].
Qed.
(** With no class selected the trace is not parsed at all: no base time. *)
Definition base_of {header} (r : res (@trace header)) : bool := match r with Ok t => ftruthy (t_base t) | Err _ => false end.
Theorem C20_no_classes_refuted : exists s, s = Fs c1 None /\
  base_of (fst (cconstruct (cfg []) s)) = false /\ base_of (fst (cconstruct (uncached (cfg [])) s)) = true.
Proof. eexists. split; [reflexivity|]. vm_compute. auto. Qed.
(** Two classes of the same Python name share a table. *)
Theorem C20_same_name_refuted : let s := snd (cconstruct (cfg [($"alpha", kA)]) (Fs c4 None)) in
  rows (fst (cconstruct (cfg [($"alpha2", kA2)]) s)) = Ok [($"alpha2", 1)] /\
  rows (fst (cconstruct (uncached (cfg [($"alpha2", kA2)])) s)) = Ok [($"alpha2", 2)].
Proof. vm_compute. auto. Qed.

(** ** C21 *)
(** Whatever the directory holds: if its metadata is for another digest (or lacks
    a key), the trace is parsed as if there were no cache. *)
Theorem C21_fresh : forall (content digest header csv : Type) deq md5 body head enc dec mk cf
  (s : @fsys content digest header csv), c_defs cf <> [] -> stale deq md5 s ->
  fst (construct deq md5 body head enc dec mk cf s) = fst (construct deq md5 body head enc dec mk (uncached cf) s).
Proof. exact @stale_fresh. Qed.
(** And nothing of it is left: no directory if parsing fails, else metadata of the
    new content and exactly the tables of the selected classes. *)
Theorem C21_replaced : forall (content digest header csv : Type) deq md5 body head enc dec mk cf
  (s : @fsys content digest header csv), c_defs cf <> [] -> stale deq md5 s -> c_nocache cf = false ->
  let r := construct deq md5 body head enc dec mk cf s in
  f_trace (snd r) = f_trace s /\
  match fst r with
  | Err _ => f_cache (snd r) = None
  | Ok tr => exists d, f_cache (snd r) = Some d /\
      d_meta d = Some (MOk (Meta (md5 (f_trace s)) (t_base tr) (t_end tr) (Some (head (f_trace s))))) /\
      (forall n t, In (n, t) (d_tables d) -> exists attr k ws st f, In (attr, k) (c_defs cf) /\ n = k_pyname k /\
         word_table (fun _ => false) [] (c_defs cf) = Ok ws /\ populate ws fzero (body (f_trace s)) = Ok st /\
         mk k (arr attr st) = Ok f /\ t = enc f) /\
      (forall attr k, In (attr, k) (c_defs cf) -> In (k_pyname k) (map fst (d_tables d)))
  end.
Proof. exact @stale_replaced. Qed.
Definition is_stale (c : list str) (o : option (@cdir (list str) nat frame)) : bool :=
  match o with Some (CDir (Some (MOk m)) _) => negb (leq (m_md5 m) c) | _ => false end.
Lemma is_stale_ok c o : is_stale c o = true -> stale leq (fun c => c) (Fs c o).
Proof.
  destruct o as [[[[m| |]|] tb]|]; try discriminate. cbn. intros H. eexists. split; [reflexivity|]. right. exists m. split; auto.
  cbn. now destruct (leq (m_md5 m) c).
Qed.
Example C21_ex : stale leq (fun c => c) (Fs c2 (f_cache ex_s2)) /\
  rows (fst (cconstruct (cfg [($"alpha", kA)]) (Fs c2 (f_cache ex_s2)))) = Ok [($"alpha", 0)] /\
  match f_cache (snd (cconstruct (cfg [($"alpha", kA)]) (Fs c2 (f_cache ex_s2)))) with
  | Some d => d_tables d = [($"Alpha", [])] | None => False end.
Proof.
  split; [|vm_compute; auto].
  assert (C : is_stale c2 (f_cache ex_s2) = true) by (vm_compute; reflexivity).
  revert C. generalize (f_cache ex_s2). intros o C. now apply is_stale_ok.
Qed.

(** ** C22 *)
(** Constructions may die between any two file system steps.  Later ones fail
    exactly when the directory is there without complete metadata; the others
    return what they return with the cache disabled. *)
Theorem C22_crashes : forall (content digest header csv : Type) deq md5 body head enc dec mk
    (K : klass -> Prop) (T : content -> Prop),
  digest_faithful deq md5 T -> unambiguous body K T -> names_unique K -> tables_faithful body enc dec mk K T ->
  (forall k f, K k -> mk k [] = Ok f -> f = []) ->
  forall (s : @fsys content digest header csv) cf,
  Reach deq md5 body head enc dec mk K T true s -> selection K (c_defs cf) -> c_nocache cf = false ->
  (match f_cache s with Some d => match d_meta d with Some (MOk _) => False | _ => True end | None => False end ->
     exists e, fst (construct deq md5 body head enc dec mk cf s) = Err e /\ (e = EIO \/ e = EJson)) /\
  (match f_cache s with Some d => exists m, d_meta d = Some (MOk m) | None => True end ->
     fst (construct deq md5 body head enc dec mk cf s) = fst (construct deq md5 body head enc dec mk (uncached cf) s)).
Proof.
  intros content digest header csv deq md5 body head enc dec mk K T [Hd Hm] Ha Hn Ht He s cf.
  now apply after_crashes.
Qed.
Lemma stopped {content digest header csv} n : forall (s : @fsys content digest header csv) os, interrupted os s (exec s (firstn n os)).
Proof.
  induction n as [|n IH]; intros s os; [constructor|]. destruct os as [|o os]; [constructor|]. cbn [firstn]. apply int_step. apply IH.
Qed.
(** Crash points: after creating the directory; after creating the metadata
    file; after the metadata (a usable cache without tables). *)
Example C22_ex : forall n, let s := exec (Fs c1 None) (firstn n (snd (cparse (cfg [($"alpha", kA)]) (Fs c1 None)))) in
  cReach exK exT true s.
Proof.
  intros n. apply (R_crash _ _ _ _ _ _ _ _ _ _ (Fs c1 None) (cfg [($"alpha", kA)]));
    [reflexivity|apply R_start; now left|apply ex_selection; now left|apply stopped].
Qed.
Example C22_ex_points : let s n := exec (Fs c1 None) (firstn n (snd (cparse (cfg [($"alpha", kA)]) (Fs c1 None)))) in
  map (fun n => rows (fst (cconstruct (cfg [($"alpha", kA)]) (s n)))) [0; 1; 2; 3; 4] =
  [Ok [($"alpha", 2)]; Err EIO; Err EJson; Ok [($"alpha", 2)]; Ok [($"alpha", 2)]].
Proof. vm_compute. reflexivity. Qed.
(** A table cut short (dying inside [to_csv]) is taken as it is. *)
Theorem C22_cut_table_refuted : let s := Fs c1 (option_map (fun d => CDir (d_meta d) (map (fun t => (fst t, firstn 1 (snd t))) (d_tables d))) (f_cache ex_s1)) in
  rows (fst (cconstruct (cfg [($"alpha", kA)]) s)) = Ok [($"alpha", 1)] /\
  rows (fst (cconstruct (uncached (cfg [($"alpha", kA)])) s)) = Ok [($"alpha", 2)].
Proof. vm_compute. auto. Qed.
(** A valid cache written by a trace class that stores no "ftrace" entry makes
    [FTrace] fail. *)
Theorem C22_foreign_refuted : forall base end_ tables,
  fst (cconstruct (cfg [($"alpha", kA)]) (Fs c1 (Some (CDir (Some (MOk (Meta c1 base end_ None))) tables)))) = Err EKey.
Proof. intros. vm_compute. reflexivity. Qed.

(** ** C23 *)
(** With a valid cache: the frames of the cached classes are the cached ones, and
    every other class gets the lines dispatched to it among the uncached classes
    only. *)
Theorem C23_dispatch : forall (content digest header csv : Type) deq md5 body head enc dec mk cf
  (s : @fsys content digest header csv) m d rm tr os,
  c_nocache cf = false -> load deq md5 s = Ok (Some (m, d), rm) ->
  NoDup (map fst (c_defs cf)) -> NoDup (map (fun e => k_word (snd e)) (c_defs cf)) ->
  do_parse deq md5 body head enc dec mk cf s = (Ok tr, os) ->
  exists fs us w, t_frames tr = finish cf (t_base tr) w fs /\ map fst fs = map fst (c_defs cf) /\
    Assigned fzero (map (fun p => f_time (snd p)) (parsed 0 (body (f_trace s)))) us /\
    Forall2 (fun e x => match cached_frame dec (Some (m, d)) (snd e) with
      | Some f => snd x = f
      | None => exists es, mk (snd e) es = Ok (snd x) /\
          Recorded (map (fun e => (k_word (snd e), e)) (filter (fun e => negb (is_cached dec (Some (m, d)) (snd e))) (c_defs cf)))
            (fst e) (parsed 0 (body (f_trace s))) us es
      end) (c_defs cf) fs.
Proof. exact @partial_dispatch. Qed.
(** So a line of a cached class that mentions another class's word is recorded
    again for that class. *)
Theorem C23_ambiguous_refuted : let s := snd (cconstruct (cfg [($"alpha", kA)]) (Fs c3 None)) in
  let cf := cfg [($"alpha", kA); ($"beta", kB)] in
  rows (fst (cconstruct cf s)) = Ok [($"alpha", 1); ($"beta", 2)] /\
  rows (fst (cconstruct (uncached cf) s)) = Ok [($"alpha", 1); ($"beta", 1)].
Proof. vm_compute. auto. Qed.
Example C23_ex : match load leq (fun c => c) ex_s1 with
  | Ok (Some (m, d), _) => is_cached Some (Some (m, d)) kA = true /\ is_cached Some (Some (m, d)) kB = false
  | _ => False end.
Proof. vm_compute. auto. Qed.

Print Assumptions C20_disabled.
Print Assumptions C20_transparent.
Print Assumptions C20_no_classes_refuted.
Print Assumptions C20_same_name_refuted.
Print Assumptions C21_fresh.
Print Assumptions C21_replaced.
Print Assumptions C22_crashes.
Print Assumptions C22_cut_table_refuted.
Print Assumptions C22_foreign_refuted.
Print Assumptions C23_dispatch.
Print Assumptions C23_ambiguous_refuted.
