(** Histories of trace constructions over one trace file. *)
From Coq Require Import List Ascii String ZArith NArith Bool.
From Verif Require Import Lib.PyStr Lib.F64 Model.Base Model.Line Model.Registry Model.Populate Model.Window Model.Cache Spec.Trace.
Import ListNotations.

Section History.
  Context {content digest header csv : Type}.
  Variables (deq : digest -> digest -> bool) (md5 : content -> digest)
            (body : content -> list str) (head : content -> header)
            (enc : frame -> csv) (dec : csv -> option frame)
            (mk : klass -> list event -> res frame).
  Notation fsys := (@fsys content digest header csv).
  Notation cdir := (@cdir digest header csv).
  Notation op := (@op digest header csv).

  (** A directory that lost some of its files. *)
  Definition partly_removed (d d' : cdir) : Prop :=
    (d_meta d' = d_meta d \/ d_meta d' = None) /\ NoDup (map fst (d_tables d')) /\
    (forall n t, In (n, t) (d_tables d') -> In (n, t) (d_tables d)).
  (** The file system when the process dies somewhere in a sequence of steps:
      between two steps, or in the middle of removing a directory. *)
  Inductive interrupted : list op -> fsys -> fsys -> Prop :=
  | int_stop os s : interrupted os s s
  | int_step o os s s' : interrupted os (exec1 s o) s' -> interrupted (o :: os) s s'
  | int_rm os s d d' : f_cache s = Some d -> partly_removed d d' ->
      interrupted (ORmTree :: os) s (Fs (f_trace s) (Some d')).

  (** The classes [K] and trace contents [T] a history uses. *)
  Variables (K : klass -> Prop) (T : content -> Prop).
  (** A selection the constructor accepts: at least one class, different
      attributes, different unique words. *)
  Definition selection (defs : classes) : Prop :=
    defs <> [] /\ NoDup (map fst defs) /\ NoDup (map (fun d => k_word (snd d)) defs) /\
    Forall (fun d => K (snd d)) defs.
  (** File systems reachable from one without a cache, by constructing traces
      (successfully or not), replacing the trace file, and, if [crashes], dying
      while the cache is written. *)
  Inductive Reach (crashes : bool) : fsys -> Prop :=
  | R_start c : T c -> Reach crashes (Fs c None)
  | R_construct s cf : Reach crashes s -> selection (c_defs cf) ->
      Reach crashes (snd (construct deq md5 body head enc dec mk cf s))
  | R_edit s c : Reach crashes s -> T c -> Reach crashes (Fs c (f_cache s))
  | R_crash s cf s' : crashes = true -> Reach crashes s -> selection (c_defs cf) ->
      interrupted (snd (do_parse deq md5 body head enc dec mk cf s)) s s' -> Reach crashes s'.

  (** No line contains the unique words of two different classes. *)
  Definition unambiguous : Prop := forall c line k1 k2, T c -> In line (body c) -> K k1 -> K k2 ->
    contains (k_word k1) line = true -> contains (k_word k2) line = true -> k1 = k2.
  (** Classes written to the same file are the same class. *)
  Definition names_unique : Prop := forall k1 k2, K k1 -> K k2 -> k_pyname k1 = k_pyname k2 -> k1 = k2.
  (** Equal digests mean equal traces. *)
  Definition digest_faithful : Prop := (forall a b, deq a b = true <-> a = b) /\
    forall c1 c2, T c1 -> T c2 -> md5 c1 = md5 c2 -> c1 = c2.
  (** The events of class [k] in a trace with no other class. *)
  Definition EventsOf (k : klass) (c : content) (es : list event) : Prop :=
    exists us, Assigned fzero (map (fun x => f_time (snd x)) (parsed 0 (body c))) us /\
      Recorded [(k_word k, ([], k))] [] (parsed 0 (body c)) us es.
  (** Whatever is read back from the table of a frame of these traces is that frame (a
      table that cannot be read is parsed again). *)
  Definition tables_faithful : Prop := forall k c es f f', K k -> T c -> EventsOf k c es ->
    mk k es = Ok f -> dec (enc f) = Some f' -> f' = f.
  (** The cache was written for other contents, or its metadata lacks a key. *)
  Definition stale (s : fsys) : Prop := exists d, f_cache s = Some d /\
    (d_meta d = Some MKeys \/ exists m, d_meta d = Some (MOk m) /\ deq (m_md5 m) (md5 (f_trace s)) = false).
  (** The same constructor call with [disable_cache]. *)
  Definition uncached (cf : config) : config := Cfg (c_defs cf) true (c_norm cf) (c_win cf) (c_abs cf).
End History.
