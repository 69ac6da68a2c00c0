(** Specification of trace-cmd's arguments, of paths and of temporary files. *)
From Coq Require Import List Ascii String ZArith NArith Bool.
From Verif Require Import Lib.PyStr Model.Base Model.Registry Model.Cache.
Import ListNotations.
Local Open Scope list_scope.

(** How a program with the flag -t and the option -r reads its arguments: whether
    the flag is given, the values of -r and the other arguments.  Words starting
    with a dash (except a dash alone) are never file names. *)
Definition dashed (w : str) : Prop := exists c r, w = "-"%char :: c :: r.
Inductive Args : list str -> bool -> list str -> list str -> Prop :=
| Ar_nil : Args [] false [] []
| Ar_flag r t rs fs : Args r t rs fs -> Args ($"-t" :: r) true rs fs
| Ar_raw e r t rs fs : Args r t rs fs -> Args ($"-r" :: e :: r) t (e :: rs) fs
| Ar_file f r t rs fs : ~ dashed f -> Args r t rs fs -> Args (f :: r) t rs (f :: fs).
(** "trace-cmd report" with these arguments. *)
Definition Report (cmd : list str) (t : bool) (rs fs : list str) : Prop :=
  exists args, cmd = $"trace-cmd" :: $"report" :: args /\ Args args t rs fs.

(** Some registered class called [e] wants its events unformatted. *)
Definition Wanted (raw : klass -> bool) (r : registry) (e : str) : Prop :=
  exists n k, (In (n, k) (r_thermal r) \/ In (n, k) (r_sched r) \/ In (n, k) (r_dynamic r)) /\
    raw k = true /\ k_name k = Some e /\ e <> [].

(** ** Paths *)
(** A name of a file or directory. *)
Definition proper (c : str) : Prop := c <> [] /\ c <> $"." /\ c <> $".." /\ ~ In "/"%char c.
(** Following components from a directory, given by the names below the root. *)
Inductive Walk : list str -> list str -> list str -> Prop :=
| Wk_end d : Walk d [] d
| Wk_stay d c r e : c = [] \/ c = $"." -> Walk d r e -> Walk d (c :: r) e
| Wk_up d x r e : Walk d r e -> Walk (d ++ [x]) ($".." :: r) e
| Wk_top r e : Walk [] r e -> Walk [] ($".." :: r) e
| Wk_down d c r e : proper c -> Walk (d ++ [c]) r e -> Walk d (c :: r) e.
(** [Leads cwd p d n]: path [p], seen from the directory [cwd], is the entry [n]
    of directory [d], and ends in that name. *)
Definition Leads (cwd : list str) (p : str) (d : list str) (n : str) : Prop :=
  proper n /\
  ((exists comps, p = join $"/" ([] :: comps ++ [n]) /\ Forall (fun c => ~ In "/"%char c) comps /\
      ~ (exists c r, comps ++ [n] = [] :: c :: r /\ c <> []) /\ Walk [] comps d) \/
   (exists comps, p = join $"/" (comps ++ [n]) /\ Forall (fun c => ~ In "/"%char c) comps /\
      (forall c r, comps = c :: r -> c <> []) /\ Walk cwd comps d)).
(** The path of a directory or file from the root. *)
Definition abs_path (d : list str) : str := $"/" ++ join $"/" d.

(** ** Caches *)
Section Current.
  Context {content digest csv : Type}.
  Variables (deq : digest -> digest -> bool) (md5 : content -> digest) (dec : csv -> option frame).
  (** The cache holds a readable table for class [k], taken from the trace as it is now. *)
  Definition Current (s : @fsys content digest (list (str * str)) csv) (k : klass) : Prop :=
    exists d m h t f, f_cache s = Some d /\ d_meta d = Some (MOk m) /\ deq (m_md5 m) (md5 (f_trace s)) = true /\
      m_head m = Some h /\ dget eqs (k_pyname k) (d_tables d) = Some t /\ dec t = Some f.
  (** There is a cache directory whose metadata cannot be used: no file, not JSON,
      or of this very trace but written by another kind of trace. *)
  Definition Broken (s : @fsys content digest (list (str * str)) csv) : Prop :=
    exists d, f_cache s = Some d /\
      (d_meta d = None \/ d_meta d = Some MBad \/
       exists m, d_meta d = Some (MOk m) /\ deq (m_md5 m) (md5 (f_trace s)) = true /\ m_head m = None).
End Current.
(** How many of the constructions called a command and ended in an exception. *)
Fixpoint wasted {A} (rs : list (res A * list (list str))) : nat :=
  match rs with
  | [] => 0
  | (Err _, _ :: _) :: r => S (wasted r)
  | _ :: r => wasted r
  end.
