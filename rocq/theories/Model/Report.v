(** Model of reading a binary trace through trace-cmd and of the place of the
    cache (trappy/ftrace.py). *)
From Coq Require Import List Ascii String ZArith NArith Bool.
From Verif Require Import Lib.PyStr Lib.F64 Model.Base Model.Line Model.Registry Model.Populate Model.Window
  Model.Cache Model.Files.
Import ListNotations.
Local Open Scope list_scope.

(** ftrace.py:914-923 [__get_raw_event_list].  [raw] is the truth value of the class
    attribute [parse_raw], false if there is none; a missing or empty name is skipped. *)
Definition raw_names (raw : klass -> bool) (cs : classes) : list str :=
  flat_map (fun e => if raw (snd e)
                     then match k_name (snd e) with Some (c :: n) => [c :: n] | _ => [] end
                     else []) cs.
Definition raw_events (raw : klass -> bool) (r : registry) : list str :=
  flat_map (raw_names raw) [r_thermal r; r_sched r; r_dynamic r].

(** ftrace.py:889, 894-899: the command line. *)
Definition report_cmd (raws : list str) (dat : str) : list str :=
  [$"trace-cmd"; $"report"; $"-t"] ++ flat_map (fun e => [$"-r"; e]) raws ++ [dat].

(** ** Places of the cache (ftrace.py:191-200) *)
(** [os.path.normpath] of posixpath: the loop over the components. *)
Fixpoint norm_comps (rooted : bool) (acc : list str) (comps : list str) : list str :=
  match comps with
  | [] => rev acc
  | c :: rest =>
      if eqs c [] || eqs c $"." then norm_comps rooted acc rest
      else if negb (eqs c $"..") || (negb rooted && match acc with [] => true | _ => false end)
              || match acc with d :: _ => eqs d $".." | [] => false end
           then norm_comps rooted (c :: acc) rest
           else norm_comps rooted (tl acc) rest
  end.
Definition initial_slashes (p : str) : str :=
  if is_prefix $"/" p then (if is_prefix $"//" p && negb (is_prefix $"///" p) then $"//" else $"/") else [].
Definition normpath (p : str) : str :=
  match p with
  | [] => $"."
  | _ =>
      let root := initial_slashes p in
      let body := join $"/" (norm_comps (match root with [] => false | _ => true end) [] (split_ch "/" p)) in
      match root ++ body with [] => $"." | q => q end
  end.
(** [os.path.join(a, b)] of posixpath. *)
Definition path_join (a b : str) : str :=
  if is_prefix $"/" b then b
  else match a with [] => b | _ => if is_suffix $"/" a then a ++ b else a ++ $"/" ++ b end.
(** [os.path.abspath] with the current directory. *)
Definition abspath (cwd p : str) : str :=
  normpath (if is_prefix $"/" p then p else path_join cwd p).
(** [os.path.basename] and [os.path.dirname] of posixpath. *)
Definition basename (p : str) : str := match rsplit "/" p with Some (_, b) => b | None => p end.
(** Strip the slashes at the end unless there is nothing else. *)
Definition rstrip_slash (s : str) : str := rev (drop_while (is_ch "/") (rev s)).
Definition dirname (p : str) : str :=
  match rsplit "/" p with
  | Some (a, _) => let h := a ++ $"/" in match rstrip_slash h with [] => h | q => q end
  | None => []
  end.
(** ftrace.py:191-196 [_trace_cache_path] *)
Definition cache_path (cwd trace : str) : str :=
  path_join (dirname (abspath cwd trace)) ($"." ++ basename trace ++ $".cache").
(** ftrace.py:198-200 [_get_csv_path] *)
Definition csv_path (cwd trace : str) (k : klass) : str :=
  path_join (cache_path cwd trace) (k_pyname k ++ $".csv").

(** ** Reading a .dat file *)
Section Dat.
  Context {content digest csv : Type}.
  (** The digest and the tables as in Cache.v; [run] is the outcome of running a
      command: its output as lines, an OSError (for instance: not found) or a
      failing exit code; [fresh] is the name NamedTemporaryFile chooses. *)
  Variables (deq : digest -> digest -> bool) (md5 : content -> digest)
            (enc : frame -> csv) (dec : csv -> option frame)
            (mk : klass -> list event -> res frame)
            (run : list str -> content -> res (list str))
            (fresh : list str -> str).
  Local Notation header := (list (str * str)).
  (** _do_parse on the lines of a report. *)
  Definition parse_lines (lines : list str) (c : config) (s : @fsys content digest header csv) :=
    do_parse deq md5 (fun _ => ftrace_body lines) (fun _ => trace_metadata lines) enc dec mk c s.

  (** ftrace.py:316-324: whether [_parsing_setup] is reached. *)
  Definition reaches_setup (c : config) (s : @fsys content digest header csv) : bool :=
    match (if c_nocache c then Ok (None, []) else load deq md5 s) with
    | Err _ => false
    | Ok (l, _) => negb (negb (c_nocache c) && forallb (fun d => is_cached dec l (snd d)) (c_defs c))
    end.
  (** The steps taken before it (removal of a stale cache). *)
  Definition setup_ops (c : config) (s : @fsys content digest header csv) : list op :=
    match (if c_nocache c then Ok (None, []) else load deq md5 s) with
    | Err _ => []
    | Ok (_, rm) => rm
    end.

  (** The outcome of a construction: the trace, the file system around the trace
      file, the temporary files with their lines, and the commands run. *)
  Record outcome := Out {
    o_res : res (@trace header); o_fs : @fsys content digest header csv;
    o_tmp : list (str * list str); o_cmds : list (list str) }.
  (** ftrace.py:315-335, 811-828, 876-912 for a trace read from a .dat file that
      exists.  The temporary file is made before the command is run and removed
      only at the end of [_do_parse]. *)
  Definition dat_construct (cmd : list str) (c : config) (s : fsys) (tmp : list (str * list str)) : outcome :=
    if reaches_setup c s then
      let name := fresh (map fst tmp) in
      match run cmd (f_trace s) with
      | Err e => Out (Err e) (exec s (setup_ops c s)) (tmp ++ [(name, [])]) [cmd]
      | Ok lines =>
          let (r, os) := parse_lines lines c s in
          Out r (exec s os)
              (match r with
               | Ok _ => ddel eqs name (tmp ++ [(name, lines)])
               | Err _ => tmp ++ [(name, lines)]
               end) [cmd]
      end
    else
      let (r, os) := parse_lines [] c s in Out r (exec s os) tmp [].
  (** The same for a text file. *)
  Definition txt_construct (lines : content -> list str) (c : config) (s : fsys) (tmp : list (str * list str)) : outcome :=
    let (r, os) := parse_lines (lines (f_trace s)) c s in Out r (exec s os) tmp [].

  (** A history of constructions: which classes and parameters, and the trace file
      found (it may be replaced between constructions; its cache stays). *)
  Fixpoint constructions (cmd : list str) (cs : list (config * content)) (s : fsys) (tmp : list (str * list str))
    : list (res (@trace header) * list (list str)) * list (str * list str) :=
    match cs with
    | [] => ([], tmp)
    | (c, t) :: rest =>
        let o := dat_construct cmd c (Fs t (f_cache s)) tmp in
        let '(rs, tmp') := constructions cmd rest (o_fs o) (o_tmp o) in
        ((o_res o, o_cmds o) :: rs, tmp')
    end.
End Dat.
