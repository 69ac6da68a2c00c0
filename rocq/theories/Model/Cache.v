(** Model of trace construction with the on-disk cache (trappy/ftrace.py). *)
From Coq Require Import List Ascii String ZArith NArith Bool.
From Verif Require Import Lib.PyStr Lib.F64 Model.Base Model.Line Model.Registry Model.Populate Model.Window.
Import ListNotations.

Section Cache.
  (** What the cache code depends on and does not look into: the trace file's
      bytes, their digest (hashlib.md5), the lines of the trace proper and the
      header metadata read from them, the text of a cached table with its writer
      and reader (base.py:313-334), and how a class turns its recorded events
      into a frame (base.py:289-311 and the class's [finalize_object]). *)
  Context {content digest header csv : Type}.
  Variables (deq : digest -> digest -> bool) (md5 : content -> digest)
            (body : content -> list str) (head : content -> header)
            (enc : frame -> csv) (dec : csv -> option frame)
            (mk : klass -> list event -> res frame).

  (** ftrace.py:262-272, 833-837: contents of metadata.json.  [m_head] is the
      "ftrace" entry, absent when another kind of trace wrote the file. *)
  Record meta := Meta { m_md5 : digest; m_base : float; m_end : float; m_head : option header }.
  (** metadata.json as read back: a dictionary with the three required keys, a
      dictionary without them, or not JSON at all (e.g. an empty file). *)
  Inductive mfile := MOk (m : meta) | MKeys | MBad.
  (** The cache directory and the file system around one trace. *)
  Record cdir := CDir { d_meta : option mfile; d_tables : list (str * csv) }.
  Record fsys := Fs { f_trace : content; f_cache : option cdir }.

  (** File system steps of the cache code. *)
  Inductive op :=
  | ORmTree                          (* shutil.rmtree *)
  | OMkDir                           (* os.mkdir *)
  | OOpenMeta                        (* open(metadata_path, 'w'): empty file *)
  | OWriteMeta (m : meta)            (* json.dump *)
  | OTable (name : str) (c : csv).   (* to_csv *)
  Definition on_dir (s : fsys) (f : cdir -> cdir) : fsys :=
    Fs (f_trace s) (option_map f (f_cache s)).
  Definition exec1 (s : fsys) (o : op) : fsys :=
    match o with
    | ORmTree => Fs (f_trace s) None
    | OMkDir => Fs (f_trace s) (Some (CDir None []))
    | OOpenMeta => on_dir s (fun d => CDir (Some MBad) (d_tables d))
    | OWriteMeta m => on_dir s (fun d => CDir (Some (MOk m)) (d_tables d))
    | OTable n c => on_dir s (fun d => CDir (d_meta d) (dset eqs n c (d_tables d)))
    end.
  Definition exec (s : fsys) (os : list op) : fsys := fold_left exec1 os s.

  (** Constructor arguments: the selected classes, [disable_cache], and the
      parameters applied at the end. *)
  Record config := Cfg {
    c_defs : classes; c_nocache : bool; c_norm : bool; c_win : window; c_abs : window }.
  (** The constructed trace: frames by attribute, base and end time, header metadata (never
      set when nothing was parsed or loaded). *)
  Record trace := Tr {
    t_frames : list (str * frame); t_base : float; t_end : float; t_head : option header }.

  (** ftrace.py:274-286 [_load_cache] up to the tables: nothing cached, or the
      valid metadata and the directory; with the steps it takes. *)
  Definition load (s : fsys) : res (option (meta * cdir) * list op) :=
    match f_cache s with
    | None => Ok (None, [])
    | Some d =>
        match d_meta d with
        | None => Err EIO
        | Some MBad => Err EJson
        | Some MKeys => Ok (None, [ORmTree])
        | Some (MOk m) =>
            if deq (m_md5 m) (md5 (f_trace s)) then
              match m_head m with
              | None => Err EKey                 (* 830: metadata["ftrace"] *)
              | Some _ => Ok (Some (m, d), [])
              end
            else Ok (None, [ORmTree])
        end
    end.
  (** ftrace.py:198-200, 288-297: the cached frame of a class, if it can be read. *)
  Definition cached_frame (l : option (meta * cdir)) (k : klass) : option frame :=
    match l with
    | None => None
    | Some (_, d) => match dget eqs (k_pyname k) (d_tables d) with Some c => dec c | None => None end
    end.
  Definition is_cached (l : option (meta * cdir)) (k : klass) : bool :=
    match cached_frame l k with Some _ => true | None => false end.

  (** ftrace.py:306-313 [_apply_user_parameters] on the named frames. *)
  Definition finish (c : config) (base : float) (w : window) (fs : list (str * frame)) : list (str * frame) :=
    combine (map fst fs) (apply_user (c_norm c) base w (map snd fs)).

  (** ftrace.py:236-260 [_update_cache]: nothing cached yet means starting over.
      A failing step would only stop the sequence (warning). *)
  Definition update_ops (exists_dir any_cached : bool) (m : meta) (tables : list (str * csv)) : list op :=
    (if any_cached then [] else
       (if exists_dir then [ORmTree] else []) ++ [OMkDir; OOpenMeta; OWriteMeta m])
    ++ map (fun t => OTable (fst t) (snd t)) tables.

  (** ftrace.py:315-335 [_do_parse]: the trace, and the file system steps taken. *)
  Definition do_parse (c : config) (s : fsys) : res trace * list op :=
    match (if c_nocache c then Ok (None, []) else load s) with
    | Err e => (Err e, [])
    | Ok (l, rm) =>
        let win0 := match l with
                    | Some (m, _) => calc_max_window (c_win c) (c_abs c) (m_base m)
                    | None => (fzero, None)
                    end in
        let base0 := match l with Some (m, _) => m_base m | None => fzero end in
        let defs := c_defs c in
        if negb (c_nocache c) && forallb (fun d => is_cached l (snd d)) defs then
          (* 319-322: everything cached (also: no classes at all) *)
          let fs := map (fun d => (fst d, match cached_frame l (snd d) with Some f => f | None => [] end)) defs in
          match l with
          | Some (m, _) =>
              (Ok (Tr (finish c base0 win0 fs) base0 (m_end m) (m_head m)), rm)
          | None => (Ok (Tr (finish c base0 win0 fs) base0 fzero None), rm)
          end
        else
          match
            (do ws <- word_table (fun attr => match dget eqs attr defs with
                                              | Some k => is_cached l k
                                              | None => false
                                              end) [] defs ;;
             do st <- populate ws base0 (body (f_trace s)) ;;
             do fs <- mapM (fun d =>
                        match cached_frame l (snd d) with
                        | Some f => Ok (fst d, f)
                        | None => do f <- mk (snd d) (match dget eqs (fst d) (p_events st) with
                                                      | Some es => es | None => [] end) ;;
                                  Ok (fst d, f)
                        end) defs ;;
             Ok (st, fs))
          with
          | Err e => (Err e, rm)
          | Ok (st, fs) =>
              let win := if ftruthy base0 then win0
                         else if ftruthy (p_base st) then calc_max_window (c_win c) (c_abs c) (p_base st)
                         else win0 in
              let m := Meta (md5 (f_trace s)) (p_base st) (p_end st) (Some (head (f_trace s))) in
              let any_cached := existsb (fun d => is_cached l (snd d)) defs in
              let tables := map (fun df => (k_pyname (snd (fst df)), enc (snd (snd df))))
                              (filter (fun df => negb (is_cached l (snd (fst df)))) (combine defs fs)) in
              let up := if c_nocache c then []
                        else update_ops (match l with Some _ => true | None => false end) any_cached m tables in
              (Ok (Tr (finish c (p_base st) win fs) (p_base st) (p_end st) (Some (head (f_trace s)))), rm ++ up)
          end
    end.

  (** The result of a construction and the file system afterwards. *)
  Definition construct (c : config) (s : fsys) : res trace * fsys :=
    let (r, os) := do_parse c s in (r, exec s os).
End Cache.
