(** Model of FTrace's choice of file and of its header parsing (trappy/ftrace.py). *)
From Coq Require Import List Ascii String ZArith NArith Bool.
From Verif Require Import Lib.PyStr Lib.Regex Model.Line.
Import ListNotations.
Local Open Scope list_scope.

(** The text before and after the last [sep]. *)
Fixpoint rsplit (sep : ascii) (s : str) : option (str * str) :=
  match s with
  | [] => None
  | c :: r =>
      match rsplit sep r with
      | Some (a, b) => Some (c :: a, b)
      | None => if Ascii.eqb c sep then Some ([], r) else None
      end
  end.
(** [os.path.splitext(p)[0]] of posixpath: the extension starts at the last dot
    of the last component, leading dots of the component not counting. *)
Definition splitext_root (p : str) : str :=
  let '(dir, name) := match rsplit "/" p with
                      | Some (a, b) => (a ++ $"/", b)
                      | None => ([], p)
                      end in
  let lead := take_while (is_ch ".") name in
  match rsplit "." (drop_while (is_ch ".") name) with
  | Some (b, _) => dir ++ lead ++ b
  | None => p
  end.
(** [os.path.join(base, "trace")] of posixpath. *)
Definition join_trace (base : str) : str :=
  match base with
  | [] => $"trace"
  | _ => if is_suffix $"/" base then base ++ $"trace" else base ++ $"/trace"
  end.

(** ftrace.py:839-874 [__process_path]: the file to read and [read_from_dat].
    [isfile] is the file system; the warning about .txt files is not modelled. *)
Definition process_path (isfile : str -> bool) (base : str) : res (str * bool) :=
  let trace_name := if isfile base then splitext_root base else join_trace base in
  if isfile (trace_name ++ $".dat") then Ok (trace_name ++ $".dat", true)
  else if isfile (trace_name ++ $".txt") then Ok (trace_name ++ $".txt", false)
  else if isfile (trace_name ++ $".raw.txt") then Err ERuntime
  else Err EIO.

(** ftrace.py:938-939: the pattern for the keys still looked for. *)
Fixpoint alternatives (keys : list str) : re :=
  match keys with [] => REps | [k] => RLit k | k :: r => RAlt (RLit k) (alternatives r) end.
Definition pat_meta (keys : list str) : re :=
  RSeqs [RBos; RWb; RGrp 1 (alternatives keys); RWb; RStar (RCls is_space); RLit $"=";
         RStar (RCls is_space); RGrp 2 (RPlus (RCls is_digit))].
(** ftrace.py:925-949 [__get_trace_metadata] *)
Fixpoint metadata_loop (keys : list str) (res : list (str * str)) (file : list str) : list (str * str) :=
  match file with
  | [] => res
  | line :: rest =>
      match keys with
      | [] => res
      | _ =>
          let '(keys', res') :=
            match re_search (pat_meta keys) line with
            | Some m =>
                match group 1 m, group 2 m with
                | Some k, Some v => (filter (fun k' => negb (eqs k k')) keys, dset eqs k v res)
                | _, _ => (keys, res)
                end
            | None => (keys, res)
            end in
          if is_trace_line line then res' else metadata_loop keys' res' rest
      end
  end.
Definition trace_metadata (file : list str) : list (str * str) :=
  metadata_loop [$"version"; $"cpus"] [] file.
