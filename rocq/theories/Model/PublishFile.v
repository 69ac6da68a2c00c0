(** Model of scripts/publish_interactive_plots.py: the files that publishing reads and writes. *)
From Coq Require Import List Ascii String ZArith Bool.
From Verif Require Import Lib.PyStr Model.Publish.
Import ListNotations.
Local Open Scope list_scope.

(** 119-124 [main]: the name of the output; [outfile] is the option -o, by default "".  The option -p is not used. *)
Definition output_name (outfile notebook : str) : str :=
  if eqs outfile [] then $"published_" ++ basename notebook
  else if negb (is_suffix $".ipynb" outfile) then outfile ++ $".ipynb" else outfile.
(** How it ends: normally, with an IOError, or with what signing raises. *)
Inductive ending := Finished | IoErr | NotSigned.
Section Publish.
  (** The version of IPython, the paths that can be written, and the texts that can be signed (signing keeps its records
      outside of the notebook). *)
  Variables (v4 : bool) (writable : str -> bool) (signs : str -> bool).
  (** 70-84 [publish] *)
  Definition publish (s : fs) (source target : str) : fs * ending :=
    match dget eqs source s with
    | Some (File txt) =>
        let out := change_resource_paths v4 txt in
        if isdir s target || negb (writable target) then (s, IoErr)
        else (dset eqs target (File out) s, if signs out then Finished else NotSigned)
    | _ => (s, IoErr)
    end.
  (** 87-126 [main], of the arguments *)
  Definition publish_main (s : fs) (outfile notebook : str) : fs * ending := publish s notebook (output_name outfile notebook).
End Publish.
