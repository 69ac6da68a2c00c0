(** What the notebook export filter has to do, independently of its loop.
    Only the records of cells and outputs come from the model. *)
From Coq Require Import List Ascii String ZArith NArith Bool.
From Verif Require Import Lib.PyStr Spec.Events Model.Export.
Import ListNotations.

Definition Has (mark l : str) : Prop := exists a b, l = a ++ mark ++ b.
Definition START : str := $"/* TRAPPY_PUBLISH_REMOVE_START */".
Definition STOP : str := $"/* TRAPPY_PUBLISH_REMOVE_STOP */".
Definition LINE : str := $"/* TRAPPY_PUBLISH_REMOVE_LINE */".

(** Line [i] lies behind a start marker that no line in between closes; a line
    with both markers opens. *)
Definition InRegion (ls : list str) (i : nat) : Prop :=
  exists j l, (j < i)%nat /\ nth_error ls j = Some l /\ Has START l /\
    forall k l', (j < k < i)%nat -> nth_error ls k = Some l' -> Has STOP l' -> Has START l'.
Definition Removed (ls : list str) (i : nat) : Prop :=
  InRegion ls i \/ exists l, nth_error ls i = Some l /\ (Has START l \/ Has STOP l \/ Has LINE l).

(** A directive names a non-empty text without quotes; the first one counts. *)
Definition dq : ascii := """"%char.
Definition ImportAt (call rest f : str) : Prop :=
  f <> [] /\ ~ In dq f /\ call = $"/* TRAPPY_PUBLISH_IMPORT = " ++ [dq] ++ f ++ [dq] ++ $" */".
Definition SourceAt (call rest u : str) : Prop :=
  u <> [] /\ ~ In dq u /\ call = $"<!-- TRAPPY_PUBLISH_SOURCE_LIB = " ++ [dq] ++ u ++ [dq] ++ $" -->".
Definition Imports (l f : str) : Prop := FirstAt ImportAt l f.
Definition Sources (l u : str) : Prop := FirstAt SourceAt l u /\ forall f, ~ Imports l f.
Definition Plain (l : str) : Prop := (forall f, ~ Imports l f) /\ forall u, ~ Sources l u.

(** The file an import means: absolute names as they are. *)
Definition FileOf (base f p : str) : Prop :=
  match f with
  | "/"%char :: _ => p = f
  | _ => (base = [] \/ (exists b, base = b ++ $"/")) /\ p = base ++ f \/
         base <> [] /\ (forall b, base <> b ++ $"/") /\ p = base ++ $"/" ++ f
  end.
(** The lines a file contributes: all of them; the last one, when it is not
    terminated, without its last character (a finding). *)
Definition LF : ascii := ascii_of_N 10.
Definition Lines (content : str) (ls : list str) : Prop :=
  exists full, Forall (fun l => ~ In LF l) full /\
   (content = List.concat (map (fun l => l ++ [LF]) full) /\ ls = full \/
    exists l c, ~ In LF (l ++ [c]) /\ content = List.concat (map (fun l => l ++ [LF]) full) ++ l ++ [c] /\ ls = full ++ [l]).
Definition tag (u : str) : str :=
  $"<script src=""" ++ u ++ $""" type=""text/javascript"" charset=""utf-8""></script>".

(** The texts of an export are taken in order; [(k, i)] is line [i] of text [k]. *)
Definition Before (k i k' i' : nat) : Prop := (k < k')%nat \/ k = k' /\ (i < i')%nat.
Definition LiveLine (ts : list (list str)) (k i : nat) (l : str) : Prop :=
  exists ls, nth_error ts k = Some ls /\ nth_error ls i = Some l /\ ~ Removed ls i.
Definition EarlierImport (base : str) (ts : list (list str)) (k i : nat) (p : str) : Prop :=
  exists k' i' l f, Before k' i' k i /\ LiveLine ts k' i' l /\ Imports l f /\ FileOf base f p.
Definition EarlierSource (ts : list (list str)) (k i : nat) (u : str) : Prop :=
  exists k' i' l, Before k' i' k i /\ LiveLine ts k' i' l /\ Sources l u.

(** What line [(k, i)] turns into. *)
Inductive Becomes (base : str) (file : str -> option str) (ts : list (list str)) (k i : nat) : list str -> Prop :=
| B_removed ls : nth_error ts k = Some ls -> Removed ls i -> Becomes base file ts k i []
| B_again l f p : LiveLine ts k i l -> Imports l f -> FileOf base f p -> EarlierImport base ts k i p -> Becomes base file ts k i []
| B_inline l f p c o : LiveLine ts k i l -> Imports l f -> FileOf base f p -> ~ EarlierImport base ts k i p ->
    file p = Some c -> Lines c o -> Becomes base file ts k i o
| B_again_lib l u : LiveLine ts k i l -> Sources l u -> EarlierSource ts k i u -> Becomes base file ts k i []
| B_lib l u : LiveLine ts k i l -> Sources l u -> ~ EarlierSource ts k i u -> Becomes base file ts k i [tag u]
| B_plain l : LiveLine ts k i l -> Plain l -> Becomes base file ts k i [l].

(** [o] is made of what each line of text [k] turns into, in order. *)
Definition Made (base : str) (file : str -> option str) (ts : list (list str)) (k : nat) (ls o : list str) : Prop :=
  exists ps, List.length ps = List.length ls /\ o = List.concat ps /\
    forall i p, nth_error ps i = Some p -> Becomes base file ts k i p.

(** The import of line [(k, i)] cannot be read. *)
Definition Unreadable (base : str) (file : str -> option str) (ts : list (list str)) : Prop :=
  exists k i l f p, LiveLine ts k i l /\ Imports l f /\ FileOf base f p /\ file p = None.

(** The texts of a notebook that are filtered: the html of the display data of
    code cells, in order; and the notebook without them. *)
Definition displayed {X} (o : output X) : option str := if eqs (o_type o) $"display_data" then o_html o else None.
Definition texts {X} (cs : list (cell X)) : list str :=
  flat_map (fun c => match c_outputs c with
                     | Some os => if eqs (c_type c) $"code"
                                  then flat_map (fun o => match displayed o with Some t => [t] | None => [] end) os else []
                     | None => [] end) cs.
Definition blank_output {X} (o : output X) : output X :=
  match displayed o with Some _ => Out (o_type o) (Some []) (o_rest o) | None => o end.
Definition blank {X} (cs : list (cell X)) : list (cell X) :=
  map (fun c => Cell (c_type c)
                     (match c_outputs c with
                      | Some os => Some (if eqs (c_type c) $"code" then map blank_output os else os)
                      | None => None end) (c_rest c)) cs.
