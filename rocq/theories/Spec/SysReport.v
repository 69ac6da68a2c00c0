(** Systrace pages, and what the trace read from one holds. *)
From Coq Require Import List Ascii String ZArith NArith Bool.
From Verif Require Import Lib.PyStr Lib.F64 Model.Base Model.Registry Spec.Lines Spec.Written Spec.Marks Spec.Parts Spec.Payload Spec.Events Spec.Classes.
Import ListNotations.
Local Open Scope list_scope.

(** The page around the lines of a trace: the two markers, a header, the lines, and
    possibly the end of the script with more of the page after it. *)
Inductive Page (lines : list str) : list str -> Prop :=
| PageOf pre b mid d hdr tail :
    Never is_begin pre -> is_begin b -> Never is_data mid -> is_data d ->
    Forall junk_ok (d :: hdr) -> Never is_end lines ->
    tail = [] \/ (lines <> [] /\ exists e post, tail = e :: post /\ is_end e) ->
    Page lines (pre ++ b :: mid ++ d :: hdr ++ lines ++ tail).

(** The row of an event: of a user space marker its parts, of any other event its fields. *)
Definition marker_shows (m : mark) (r : dict) : Prop :=
  exists d, Marker (text_str (m_text m)) d /\
    forall key, dlookup key r = match dlookup key d with Some v => Some v | None => meta_cell (mark_event m) key end.
Definition fields_shown (c : columns) (L : str -> nat) (m : mark) (r : dict) : Prop :=
  (forall key P, In (key, P) (text_cells L (m_text m)) -> exists v, P v /\ dlookup (column c key) r = Some (shown c key v)) /\
  (forall key, ~ In key (map (fun x => column c (fst x)) (text_cells L (m_text m))) ->
     dlookup key r = option_map (shown c key) (meta_cell (mark_event m) key)).
Definition event_shown (k : klass) (L : str -> nat) (shift : float -> float) (m : mark) (r : float * dict) : Prop :=
  fst r = shift (m_time m) /\
  (k_pyname k = $"TracingMarkWrite" -> marker_shows m (snd r)) /\
  (k_pyname k <> $"TracingMarkWrite" -> fields_shown (snd (kind_of k)) L m (snd r)).

(** The cpu a line was printed on. *)
Definition cpu_of (m : mark) : Z := Z.of_N (dec_val (l_cpu (m_line m))).
(** One more than the largest cpu of some events. *)
Definition on_cpus (ss : list mark) (n : Z) : Prop :=
  (exists m, In m ss /\ n = (cpu_of m + 1)%Z) /\ forall m, In m ss -> (cpu_of m < n)%Z.
