(** Specification of systrace files and of userspace markers. *)
From Coq Require Import List Ascii String ZArith NArith Bool.
From Verif Require Import Lib.PyStr Model.Base Spec.Lines.
Import ListNotations.
Local Open Scope list_scope.

Definition starts (w line : str) : Prop := exists r, line = w ++ r.
Definition ends (w line : str) : Prop := exists r, line = r ++ w.
Definition is_begin (l : str) : Prop := starts $"<!-- BEGIN TRACE -->" l \/ starts $"<title>Android System Trace</title>" l.
Definition quote : str := ["034"%char].
Definition is_data (l : str) : Prop :=
  starts ($"  <script class=" ++ quote ++ $"trace-data" ++ quote) l \/ starts $"  var linuxPerfData" l.
Definition is_end (l : str) : Prop := ends ($"</script>" ++ ["010"%char]) l.

(** [First P pre x post l]: [x] is the first element of [l] with [P]. *)
Definition First {A} (P : A -> Prop) (pre : list A) (x : A) (post l : list A) : Prop :=
  l = pre ++ x :: post /\ Forall (fun y => ~ P y) pre /\ P x.
Definition Never {A} (P : A -> Prop) (l : list A) : Prop := Forall (fun y => ~ P y) l.

(** From a trace line on, up to the end line. *)
Definition UpToEnd (f body : list str) : Prop :=
  (Never is_end f /\ body = f) \/ exists e post, First is_end body e post f.
Inductive SysBody (file : list str) : list str -> Prop :=
| SB_no_begin : Never is_begin file -> SysBody file []
| SB_no_data a b f : First is_begin a b f file -> Never is_data f -> SysBody file []
| SB_no_line a b f c d g : First is_begin a b f file -> First is_data c d g f -> Never TraceLine (d :: g) -> SysBody file []
| SB_body a b f c d g h l rest body : First is_begin a b f file -> First is_data c d g f ->
    First TraceLine h l rest (d :: g) -> UpToEnd (l :: rest) body -> SysBody file body.

(** Userspace markers: a capital letter, optionally followed by a pid and a
    function name, optionally followed by data (up to the end of the line). *)
Definition capital (c : ascii) : Prop := (65 <= N_of_ascii c <= 90)%N.
Definition bar : ascii := "|"%char.
Definition newline : ascii := "010"%char.
Definition cells (x : ascii) (pid func data : cell) : dict :=
  [($"event", CStr [x]); ($"pid", pid); ($"func", func); ($"data", data)].
Inductive Marker : str -> dict -> Prop :=
| Mk_text s : (forall x r, s = x :: r -> ~ capital x) -> Marker s [($"string", CStr s)]
| Mk_bare x r : capital x -> (forall ds t, r = bar :: ds ++ bar :: t -> ~ digits ds) ->
    Marker (x :: r) (cells x CNone CNone CNone)
| Mk_call x ds f : capital x -> digits ds -> ~ In bar f ->
    Marker (x :: bar :: ds ++ bar :: f) (cells x (CInt (Z.of_N (dec_val ds))) (CStr f) CNone)
| Mk_value x ds f d e : capital x -> digits ds -> ~ In bar f -> ~ In newline d ->
    (forall c r, e = c :: r -> c = newline) ->
    Marker (x :: bar :: ds ++ bar :: f ++ bar :: d ++ e) (cells x (CInt (Z.of_N (dec_val ds))) (CStr f) (CStr d)).
