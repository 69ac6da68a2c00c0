(** Which classes can be constructed. *)
From Coq Require Import List Ascii String Bool.
From Verif Require Import Lib.PyStr Model.Init.
Import ListNotations.
Local Open Scope list_scope.

(** No class below [Base] defines an [__init__]. *)
Definition Plain (l : list pyclass) : Prop := Forall (fun c => c_init c = None) l.
(** The class that defines [parse_raw] first. *)
Definition HasRaw (l : list pyclass) (b : bool) : Prop :=
  exists pre c post, l = pre ++ c :: post /\ c_raw c = Some b /\ Forall (fun c => c_raw c = None) pre.
Definition NoRaw (l : list pyclass) : Prop := Forall (fun c => c_raw c = None) l.
(** Exactly one class defines [__init__], and this is it. *)
Definition OnlyInit (k : initkind) (l : list pyclass) : Prop :=
  exists pre c post, l = pre ++ c :: post /\ c_init c = Some k /\ Plain pre /\ Plain post.

(** The classes that can be constructed, with the [parse_raw] and [fallback] of the object. *)
Inductive Makes : list pyclass -> bool -> bool -> Prop :=
| Mk_plain l : Plain l -> Makes l false false
| Mk_raw l b : OnlyInit IRaw l -> HasRaw l b -> Makes l b false
| Mk_fallback l : OnlyInit IFallback l -> Makes l false true
| Mk_default c l b : c_init c = Some IDefault -> Plain l -> HasRaw (c :: l) b -> Makes (c :: l) b false
| Mk_default_none c l : c_init c = Some IDefault -> Plain l -> NoRaw (c :: l) -> Makes (c :: l) false false
| Mk_default_fallback c l : c_init c = Some IDefault -> OnlyInit IFallback l -> NoRaw (c :: l) -> Makes (c :: l) false true.
(** Those whose construction calls itself without end. *)
Inductive Endless : list pyclass -> Prop :=
| En_sub c l pre d post : c_init c = None -> l = pre ++ d :: post -> Plain pre -> c_init d = Some IDefault -> NoRaw (c :: l) -> Endless (c :: l)
| En_two c l pre d post : c_init c = Some IDefault -> l = pre ++ d :: post -> Plain pre -> c_init d = Some IDefault -> NoRaw (c :: l) -> Endless (c :: l).

(** The built-in classes that ask trace-cmd for unformatted events. *)
Definition raw_classes : list str :=
  [$"FunctionTracer"; $"FuncgraphEntry"; $"FuncgraphExit"; $"SchedSwitch"; $"SchedWakeup"; $"SchedWakeupNew"].
