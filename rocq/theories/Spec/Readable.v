(** When the payload of an event cannot be read.  Nothing here refers to the parsers of payloads. *)
From Coq Require Import List Ascii String ZArith NArith Bool.
From Verif Require Import Lib.PyStr Lib.PyStrFacts Model.Line Model.Populate
  Spec.Lines Spec.Payload Spec.Trace Spec.Events Spec.Classes Spec.Names.
Import ListNotations.
Local Open Scope list_scope.

(** A word that belongs to no key=value field (there is none before it, or one whose key is empty), in a payload that trace-cmd
    did not mark. *)
Definition Stray (s : str) : Prop :=
  ~ occurs $"FAILED TO PARSE" s /\
  exists pre gs, Words s (pre ++ flat_map g_words gs) /\ Forall (fun w => ~ In "="%char w) pre /\ Forall group_ok gs /\
    (pre <> [] \/ exists g, In g gs /\ g_key g = [] /\ g_more g <> []).
(** By the form in which a class expects its payload; [replace] and [replace1] are those of Python texts. *)
Definition Unreadable (f : form) (s : str) : Prop :=
  match f with
  | Fields => Stray s
  | Switches => Stray (replace1 $" ==> " $" " s)
  | Enters => forall a b c nr args, s = a ++ b ++ c -> ~ EnterCall b nr args
  | Exits => forall a b c nr ret, s = a ++ b ++ c -> ~ ExitCall b c nr ret
  | Clocks => ~ In " "%char s \/ exists name rest, s = name ++ $" " ++ rest /\ ~ In " "%char name /\ Stray rest
  | Pairs | Free => False
  | Commas => Stray (replace $"," $" " (replace $" = " $"=" s))
  | CommasIs => Stray (replace $"," $" " (replace $" = " $"=" (replace $"checkpoint is " $"checkpoint = " s)))
  end.
(** Some line belongs to the event [a] and has the payload [d] (C01 says which it is). *)
Definition Prints (ws : words) (lines : list str) (a d : str) : Prop :=
  exists line f, In line lines /\ parse_fields line = Ok (Some f) /\ Dispatch ws line a /\ d = f_data f.
(** Of the words of the events trappy knows ([Names.events_table]), the line has only [w]. *)
Definition OnlyWord (w line : str) : Prop :=
  occurs w line /\ forall a' w' c' s', In (a', w', c', s') events_table -> w' <> w -> ~ occurs w' line.
