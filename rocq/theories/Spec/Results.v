(** What the results of benchmark runs have to be. *)
From Coq Require Import List Ascii String ZArith Bool.
From Verif Require Import Lib.PyStr Spec.Lines Model.Results.
Import ListNotations.
Local Open Scope list_scope.

(** A separator followed by all the digits up to [rest]. *)
Definition Sep (s a : str) (c : ascii) (ds rest : str) : Prop :=
  s = a ++ c :: ds ++ rest /\ a <> [] /\ (c = " "%char \/ c = "_"%char) /\ digits ds /\
  match rest with d :: _ => is_digit d = false | [] => True end.
Definition IsResult (s : str) : Prop := exists w r, In w [$"Overall_Score"; $"score"; $"FPS"] /\ s = w ++ r.
(** The run number of a result: the last number after a separator. *)
Definition RunOf (s : str) (n : Z) : Prop :=
  (exists a c ds rest, Sep s a c ds rest /\
     (forall a' c' ds' rest', Sep s a' c' ds' rest' -> List.length a' <= List.length a) /\
     n = (Z.of_N (dec_val ds) - (if eqs a $"Overall_Score" then 1 else 0))%Z) \/
  ((forall a c ds rest, ~ Sep s a c ds rest) /\ n = 0%Z).
(** [t] is [s] without its numbers after an underscore. *)
Inductive Cut : str -> str -> Prop :=
| CutNil : Cut [] []
| CutNum ds s t : digits ds -> match s with d :: _ => is_digit d = false | [] => True end -> Cut s t -> Cut ("_"%char :: ds ++ s) t
| CutKeep c s t : (c <> "_"%char \/ match s with d :: _ => is_digit d = false | [] => True end) -> Cut s t -> Cut (c :: s) (c :: t).

Section Results.
  Context {F : Type} (to_float : str -> option F).
  (** What a row says: benchmark, run id, run number and score. *)
  Definition Says (name : option str) (row : list str) (x : str * str * Z * score) : Prop :=
    let '(bench, id, n, v) := x in
    exists metric text, nth_error row 3 = Some metric /\ nth_error row 1 = Some bench /\ nth_error row 4 = Some text /\
      get_run_number metric = Some n /\
      match name with Some ((_ :: _) as s) => id = s | _ => exists s, nth_error row 0 = Some s /\ Cut s id end /\
      match py_int10 text with Some z => v = SInt z | None => exists f, to_float text = Some f /\ v = SFloat f end.
  (** A row that is no result. *)
  Definition Silent (row : list str) : Prop := exists metric, nth_error row 3 = Some metric /\ get_run_number metric = None.
  (** The first score said of a benchmark, run id and run number. *)
  Definition FirstScore (name : option str) (rows : list (list str)) (bench id : str) (n : Z) (v : score) : Prop :=
    exists a row b, rows = a ++ row :: b /\ Says name row (bench, id, n, v) /\ forall r v', In r a -> ~ Says name r (bench, id, n, v').
End Results.
