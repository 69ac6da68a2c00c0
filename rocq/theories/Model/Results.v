(** Model of trappy/wa/results.py: the results of benchmark runs. *)
From Coq Require Import List Ascii String ZArith Bool.
From Verif Require Import Lib.PyStr Lib.Regex.
Import ListNotations.
Local Open Scope list_scope.

(** 85: "Overall_Score|score|FPS" *)
Definition pat_metric : re := RAlt (RLit $"Overall_Score") (RAlt (RLit $"score") (RLit $"FPS")).
(** 88: "(.+)[ _](\d+)" *)
Definition not_nl (c : ascii) : bool := negb (Ascii.eqb c (ascii_of_nat 10)).
Definition is_sep (c : ascii) : bool := is_ch " " c || is_ch "_" c.
Definition pat_run : re := RSeqs [RGrp 1 (RPlus (RCls not_nl)); RCls is_sep; RGrp 2 (RPlus (RCls is_digit))].
(** 81-96 [get_run_number]; [None] for a metric that is not a result *)
Definition get_run_number (metric : str) : option Z :=
  match re_match pat_metric metric with
  | None => None
  | Some _ =>
      match re_search pat_run metric with
      | Some m =>
          let n := match group 2 m with Some d => match py_int10 d with Some z => z | None => 0%Z end | None => 0%Z end in
          Some (if match group 1 m with Some g => eqs g $"Overall_Score" | None => false end then (n - 1)%Z else n)
      | None => Some 0%Z
      end
  end.
(** 127: re.sub("_\d+", "", _) *)
Definition pat_id : re := RSeq (RCh "_") (RPlus (RCls is_digit)).
Definition run_id (s : str) : str := re_sub pat_id (fun _ => []) s.

Section Results.
  (** [float(s)] *)
  Context {F : Type} (to_float : str -> option F).
  Inductive score := SInt (z : Z) | SFloat (f : F).
  (** 130-134 *)
  Definition read_score (s : str) : res score :=
    match py_int10 s with
    | Some z => Ok (SInt z)
    | None => match to_float s with Some f => Ok (SFloat f) | None => Err EValue end
    end.
  (** benchmark -> run id -> run number -> score *)
  Notation runs := (list (Z * score)).
  Notation table := (list (str * list (str * runs))).
  (** 136-143 *)
  Definition add_score (t : table) (bench id : str) (n : Z) (v : score) : table :=
    match dget eqs bench t with
    | Some ids =>
        match dget eqs id ids with
        | Some rs => if dmem Z.eqb n rs then t else dset eqs bench (dset eqs id (dset Z.eqb n v rs) ids) t
        | None => dset eqs bench (dset eqs id [(n, v)] ids) t
        end
    | None => dset eqs bench [(id, [(n, v)])] t
    end.
  Definition field (i : nat) (row : list str) : res str := match nth_error row i with Some s => Ok s | None => Err EIndex end.
  (** 119-143: one row of results.csv; [name] as given, an empty one is none *)
  Definition add_row (name : option str) (t : table) (row : list str) : res table :=
    do metric <- field 3 row ;;
    match get_run_number metric with
    | None => Ok t
    | Some n =>
        do id <- match name with
                 | Some ((_ :: _) as s) => Ok s
                 | _ => do s <- field 0 row ;; Ok (run_id s)
                 end ;;
        do bench <- field 1 row ;; do text <- field 4 row ;; do v <- read_score text ;;
        Ok (add_score t bench id n v)
    end.
  Fixpoint add_rows (name : option str) (t : table) (rows : list (list str)) : res table :=
    match rows with [] => Ok t | r :: rs => do t' <- add_row name t r ;; add_rows name t' rs end.
  (** 98-149 [get_results], up to the frame made of the table; [pd.concat] of nothing is a ValueError *)
  Definition get_results (name : option str) (rows : list (list str)) : res table :=
    do t <- add_rows name [] rows ;; match t with [] => Err EValue | _ => Ok t end.
  (** A cell of the frame: column (bench, id), row n. *)
  Definition cell (t : table) (bench id : str) (n : Z) : option score :=
    match dget eqs bench t with
    | Some ids => match dget eqs id ids with Some rs => dget Z.eqb n rs | None => None end
    | None => None
    end.
  (** 151-168 [combine_results]: each benchmark of the first result with the runs of all *)
  Definition combine_results (data : list table) : res table :=
    match data with
    | [] => Err EIndex
    | d0 :: _ => mapM (fun b => do parts <- mapM (fun d => match dget eqs b d with Some ids => Ok ids | None => Err EKey end) data ;;
                                Ok (b, List.concat parts)) (map fst d0)
    end.
End Results.
