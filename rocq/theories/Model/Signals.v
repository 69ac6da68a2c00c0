(** Model of the signal definitions of the plotters,
    trappy/plotter/AbstractDataPlotter.py and ColorMap.py:28-38. *)
From Coq Require Import List Ascii String ZArith NArith Bool.
From Verif Require Import Lib.PyStr Lib.Regex.
Import ListNotations.

Definition not_colon (c : ascii) : bool := negb (Ascii.eqb c ":").
Definition not_nl (c : ascii) : bool := negb (Ascii.eqb c (ascii_of_N 10)).
(** AbstractDataPlotter.py:81 [(?P<event>[^:]+):(?P<column>[^:]+)(?P<color>:.+)?];
    the groups are 1, 2 and 3. *)
Definition pat_signal : re :=
  RSeqs [RGrp 1 (RPlus (RCls not_colon)); RCh ":"; RGrp 2 (RPlus (RCls not_colon));
         ROpt (RGrp 3 (RSeq (RCh ":") (RPlus (RCls not_nl))))].

(** [s.split(",", 2)] *)
Definition split_comma2 (s : str) : list str :=
  match split_once "," s with
  | None => [s]
  | Some (a, r) => match split_once "," r with None => [a; r] | Some (b, c) => [a; b; c] end
  end.
(** 94 *)
Definition colour_num (n : str) : res Z :=
  match (if is_prefix $"0x" n then py_int16 n else py_int10 n) with Some z => Ok z | None => Err EValue end.

Section Signals.
  (** A class of events; a trace is its [class_definitions]. *)
  Context {C : Type}.
  Notation trace := (list (str * C))%type.
  Fixpoint find_class (ev : str) (traces : list trace) : option C :=
    match traces with
    | [] => None
    | t :: r => match dget eqs ev t with Some c => Some c | None => find_class ev r end
    end.
  (** 74-109 [_parse_value]; [emap] is [self._event_map]. *)
  Definition parse_value (traces : list trace) (emap : list (str * C)) (s : str) : res (C * str * option (list Z) * list (str * C)) :=
    match re_match pat_signal s with
    | None => Err EValue
    | Some m =>
        let ev := match group 1 m with Some g => g | None => [] end in
        let col := match group 2 m with Some g => g | None => [] end in
        do colour <- match group 3 m with
                     | Some g => do l <- mapM colour_num (split_comma2 (tl g)) ;; Ok (Some l)
                     | None => Ok None
                     end ;;
        match dget eqs ev emap with
        | Some c => Ok (c, col, colour, emap)
        | None => match find_class ev traces with
                  | Some c => Ok (c, col, colour, dset eqs ev c emap)
                  | None => Err EValue
                  end
        end
    end.
  (** 120-127: the loop of [_describe_signals] *)
  Fixpoint parse_values (traces : list trace) (emap : list (str * C)) (sigs : list str) : res (list (C * str * option (list Z))) :=
    match sigs with
    | [] => Ok []
    | s :: r => do x <- parse_value traces emap s ;; do y <- parse_values traces (snd x) r ;; Ok (fst x :: y)
    end.
  Definition truthy (c : option (list Z)) : bool := match c with Some (_ :: _) => true | _ => false end.
  (** 111-130 [_describe_signals]: the templates, the columns and the attribute
      [colors] that is set.  [has] says that a column or templates were given as well. *)
  Definition describe (has : bool) (traces : list trace) (sigs : list str) : res (list C * list str * option (list (option (list Z)))) :=
    if has then Err EValue
    else do l <- parse_values traces [] sigs ;;
         let colours := map (fun x => snd x) l in
         Ok (map (fun x => fst (fst x)) l, map (fun x => snd (fst x)) l, if existsb truthy colours then Some colours else None).
End Signals.

(** ColorMap.py:28-38; a missing colour is not iterable *)
Definition rgb (c : option (list Z)) : res str :=
  match c with
  | Some e => Ok ($"rgb(" ++ join $", " (map str_of_Z e) ++ $")")
  | None => Err EType
  end.
Definition to_dygraph_colors (cm : list (option (list Z))) : res str :=
  do l <- mapM rgb cm ;; Ok ($"[""" ++ join $""", """ l ++ $"""]").

(** 56-72 [_check_data]: for each datum whether it is a data frame *)
Definition check_data (frames : list bool) (templates signals column : bool) : res unit :=
  match frames with
  | [] => Err EValue
  | _ => let df := forallb (fun b => b) frames in
         if negb df && negb (templates || signals) then Err EValue
         else if df && negb column then Err EValue
         else Ok tt
  end.
