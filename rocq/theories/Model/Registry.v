(** Model of the parser registry and class selection (trappy/ftrace.py, dynamic.py). *)
From Coq Require Import List Ascii String ZArith NArith Bool.
From Verif Require Import Lib.PyStr Lib.Regex.
Import ListNotations.

(** An event class: object identity, [unique_word], [name] attribute (absent for
    classes that neither define nor inherit one), Python [__name__], and whether
    its instances are fallback parsers. *)
Record klass := Kls {
  k_id : N; k_word : str; k_name : option str; k_pyname : str; k_fallback : bool }.

(** ftrace.py:74-78: the three class-level dictionaries. *)
Definition classes := list (str * klass).
Record registry := Reg { r_thermal : classes; r_sched : classes; r_dynamic : classes }.

(** ftrace.py:131-132: the name a class gets when registered. *)
Definition given_name (k : klass) : str :=
  match k_name k with
  | Some n => n
  | None => match split_ch ":" (k_word k) with w :: _ => w | [] => [] end
  end.
(** The class object after registration carries that name. *)
Definition named (k : klass) : klass :=
  Kls (k_id k) (k_word k) (Some (given_name k)) (k_pyname k) (k_fallback k).

(** ftrace.py:119-138 [register_parser] *)
Definition register (r : registry) (k : klass) (scope : str) : res registry :=
  let k' := named k in
  let n := given_name k in
  if eqs scope $"all" || eqs scope $"dynamic" then
    Ok (Reg (r_thermal r) (r_sched r) (dset eqs n k' (r_dynamic r)))
  else if eqs scope $"thermal" then
    Ok (Reg (dset eqs n k' (r_thermal r)) (r_sched r) (r_dynamic r))
  else if eqs scope $"sched" then
    Ok (Reg (r_thermal r) (dset eqs n k' (r_sched r)) (r_dynamic r))
  else Err EAttribute.

(** ftrace.py:140-156 [unregister_parser]: classes compare by identity. *)
Definition drop_class (k : klass) (cs : classes) : classes :=
  filter (fun e => negb (N.eqb (k_id k) (k_id (snd e)))) cs.
Definition unregister (r : registry) (k : klass) : registry :=
  Reg (drop_class k (r_thermal r)) (drop_class k (r_sched r)) (drop_class k (r_dynamic r)).

(** ftrace.py:359-361 [known_events] *)
Definition known_events (r : registry) : classes :=
  dupdate eqs (dupdate eqs (dupdate eqs [] (r_thermal r)) (r_sched r)) (r_dynamic r).

(** ftrace.py:365-367 *)
Definition event_matches (ev : str) (k : klass) : bool :=
  eqs ev (k_word k) || eqs (ev ++ $":") (k_word k) || eqs ev (given_name k).
(** ftrace.py:371-377: the class made for an unknown event (dynamic.py:58-60). *)
Definition new_class (ev : str) : klass := Kls 0 (ev ++ $":") (Some ev) ev false.
(** ftrace.py:346-377 [__add_events] *)
Definition add_event (r : registry) (defs : classes) (ev : str) : classes :=
  match find (fun e => event_matches ev (snd e)) (known_events r) with
  | Some (_, k) => dset eqs (given_name k) k defs
  | None => dset eqs ev (new_class ev) defs
  end.
Definition add_events (r : registry) (events : list str) : classes :=
  fold_left (add_event r) events [].

(** ftrace.py:86-97: [class_definitions] after the scope updates. *)
Definition class_definitions (r : registry) (scope : str) (events : list str) : classes :=
  let defs := add_events r events in
  if eqs scope $"thermal" then dupdate eqs (dupdate eqs defs (r_thermal r)) (r_dynamic r)
  else if eqs scope $"sched" then dupdate eqs (dupdate eqs defs (r_sched r)) (r_dynamic r)
  else if eqs scope $"custom" then defs
  else dupdate eqs (dupdate eqs (dupdate eqs defs (r_thermal r)) (r_sched r)) (r_dynamic r).

(** ftrace.py:99-104: sanity check over [itertools.combinations(..., 2)]. *)
Definition words_clash (a b : klass) : bool :=
  contains (k_word a) (k_word b) || contains (k_word b) (k_word a).
Fixpoint any_clash (ks : list klass) : bool :=
  match ks with
  | [] => false
  | k :: rest => existsb (words_clash k) rest || any_clash rest
  end.
Definition sanity_check (defs : classes) : res classes :=
  if any_clash (map snd defs) then Err ERuntime else Ok defs.

(** ftrace.py:482-496: [cls_for_unique_word]; [cached] tells which attributes were
    loaded from the cache. *)
Fixpoint word_table (cached : str -> bool) (acc : list (str * (str * klass))) (defs : classes)
  : res (list (str * (str * klass))) :=
  match defs with
  | [] => Ok acc
  | (attr, k) :: rest =>
      if cached attr then word_table cached acc rest
      else match dget eqs (k_word k) acc with
           | Some _ => Err ERuntime
           | None => word_table cached (dset eqs (k_word k) (attr, k) acc) rest
           end
  end.

(** dynamic.py:65-69 [_get_name]: [re.sub('(?!^)([A-Z]+)', r'_\1', name).lower()].
    Each maximal run of capitals that does not begin the string gets an
    underscore before it; a run at the very start gets one after its first
    letter. *)
Fixpoint name_loop (in_run : bool) (s : str) : str :=
  match s with
  | [] => []
  | c :: r => if is_upper c
              then (if in_run then [] else $"_") ++ [c] ++ name_loop true r
              else [c] ++ name_loop false r
  end.
Definition lower_char (c : ascii) : ascii :=
  let n := N_of_ascii c in
  if is_upper c || (N.leb 192 n && N.leb n 222 && negb (N.eqb n 215)) then ascii_of_N (n + 32) else c.
Definition get_name (s : str) : str :=
  map lower_char (match s with [] => [] | c :: r => c :: name_loop false r end).
