(** Model of trappy/base.py: payload parsing, array explosion, data frames. *)
From Coq Require Import List Ascii String ZArith NArith Bool.
From Verif Require Import Lib.PyStr Lib.Regex Lib.F64.
Import ListNotations.

(** A data frame cell.  [CNone] is Python's [None] / pandas' NaN. *)
Inductive cell := CInt (z : Z) | CStr (s : str) | CNone.
Definition dict := list (str * cell).
Definition dlookup (k : str) (d : dict) : option cell := dget eqs k d.

(** base.py:194-207 [Base.string_cast_int] *)
Definition string_cast_int (s : str) : cell :=
  match py_int0 s with Some z => CInt z | None => CStr s end.

(** base.py:209-235 [Base.generate_data_dict]: the loop over
    [data_str.split()].  [failed] is ['FAILED TO PARSE' in data_str]; the warning
    itself is not modelled. *)
Fixpoint gdd_loop (failed : bool) (d : dict) (prev_key : option str) (fields : list str)
  : res dict :=
  match fields with
  | [] => Ok d
  | field :: rest =>
      match split_once "=" field with
      | None =>                               (* "=" not in field *)
          match prev_key with
          | None | Some [] =>                 (* not prev_key *)
              if failed then gdd_loop failed d prev_key rest else Err EParse
          | Some k =>
              match dlookup k d with
              | Some (CStr v) =>
                  gdd_loop failed (dset eqs k (CStr (v ++ $" " ++ field)) d) prev_key rest
              | Some _ => gdd_loop failed d prev_key rest
              | None => Err EKey
              end
          end
      | Some (key, value) =>
          gdd_loop failed (dset eqs key (string_cast_int value) d) (Some key) rest
      end
  end.
Definition generate_data_dict (data_str : str) : res dict :=
  gdd_loop (contains $"FAILED TO PARSE" data_str) [] None (split_ws data_str).

(** base.py:74 [r"[^ ]+={[^}]+}"] *)
Definition pat_explode : re :=
  RSeqs [RPlus (RCls (not_ch " ")); RLit $"={"; RPlus (RCls (not_ch "}")); RLit $"}"].
(** base.py:79 [r"([^=]+)="] *)
Definition pat_basename : re := RSeqs [RGrp 1 (RPlus (RCls (not_ch "="))); RLit $"="].
(** base.py:80 [r"{(.+)}"] *)
Definition pat_vals : re := RSeqs [RLit $"{"; RGrp 1 (RPlus (RCls not_nl)); RLit $"}"].

(** base.py:83-90: [exploded_str] built from the values and the padding. *)
Definition explode_items (col : str) (vals : list str) : list str :=
  map (fun iv => col ++ str_of_nat (fst iv) ++ $"=" ++ snd iv)
      (combine (seq 0 (List.length vals)) vals).
Definition explode_pads (col : str) (from upto : nat) : list str :=
  map (fun i => col ++ str_of_nat i ++ $"=0") (seq from (upto - from)).
(** base.py:83-92: each item is followed by a blank, the last blank is cut. *)
Definition exploded_str (col : str) (vals : list str) (upto : nat) : str :=
  removelast (flat_map (fun it => it ++ $" ")
    (explode_items col vals ++ explode_pads col (List.length vals) upto)).

(** base.py:73-98: one round of the [while True] loop. [Ok None] is [break].
    [lens] is [array_lengths[...]]; [None] stands for a missing key. *)
Definition explode_step (lens : str -> option nat) (s : str) : res (option str) :=
  match re_search pat_explode s with
  | None => Ok None
  | Some m =>
      let to_explode := m_all m in
      match re_match pat_basename to_explode with
      | None => Err EAttribute                (* None.groups() *)
      | Some mb =>
          match group 1 mb, re_search pat_vals to_explode with
          | Some col, Some mv =>
              match group 1 mv with
              | Some vals_str =>
                  match lens col with
                  | None => Err EKey
                  | Some n =>
                      Ok (Some (m_pre m ++ exploded_str col (split_ch " " vals_str) n
                                ++ m_post m))
                  end
              | None => Err EAttribute
              end
          | _, _ => Err EAttribute
          end
      end
  end.
(** base.py:73-98 with an iteration budget; [Err EFuel] means "still looping". *)
Fixpoint explode_array (fuel : nat) (lens : str -> option nat) (s : str) : res str :=
  match fuel with
  | O => Err EFuel
  | S f =>
      match explode_step lens s with
      | Err e => Err e
      | Ok None => Ok s
      | Ok (Some s') => explode_array f lens s'
      end
  end.

(** base.py:139 [r"([A-Za-z0-9_]+)={([^}]+)}"] *)
Definition is_ident (c : ascii) : bool :=
  is_upper c || is_lower c || is_digit c || Ascii.eqb c "_".
Definition pat_array : re :=
  RSeqs [RGrp 1 (RPlus (RCls is_ident)); RLit $"={"; RGrp 2 (RPlus (RCls (not_ch "}"))); RLit $"}"].

(** base.py:144-157: the inner loop on one line; every match is non-empty so
    [S (length line)] rounds suffice. *)
Fixpoint scan_line (fuel : nat) (ret : list (str * nat)) (line : str) : list (str * nat) :=
  match fuel with
  | O => ret
  | S f =>
      match re_search pat_array line with
      | None => ret
      | Some m =>
          match group 1 m, group 2 m with
          | Some name, Some elems =>
              let len := List.length (split_ch " " elems) in
              let old := match dget eqs name ret with Some n => n | None => 0 end in
              let ret' := if (old <? len)%nat then dset eqs name len ret
                          else dset eqs name old ret in  (* reading a defaultdict inserts *)
              scan_line f ret' (m_post m)
          | _, _ => ret
          end
      end
  end.
(** base.py:143-164 [Base.__get_trace_array_lengths], early exit included. *)
Fixpoint trace_array_lengths (ret : list (str * nat)) (lines : list str) : list (str * nat) :=
  match lines with
  | [] => ret
  | line :: rest =>
      let ret' := scan_line (S (List.length line)) ret line in
      match ret' with
      | [] => ret'                            (* base.py:160-162 break *)
      | _ => trace_array_lengths ret' rest
      end
  end.
(** [defaultdict(int)] lookup *)
Definition default_len (d : list (str * nat)) (k : str) : option nat :=
  Some match dget eqs k d with Some n => n | None => 0 end.

(** base.py:166-192 [append_data]: the six parallel arrays as one list. *)
Record event := Ev {
  ev_time : float; ev_comm : str; ev_pid : Z; ev_cpu : Z; ev_line : Z; ev_data : str }.

(** A data frame: one dictionary per row, with its time index. *)
Definition frame := list (float * dict).

(** base.py:246-250 [generate_parsed_data]: one row.  [gdd] is the (possibly
    overridden) [generate_data_dict] method. *)
Definition row_dict (gdd : str -> res dict) (e : event) : res dict :=
  do d <- gdd (ev_data e) ;;
  Ok (dupdate eqs [($"__comm", CStr (ev_comm e)); ($"__pid", CInt (ev_pid e));
                   ($"__cpu", CInt (ev_cpu e)); ($"__line", CInt (ev_line e))] d).

(** base.py:294-299: array explosion of all payloads. *)
Definition explode_all (fuel : nat) (evs : list event) : res (list event) :=
  let lens := trace_array_lengths [] (map ev_data evs) in
  match lens with
  | [] => Ok evs
  | _ => mapM (fun e => do d <- explode_array fuel (default_len lens) (ev_data e) ;;
                        Ok (Ev (ev_time e) (ev_comm e) (ev_pid e) (ev_cpu e) (ev_line e) d)) evs
  end.

(** base.py:289-303 [create_dataframe] up to the frame handed to
    [handle_duplicate_index]; [optimize_dataframe] (268-287) changes storage types
    only and is in Memory.v. *)
Definition create_dataframe (fuel : nat) (gdd : str -> res dict) (evs : list event) : res frame :=
  do evs' <- explode_all fuel evs ;;
  mapM (fun e => do d <- row_dict gdd e ;; Ok (ev_time e, d)) evs'.
