(** Model of trappy/ftrace.py: one report line. *)
From Coq Require Import List Ascii String ZArith NArith Bool.
From Verif Require Import Lib.PyStr Lib.Regex Lib.F64.
Import ListNotations.

(** ftrace.py:64-68 [SPECIAL_FIELDS_RE]; groups: 1 comm, 2 pid, 3 cpu,
    4 timestamp, 5 us, 6 (event names), 7 data. *)
Definition pat_special : re :=
  RSeqs [RBos; RStar (RCls is_space); RGrp 1 (RStar (RCls not_nl)); RLit $"-";
         RGrp 2 (RPlus (RCls is_digit));
         ROpt (RSeqs [RPlus (RCls is_space); RLit $"("; RStar (RCls not_nl); RLit $")"]);
         RPlus (RCls is_space); RLit $"["; RGrp 3 (RPlus (RCls is_digit)); RLit $"]";
         ROpt (RSeqs [RPlus (RCls is_space); RCls not_nl; RCls not_nl; RCls not_nl; RCls not_nl]);
         RPlus (RCls is_space);
         RGrp 4 (RSeq (RPlus (RCls is_digit))
                      (ROpt (RGrp 5 (RSeqs [RLit $"."; RPlus (RCls is_digit)]))));
         RLit $": ";
         RPlus (RGrp 6 (RSeqs [RPlus (RCls is_word); RLit $":"; RPlus (RCls is_space)]));
         RGrp 7 (RPlus (RCls not_nl))].

(** ftrace.py:448-460 [trace_hasnt_started] *)
Definition is_trace_line (line : str) : bool :=
  match re_match pat_special line with Some _ => true | None => false end.

(** [float(text)] for text of the form [digits] or [digits.digits]: the double
    nearest to the decimal number. *)
Definition py_float (ts : str) : option float :=
  match split_once "." ts with
  | None => match parse_digits 10 ts with Some n => Some (f_of_N n) | None => None end
  | Some (a, b) =>
      match parse_digits 10 (a ++ b) with
      | Some n => Some (f_of_ratio n (Pos.pow 10 (Pos.of_nat (List.length b))))
      | None => None
      end
  end.
Definition f1e9 : float := f_of_N 1000000000.

(** ftrace.py:399-411: the fields of a line (after [rstrip]). *)
Record fields := Flds { f_comm : str; f_pid : Z; f_cpu : Z; f_time : float; f_data : str }.
Definition parse_fields (line : str) : res (option fields) :=
  match re_match pat_special (rstrip line) with
  | None => Ok None
  | Some m =>
      match group 1 m, group 2 m, group 3 m, group 4 m, group 7 m with
      | Some comm, Some pid, Some cpu, Some ts, Some data =>
          match py_int10 pid, py_int10 cpu, py_float ts with
          | Some p, Some c, Some t =>
              let t' := match group 5 m with Some _ => t | None => fdiv t f1e9 end in
              Ok (Some (Flds comm p c t' data))
          | _, _, _ => Err EValue
          end
      | _, _, _, _, _ => Err EAttribute
      end
  end.
