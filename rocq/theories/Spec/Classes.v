(** Reports of the events that trappy knows: what is printed for each of them, and the
    rows that stand for it.  Nothing here refers to the parser. *)
From Coq Require Import List Ascii String ZArith NArith Bool.
From Verif Require Import Lib.PyStr Lib.PyStrFacts Lib.F64 Model.Base Model.Registry Model.Populate
  Spec.Lines Spec.Payload Spec.Arrays Spec.Parts Spec.Trace Spec.Events Spec.Written.
Import ListNotations.
Local Open Scope list_scope.

(** How an event is printed. *)
Inductive form :=
| Fields                   (* key=value and arrays *)
| Switches                 (* fields, an arrow, fields *)
| Enters | Exits           (* system calls *)
| Clocks                   (* a name, then fields *)
| Pairs                    (* key value *)
| Commas                   (* key = value, *)
| CommasIs                 (* the same, with "checkpoint is" *)
| Free.                    (* text *)
(** What becomes of its columns. *)
Inductive columns :=
| Same
| Renamed (l : list (str * str))
| Idle                     (* 2^32-1 stands for -1 *)
| Mask.                    (* the column "cpus" has eight digits *)
Definition known : list (str * (form * columns)) :=
  [ ($"CommonClkEnable", (Clocks, Same)); ($"CommonClkDisable", (Clocks, Same));
    ($"CommonClkSetRate", (Clocks, Renamed [($"state", $"rate")]));
    ($"TracingMarkWrite", (Free, Same));
    ($"FilesystemExt4DaWriteBegin", (Pairs, Renamed [($"ino", $"inode")]));
    ($"FilesystemExt4DaWriteEnd", (Pairs, Renamed [($"ino", $"inode")]));
    ($"FilesystemExt4SyncFileEnter", (Pairs, Renamed [($"ino", $"inode")]));
    ($"FilesystemExt4SyncFileExit", (Pairs, Renamed [($"ino", $"inode")]));
    ($"FilesystemF2FSWriteBegin", (Commas, Renamed [($"ino", $"inode")]));
    ($"FilesystemF2FSWriteEnd", (Commas, Renamed [($"ino", $"inode")]));
    ($"FilesystemF2FSSyncFileEnter", (Commas, Renamed [($"ino", $"inode")]));
    ($"FilesystemF2FSSyncFileExit", (CommasIs, Renamed [($"ino", $"inode")]));
    ($"CpuIdle", (Fields, Idle));
    ($"SysEnter", (Enters, Same)); ($"SysExit", (Exits, Same));
    ($"SchedLoadAvgSchedGroup", (Fields, Mask));
    ($"SchedCpuCapacity", (Fields, Renamed [($"cpu_id", $"cpu"); ($"state", $"capacity")]));
    ($"SchedSwitch", (Switches, Same));
    ($"SchedCpuFrequency", (Fields, Renamed [($"cpu_id", $"cpu"); ($"state", $"frequency")])) ].
Definition kind_of (k : klass) : form * columns :=
  match dget eqs (k_pyname k) known with Some x => x | None => (Fields, Same) end.

(** ** What is printed *)
Inductive text :=
| TFields (ps : list part)
| TSwitch (p : sw_side) (state : str) (n : sw_side)
| TEnter (n : N) (a0 a1 a2 a3 a4 a5 : N)
| TExit (nr ret : Z)
| TClock (name : str) (gs : list pgroup)
| TPairs (ps : list (str * str))
| TCommas (fs : list ffield)
| TIs (before : list ffield) (f : ffield) (after : list ffield)   (* [f] is the checkpoint *)
| TFree (s : str).
Definition groups_text (gs : list pgroup) : str := join $" " (flat_map g_words gs).
Definition text_str (t : text) : str :=
  match t with
  | TFields ps => payload ps
  | TSwitch p state n => switch_payload p state n
  | TEnter n a0 a1 a2 a3 a4 a5 =>
      $"NR " ++ str_of_N n ++ $" (" ++ fmt_base 16 a0 ++ $", " ++ fmt_base 16 a1 ++ $", " ++ fmt_base 16 a2 ++
      $", " ++ fmt_base 16 a3 ++ $", " ++ fmt_base 16 a4 ++ $", " ++ fmt_base 16 a5 ++ $")"
  | TExit nr ret => $"NR " ++ str_of_Z nr ++ $" = " ++ str_of_Z ret
  | TClock name gs => name ++ $" " ++ groups_text gs
  | TPairs ps => join $" " (flat_map (fun kv => [fst kv; snd kv]) ps)
  | TCommas fs => join $", " (map ffield_text fs)
  | TIs b f a => join $", " (map ffield_text b ++ ($"checkpoint is " ++ f_text f) :: map ffield_text a)
  | TFree s => s
  end.
(** The columns printed, with what the cell may be. *)
Definition is (c : cell) : cell -> Prop := fun c' => c' = c.
Definition text_cells (L : str -> nat) (t : text) : list (str * (cell -> Prop)) :=
  match t with
  | TFields ps => map (fun kv => (fst kv, col_cell (fst (snd kv)) (snd (snd kv)))) (flat_map (part_cells L) ps)
  | TSwitch p state n =>
      [($"prev_comm", is (CStr (name_text (sw_comm p)))); ($"prev_pid", is (CInt (sw_pid p)));
       ($"prev_prio", is (CInt (sw_prio p))); ($"prev_state", col_cell state []);
       ($"next_comm", is (CStr (name_text (sw_comm n)))); ($"next_pid", is (CInt (sw_pid n)));
       ($"next_prio", is (CInt (sw_prio n)))]
  | TEnter n a0 a1 a2 a3 a4 a5 =>
      [($"nr", is (CInt (Z.of_N n))); ($"arg0", is (CInt (Z.of_N a0))); ($"arg1", is (CInt (Z.of_N a1)));
       ($"arg2", is (CInt (Z.of_N a2))); ($"arg3", is (CInt (Z.of_N a3))); ($"arg4", is (CInt (Z.of_N a4)));
       ($"arg5", is (CInt (Z.of_N a5)))]
  | TExit nr ret => [($"nr", is (CInt nr)); ($"ret", is (CInt ret))]
  | TClock name gs => map (fun g => (g_key g, col_cell (g_val g) (g_more g))) gs ++ [($"clk_name", is (CStr name))]
  | TPairs ps => map (fun kv => (fst kv, is (CStr (snd kv)))) ps
  | TCommas fs => map (fun f => (f_key f, col_cell (f_val f) (f_more f))) fs
  | TIs b f a => map (fun f => (f_key f, col_cell (f_val f) (f_more f))) (b ++ f :: a)
  | TFree s => [($"string", is (CStr s))]
  end.
(** Which texts are printed by an event of a form. *)
Definition text_ok (f : form) (t : text) : Prop :=
  match f, t with
  | Fields, TFields ps => Forall part_ok ps
  | Switches, TSwitch p state n => name_ok (sw_comm p) /\ name_ok (sw_comm n) /\ no_space state /\ ~ In "{"%char (text_str t)
  | Enters, TEnter _ _ _ _ _ _ _ => True
  | Exits, TExit _ _ => True
  | Clocks, TClock name gs => ~ In " "%char name /\ Forall group_ok gs /\
      Forall (fun g => g_key g <> $"clk_name" /\ Forall word_ok (g_words g) /\ g_key g <> []) gs /\ ~ In "{"%char (text_str t)
  | Pairs, TPairs ps => ps <> [] /\ Forall (fun kv => ~ In " "%char (fst kv) /\ ~ In " "%char (snd kv)) ps /\ ~ In "{"%char (text_str t)
  | Commas, TCommas fs => fs <> [] /\ Forall ffield_ok fs /\ ~ In "{"%char (text_str t)
  | CommasIs, TIs b c a => Forall ffield_ok (b ++ c :: a) /\ f_key c = $"checkpoint" /\ ~ In "{"%char (text_str t) /\
      ~ occurs $"checkpoint is " (text_str (TCommas (b ++ c :: a)))
  | Free, TFree s => ~ In "{"%char s
  | _, _ => False
  end.

(** ** Reports *)
Inductive entry := EJunk (l : str) | EForeign (L : tline) | EWrote (L : tline) (a : str) (t : text).
Definition entry_str (i : entry) : str :=
  match i with EJunk l => l | EForeign L | EWrote L _ _ => line_str L ++ [nl] end.
(** The selected classes by attribute. *)
Definition entry_ok (defs : list (str * klass)) (i : entry) : Prop :=
  let ws := map (fun d => (k_word (snd d), d)) defs in
  match i with
  | EJunk l => junk_ok l
  | EForeign L => line_ok L /\ forall w a k, In (w, (a, k)) ws -> ~ occurs w (entry_str i)
  | EWrote L a t => line_ok L /\ l_data L = text_str t /\ Dispatch ws (entry_str i) a /\
      forall k, In (a, k) defs -> text_ok (fst (kind_of k)) t
  end.
Definition begins (l : list entry) : Prop := match l with EJunk _ :: _ => False | _ => True end.
Definition entry_lines (l : list entry) : list tline :=
  flat_map (fun i => match i with EJunk _ => [] | EForeign L | EWrote L _ _ => [L] end) l.
Record mark := Mark { m_pos : Z; m_time : float; m_line : tline; m_attr : str; m_text : text }.
Fixpoint marked (i : Z) (l : list entry) (us : list float) : list mark :=
  match l, us with
  | [], _ => []
  | EJunk _ :: r, _ => marked (i + 1) r us
  | EForeign _ :: r, _ :: us => marked (i + 1) r us
  | EWrote L a t :: r, u :: us => Mark i u L a t :: marked (i + 1) r us
  | _ :: _, [] => []
  end.
Definition texts_of (a : str) (l : list entry) : list text :=
  flat_map (fun i => match i with EWrote _ b t => if eqs a b then [t] else [] | _ => [] end) l.
(** The lengths of the arrays of an event. *)
Definition parts_in (ts : list text) : list (list part) :=
  flat_map (fun t => match t with TFields ps => [ps] | _ => [] end) ts.
Definition lengths (ts : list text) : str -> nat := trace_len (parts_in ts).
(** The column a printed field is found in. *)
Definition column (c : columns) (key : str) : str :=
  match c with Renamed l => match dget eqs key l with Some new => new | None => key end | _ => key end.
Definition shown (c : columns) (key : str) (v : cell) : cell :=
  match c with
  | Idle => match v with CInt z => if (z =? 4294967295)%Z then CInt (-1) else v | _ => v end
  | Mask => if eqs key $"cpus"
            then let t := match v with CInt z => str_of_Z z | CStr s => s | CNone => $"nan" end in CStr (zeros (8 - List.length t) ++ t)
            else v
  | _ => v
  end.
(** No two columns of a row have the same name, no field has the new name of another,
    masks are printed by all events or by none, and arrays appear from the first
    event on or not at all. *)
Definition titles_ok (c : columns) (ts : list text) : Prop :=
  (forall t, In t ts -> NoDup (map fst (text_cells (lengths ts) t)) /\
     match c with
     | Renamed l => forall old new, In (old, new) l -> ~ In new (map fst (text_cells (lengths ts) t))
     | Mask => In $"cpus" (map fst (text_cells (lengths ts) t)) ->
               forall t', In t' ts -> In $"cpus" (map fst (text_cells (lengths ts) t'))
     | _ => True
     end) /\
  match parts_in ts with
  | [] => True
  | p :: _ => has_array p = true \/ forall q, In q (parts_in ts) -> has_array q = false
  end.
(** The row of an event. *)
Definition mark_event (m : mark) : event :=
  Ev (m_time m) (l_comm (m_line m)) (Z.of_N (dec_val (l_pid (m_line m)))) (Z.of_N (dec_val (l_cpu (m_line m)))) (m_pos m) [].
Definition row_shows (c : columns) (L : str -> nat) (shift : float -> float) (m : mark) (r : float * dict) : Prop :=
  fst r = shift (m_time m) /\
  (forall key P, In (key, P) (text_cells L (m_text m)) ->
     exists v, P v /\ dlookup (column c key) (snd r) = Some (shown c key v)) /\
  (forall key, ~ In key (map (fun x => column c (fst x)) (text_cells L (m_text m))) ->
     dlookup key (snd r) = option_map (shown c key) (meta_cell (mark_event m) key)).
