(** Structured payloads: fields and arrays (what the kernel prints). *)
From Coq Require Import List Ascii String ZArith NArith Bool.
From Verif Require Import Lib.PyStr Lib.PyStrFacts Model.Base Spec.Payload Spec.Arrays.
Import ListNotations.

Inductive part := PF (g : pgroup) | PA (name : str) (vals : list str).
Definition part_segs (p : part) : list seg :=
  match p with PF g => map SText (g_words g) | PA n vs => [SArr n vs] end.
Definition payload (ps : list part) : str := render (flat_map part_segs ps).
Definition part_ok (p : part) : Prop :=
  match p with
  | PF g => group_ok g /\ g_key g <> [] /\ no_space (g_key g) /\ no_space (g_val g) /\
            Forall word_ok (g_more g) /\ ~ In "{"%char (List.concat (g_words g))
  | PA n vs => seg_ok (SArr n vs) /\ seg_ident (SArr n vs) /\ Forall no_space vs
  end.
(** The columns a payload contributes when array [n] has length [L n] in the trace. *)
Definition part_cols (L : str -> nat) (p : part) : list (str * str) :=
  match p with
  | PF g => [(g_key g, join $" " (g_val g :: g_more g))]
  | PA n vs => map (fun i => (n ++ str_of_nat i, nth i vs $"0"))
                   (seq 0 (Nat.max (List.length vs) (L n)))
  end.
Definition columns (L : str -> nat) (ps : list part) : list (str * str) := flat_map (part_cols L) ps.
Definition trace_len (pss : list (list part)) (n : str) : nat :=
  max_len n (map (flat_map part_segs) pss).
Definition has_array (ps : list part) : bool :=
  existsb (fun p => match p with PA _ _ => true | _ => false end) ps.

(** The cell Python stores for the text of a column: an integer if the leading
    value is an integer literal. *)
Definition col_cell (val : str) (more : list str) (c : cell) : Prop :=
  (exists z, int_literal val z /\ c = CInt z) \/
  ((forall z, ~ int_literal val z) /\ c = CStr (join $" " (val :: more))).
Definition part_cells (L : str -> nat) (p : part) : list (str * (str * list str)) :=
  match p with
  | PF g => [(g_key g, (g_val g, g_more g))]
  | PA n vs => map (fun i => (n ++ str_of_nat i, (nth i vs $"0", [])))
                   (seq 0 (Nat.max (List.length vs) (L n)))
  end.
(** The metadata columns of a row. *)
Definition meta_cell (e : event) (k : str) : option cell :=
  if eqs k $"__comm" then Some (CStr (ev_comm e))
  else if eqs k $"__pid" then Some (CInt (ev_pid e))
  else if eqs k $"__cpu" then Some (CInt (ev_cpu e))
  else if eqs k $"__line" then Some (CInt (ev_line e))
  else None.
