(** Payloads with arrays, independent of the regular expressions used by the code. *)
From Coq Require Import List Ascii String ZArith NArith Bool.
From Verif Require Import Lib.PyStr.
Import ListNotations.

(** A blank-separated piece of a payload: plain text or [name={v0 v1 ...}]. *)
Inductive seg := SText (w : str) | SArr (name : str) (vals : list str).
Definition seg_str (g : seg) : str :=
  match g with
  | SText w => w
  | SArr n vs => n ++ $"={" ++ join $" " vs ++ $"}"
  end.
Definition render (l : list seg) : str := join $" " (map seg_str l).

Definition seg_ok (g : seg) : Prop :=
  match g with
  | SText w => ~ In " "%char w /\ ~ In "{"%char w
  | SArr n vs =>
      n <> [] /\ ~ In " "%char n /\ ~ In "="%char n /\ ~ In "{"%char n /\
      vs <> [] /\ join $" " vs <> [] /\
      Forall (fun v => ~ In " "%char v /\ ~ In "{"%char v /\ ~ In "}"%char v /\ ~ In nl v) vs
  end.
(** names as kernel C identifiers *)
Definition seg_ident (g : seg) : Prop :=
  match g with
  | SText _ => True
  | SArr n _ => Forall (fun c => is_upper c = true \/ is_lower c = true \/ is_digit c = true
                                 \/ c = "_"%char) n
  end.

(** The columns of array [name] with [vals], at least [len] of them. *)
Definition cols (name : str) (vals : list str) (len : nat) : list str :=
  map (fun i => name ++ str_of_nat i ++ $"=" ++ nth i vals $"0")
      (seq 0 (Nat.max (List.length vals) len)).
Definition expand (lens : str -> nat) (g : seg) : list str :=
  match g with SText w => [w] | SArr n vs => cols n vs (lens n) end.

(** Length of array [name] over all pieces of all payloads: the longest one. *)
Definition seg_len (name : str) (g : seg) : nat :=
  match g with SText _ => 0 | SArr n vs => if eqs name n then List.length vs else 0 end.
Definition max_len (name : str) (lines : list (list seg)) : nat :=
  fold_right Nat.max 0 (map (seg_len name) (List.concat lines)).
Definition is_arr (g : seg) : bool := match g with SArr _ _ => true | _ => false end.
