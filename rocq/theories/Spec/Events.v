(** What the kernel prints for the events with payloads of their own. *)
From Coq Require Import List Ascii String ZArith NArith Bool.
From Verif Require Import Lib.PyStr Lib.PyStrFacts Spec.Payload Spec.Lines.
Import ListNotations.
Local Open Scope list_scope.

(** [sched_switch]: the fields of the task leaving, an arrow, those of the next. *)
Record sw_side := Side { sw_comm : list str; sw_pid : Z; sw_prio : Z }.
Definition name_ok (ws : list str) : Prop :=
  exists w r, ws = w :: r /\ Forall word_ok ws /\ Forall (fun x => ~ In "="%char x) r /\
    forall z, ~ int_literal w z.
Definition name_text (ws : list str) : str := join $" " ws.
Definition switch_payload (p : sw_side) (state : str) (n : sw_side) : str :=
  $"prev_comm=" ++ name_text (sw_comm p) ++ $" prev_pid=" ++ str_of_Z (sw_pid p) ++
  $" prev_prio=" ++ str_of_Z (sw_prio p) ++ $" prev_state=" ++ state ++ $" ==> " ++
  $"next_comm=" ++ name_text (sw_comm n) ++ $" next_pid=" ++ str_of_Z (sw_pid n) ++
  $" next_prio=" ++ str_of_Z (sw_prio n).

(** Hexadecimal numerals with an optional sign. *)
Definition hex_digit (c : ascii) : Prop := exists d, digit_val c = Some d /\ (d < 16)%N.
Definition hex_val (s : str) : N :=
  fold_left (fun n c => n * 16 + match digit_val c with Some d => d | None => 0 end)%N s 0%N.
Inductive Signed (dig : ascii -> Prop) (val : str -> N) : str -> Z -> Prop :=
| Sg_none s : s <> [] -> Forall dig s -> Signed dig val s (Z.of_N (val s))
| Sg_plus s : s <> [] -> Forall dig s -> Signed dig val ("+"%char :: s) (Z.of_N (val s))
| Sg_minus s : s <> [] -> Forall dig s -> Signed dig val ("-"%char :: s) (- Z.of_N (val s)).
Definition hex_num := Signed hex_digit hex_val.
Definition dec_num := Signed (fun c => is_digit c = true) dec_val.

(** [NR 64 (1, 7764ee9000, 103, 0, 0, 4)] *)
Inductive EnterCall : str -> Z -> list Z -> Prop :=
| EC ds a0 a1 a2 a3 a4 a5 z0 z1 z2 z3 z4 z5 : digits ds ->
    hex_num a0 z0 -> hex_num a1 z1 -> hex_num a2 z2 -> hex_num a3 z3 -> hex_num a4 z4 -> hex_num a5 z5 ->
    EnterCall ($"NR " ++ ds ++ $" (" ++ a0 ++ $", " ++ a1 ++ $", " ++ a2 ++ $", " ++ a3 ++ $", " ++ a4 ++ $", " ++ a5 ++ $")")
              (Z.of_N (dec_val ds)) [z0; z1; z2; z3; z4; z5].
(** [NR 64 = -1]; the number read is the longest one. *)
Inductive ExitCall : str -> str -> Z -> Z -> Prop :=
| XC n r zn zr rest : dec_num n zn -> dec_num r zr ->
    match rest with [] => True | c :: _ => is_digit c = false end ->
    ExitCall ($"NR " ++ n ++ $" = " ++ r) rest zn zr.

(** The first place of [s] where [P call rest] holds. *)
Definition FirstAt {A} (P : str -> str -> A -> Prop) (s : str) (x : A) : Prop :=
  exists pre call post, s = pre ++ call ++ post /\ P call post x /\
    forall a b c d y, s = a ++ b ++ c -> P b c y -> pre = a ++ d -> d = [].

(** F2FS: [key = value, key = value]; commas inside a value separate words. *)
Definition uncomma (s : str) : str := map (fun c => if Ascii.eqb c "," then " "%char else c) s.
Record ffield := FF { f_key : str; f_text : str; f_val : str; f_more : list str }.
Definition ffield_ok (f : ffield) : Prop :=
  word_ok (f_key f) /\ ~ In "="%char (f_key f) /\ ~ In ","%char (f_key f) /\
  ~ In "="%char (f_text f) /\ (exists r, f_text f = f_val f ++ r) /\
  Words (uncomma (f_text f)) (f_val f :: f_more f).
Definition ffield_text (f : ffield) : str := f_key f ++ $" = " ++ f_text f.

Definition EnterAt (call rest : str) (x : Z * list Z) : Prop := EnterCall call (fst x) (snd x).
Definition ExitAt (call rest : str) (x : Z * Z) : Prop := ExitCall call rest (fst x) (snd x).

(** CPU masks *)
Definition zeros (n : nat) : str := repeat "0"%char n.
Definition hexs (m : str) : Prop := m <> [] /\ Forall hex_digit m.
(** Hexadecimal text that Python reads as a binary literal. *)
Definition binary_like (m : str) : Prop :=
  exists x r, m = "0"%char :: x :: r /\ (x = "b"%char \/ x = "B"%char) /\ r <> [] /\
    Forall (fun c => c = "0"%char \/ c = "1"%char) r.
