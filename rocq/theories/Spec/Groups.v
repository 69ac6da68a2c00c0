(** Sorted indexes as groups of equal times, and how a group is spread. *)
From Coq Require Import List Arith ZArith Bool QArith Qcanon Sorted.
Import ListNotations.
Local Open Scope nat_scope.
Local Open Scope Qc_scope.

(** [(v, n)]: the time [v] occurs [n] times. *)
Definition group := (Qc * nat)%type.
Definition flat (gs : list group) : list Qc := flat_map (fun g => repeat (fst g) (snd g)) gs.
Definition increasing (gs : list group) : Prop :=
  StronglySorted (fun a b => fst a < fst b) gs /\ Forall (fun g => (1 <= snd g)%nat) gs.

(** The step between the times of a group, given the time of the next group. *)
Definition step (max_delta : Qc) (v : Qc) (n : nat) (next : option Qc) : Qc :=
  match next with
  | None => max_delta
  | Some w => let d := (w - v) / Q2Qc (inject_Z (Z.of_nat n)) in
              if Qclt_le_dec max_delta d then max_delta else d
  end.
(** [v; v+d; v+2d; v+4d; ...]: each distance doubles. *)
Fixpoint doubled (v d : Qc) (n : nat) : list Qc :=
  match n with O => [] | S m => (v + d) :: doubled v (d + d) m end.
Definition spread (max_delta v : Qc) (n : nat) (next : option Qc) : list Qc :=
  match n with O => [] | S m => v :: doubled v (step max_delta v n next) m end.
Fixpoint spread_all (max_delta : Qc) (gs : list group) : list Qc :=
  match gs with
  | [] => []
  | (v, n) :: rest =>
      spread max_delta v n (match rest with [] => None | (w, _) :: _ => Some w end)
      ++ spread_all max_delta rest
  end.
(** The spread of every group stays before the next group. *)
Fixpoint fits (max_delta : Qc) (gs : list group) : Prop :=
  match gs with
  | [] => True
  | (v, n) :: rest =>
      match rest with
      | [] => True
      | (w, _) :: _ => Forall (fun x => x < w) (spread max_delta v n (Some w))
      end /\ fits max_delta rest
  end.
