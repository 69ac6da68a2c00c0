(** What the page of an EventPlot has to be given. *)
From Coq Require Import List Ascii String ZArith QArith Bool Sorted.
From Verif Require Import Lib.PyStr Model.EventPlot.
Import ListNotations.
Local Open Scope list_scope.

Definition total (evs : list event) : Q := fold_right (fun e s => (e_end e - e_start e) + s)%Q 0%Q evs.
(** Total time over one more than the number of intervals. *)
Definition mean1 (evs : list event) : Q := (total evs / inject_Z (Z.of_nat (S (List.length evs))))%Q.
(** [keys] are the names whose total time is not zero, longest first; among equals those that come first in the data. *)
Definition Ranked (d : data) (keys : list str) : Prop :=
  exists idx, StronglySorted (fun i j => exists n e n' e', nth_error d i = Some (n, e) /\ nth_error d j = Some (n', e') /\
                                ((mean1 e' < mean1 e)%Q \/ (mean1 e == mean1 e')%Q /\ (i < j)%nat)) idx /\
    (forall i, In i idx <-> exists n e, nth_error d i = Some (n, e) /\ ~ (total e == 0)%Q) /\
    Forall2 (fun i k => exists e, nth_error d i = Some (k, e)) idx keys.
(** The intervals of a name in a lane, in order. *)
Definition intervals (lane_is : lane -> bool) (evs : list event) : list (Q * Q) :=
  map (fun e => (e_start e, e_end e)) (filter (fun e => lane_is (e_lane e)) evs).
Definition is_lane (l l' : lane) : bool := lane_eqb l' l.
(** The last position of a lane in a list. *)
Definition LastAt (ls : list lane) (l : lane) (i : nat) : Prop :=
  nth_error ls i = Some l /\ forall j, nth_error ls j = Some l -> (j <= i)%nat.

(** A lane holds exactly these intervals, and there is no entry for a lane without any. *)
Definition Shown (m : list (lane * list (Q * Q))) (id : lane) (ivs : list (Q * Q)) : Prop :=
  dget lane_eqb id m = match ivs with [] => None | _ => Some ivs end.
(** The intervals [m] of one name, by lane. *)
Definition Lanes (input : list lane) (evs : list event) (m : list (lane * list (Q * Q))) : Prop :=
  match input with
  | [] => forall l, Shown m l (intervals (is_lane l) evs)
  | _ => (forall l i, LastAt input l i -> Shown m (LZ (Z.of_nat i)) (intervals (is_lane l) evs)) /\
         (forall id, In id (map fst m) -> exists l i, LastAt input l i /\ id = LZ (Z.of_nat i))
  end.
Definition Labels (input : list lane) (prefix : str) (num : Z) (ls : list (nat * lane)) : Prop :=
  match input with
  | [] => List.length ls = Z.to_nat num /\ forall i, (i < Z.to_nat num)%nat -> nth_error ls i = Some (i, LS (prefix ++ str_of_nat i))
  | _ => List.length ls = List.length input /\ forall i l, nth_error input i = Some l -> nth_error ls i = Some (i, l)
  end.
Definition GraphOf (d : data) (input : list lane) (prefix : str) (num : Z) (g : graph) : Prop :=
  Ranked d (g_keys g) /\ Labels input prefix num (g_lanes g) /\
  Forall2 (fun ne nm => fst nm = fst ne /\ NoDup (map fst (snd nm)) /\ Lanes input (snd ne) (snd nm)) d (g_data g).
(** No lane at all, or an event on a lane that is not listed. *)
Definition NoLanes (d : data) (input : list lane) (num : Z) : Prop :=
  (input = [] /\ num = 0%Z) \/ (input <> [] /\ exists n evs e, In (n, evs) d /\ In e evs /\ ~ In (e_lane e) input).
