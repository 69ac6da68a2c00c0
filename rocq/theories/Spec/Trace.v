(** What a parsed trace is: assigned times, dispatch, recorded events. *)
From Coq Require Import List Ascii String ZArith NArith Bool.
From Flocq Require Import BinarySingleNaN.
From Verif Require Import Lib.PyStr Lib.F64 Model.Base Model.Line Model.Registry Model.Populate.
Import ListNotations.

(** [u] is the smallest double above [x] (and +inf if there is none). *)
Definition next_double (x u : F64.float) : Prop :=
  (is_finite x = true -> flt x u = true) /\
  (forall y, flt x y = true -> fle u y = true) /\
  (x = finf -> u = finf).

(** Times given to successive lines printed at [ts], after a line at [prev]. *)
Inductive Assigned : F64.float -> list F64.float -> list F64.float -> Prop :=
| As_nil prev : Assigned prev [] []
| As_later prev t ts us : flt prev t = true -> Assigned t ts us -> Assigned prev (t :: ts) (t :: us)
| As_tie prev t u ts us : flt prev t = false -> next_double prev u -> Assigned u ts us ->
    Assigned prev (t :: ts) (u :: us).

Definition occurs (w line : str) : Prop := exists a b, line = a ++ w ++ b.

(** The event a line belongs to, given the selected classes in order: the first
    specific class whose word occurs, else the last fallback class whose word
    occurs. *)
Definition Dispatch (ws : words) (line : str) (attr : str) : Prop :=
  exists pre w k post, ws = pre ++ (w, (attr, k)) :: post /\ occurs w line /\
    ((k_fallback k = false /\
      forall w' a' k', In (w', (a', k')) pre -> k_fallback k' = false -> ~ occurs w' line) \/
     (k_fallback k = true /\
      (forall w' a' k', In (w', (a', k')) ws -> k_fallback k' = false -> ~ occurs w' line) /\
      (forall w' a' k', In (w', (a', k')) post -> ~ occurs w' line))).

(** The lines that carry fields, with their position counted from [i]. *)
Fixpoint parsed (i : Z) (body : list str) : list (Z * str * fields) :=
  match body with
  | [] => []
  | l :: rest =>
      match parse_fields l with
      | Ok (Some f) => (i, l, f) :: parsed (i + 1) rest
      | _ => parsed (i + 1) rest
      end
  end.

(** The events recorded under [attr]. *)
Inductive Recorded (ws : words) (attr : str) :
  list (Z * str * fields) -> list F64.float -> list event -> Prop :=
| Rec_nil : Recorded ws attr [] [] []
| Rec_take i l f t ps ts es : Dispatch ws l attr -> Recorded ws attr ps ts es ->
    Recorded ws attr ((i, l, f) :: ps) (t :: ts)
      (Ev t (f_comm f) (f_pid f) (f_cpu f) i (drop_empty (f_data f)) :: es)
| Rec_skip i l f t ps ts es : ~ Dispatch ws l attr -> Recorded ws attr ps ts es ->
    Recorded ws attr ((i, l, f) :: ps) (t :: ts) es.

Definition attrs (ws : words) : list str := map (fun e => fst (snd e)) ws.

(** The events recorded under an attribute at the end of parsing. *)
Definition arr (attr : str) (st : pstate) : list event :=
  match dget eqs attr (p_events st) with Some l => l | None => [] end.
