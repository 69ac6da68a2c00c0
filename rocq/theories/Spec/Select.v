(** Class selection: ambiguity, registries reached by registration, which class
    answers to a requested event. *)
From Coq Require Import List Ascii String ZArith NArith Bool.
From Verif Require Import Lib.PyStr Model.Registry Spec.Trace.
Import ListNotations.

(** Two selected classes such that the word of one occurs in that of the other. *)
Definition Ambiguous (ks : list klass) : Prop :=
  exists i j a b, (i < j)%nat /\ nth_error ks i = Some a /\ nth_error ks j = Some b /\
    (occurs (k_word a) (k_word b) \/ occurs (k_word b) (k_word a)).

(** Registries that some history of registrations leads to. *)
Inductive Reach : registry -> Prop :=
| Reach_start : Reach (Reg [] [] [])
| Reach_reg r k scope r' : Reach r -> register r k scope = Ok r' -> Reach r'
| Reach_unreg r k : Reach r -> Reach (unregister r k).

(** What a registry holds under a name, per dictionary. *)
Definition in_thermal (r : registry) n := dget eqs n (r_thermal r).
Definition in_sched (r : registry) n := dget eqs n (r_sched r).
Definition in_dynamic (r : registry) n := dget eqs n (r_dynamic r).
Definition or_else {A} (a b : option A) : option A := match a with Some _ => a | None => b end.

(** A class is known when some dictionary holds it and no later one hides it. *)
Definition Known (r : registry) (n : str) (k : klass) : Prop :=
  or_else (in_dynamic r n) (or_else (in_sched r n) (in_thermal r n)) = Some k.
(** A class answers to a requested event name. *)
Definition Answers (ev : str) (k : klass) : Prop :=
  k_word k = ev \/ k_word k = ev ++ $":" \/ given_name k = ev.

(** The class an event name stands for: a known one that answers, else a fresh
    one named after it whose word is the name and a colon. *)
Definition Picked (r : registry) (ev n : str) (c : klass) : Prop :=
  (Known r n c /\ Answers ev c) \/
  (n = ev /\ k_word c = ev ++ $":" /\ k_name c = Some ev /\ k_fallback c = false /\ c = new_class ev /\
   forall m k, Known r m k -> ~ Answers ev k).
Definition entry (e : str * klass) : str * (str * klass) := (k_word (snd e), (fst e, snd e)).
