(** Residencies of a history of context switches. *)
From Coq Require Import List Ascii String ZArith Bool.
From Verif Require Import Lib.PyStr Model.Base Model.Residency.
Import ListNotations.
Local Open Scope list_scope.

Section Spec.
  Context {T : Type}.
  (** The row switches to a task of interest: not the idle task, not a migration
      thread, and selected. *)
  Definition Wanted (execnames : list str) (pids : list Z) (r : switch T) : Prop :=
    s_next r <> 0%Z /\ exists comm, s_comm r = CStr comm /\ ~ (exists rest, comm = $"migration" ++ rest) /\
    (execnames = [] \/ In comm execnames) /\ (pids = [] \/ In (s_next r) pids).
  (** It switches to the task called [n]. *)
  Definition Called (n : str) (r : switch T) : Prop := exists comm, s_comm r = CStr comm /\ n = comm ++ $"-" ++ str_of_Z (s_next r).
  (** The row mentions a task. *)
  Definition Mentions (p : Z) (r : switch T) : Prop := s_prev r = p \/ s_next r = p.
  (** Row [i] starts a residency of the task called [n] on [cpu] at [s]: the next row that
      mentions the task switches it out at [e], or there is none and [e] is the last
      time. *)
  Definition Resides (execnames : list str) (pids : list Z) (rows : list (switch T)) (n : str) (i : nat) (iv : T * T * Z) : Prop :=
    exists before r after, rows = before ++ r :: after /\ List.length before = i /\ Wanted execnames pids r /\ Called n r /\
      fst (fst iv) = s_time r /\ snd iv = s_cpu r /\
      ((exists mid r' rest, after = mid ++ r' :: rest /\ (forall x, In x mid -> ~ Mentions (s_next r) x) /\ s_prev r' = s_next r /\ snd (fst iv) = s_time r') \/
       ((forall x, In x after -> ~ Mentions (s_next r) x) /\ exists init rn, rows = init ++ [rn] /\ snd (fst iv) = s_time rn)).
  (** What the function needs: names are texts, pids are not negative, and a task
      that is switched to again though it was not switched out has kept its name. *)
  Definition Regular (execnames : list str) (pids : list Z) (rows : list (switch T)) : Prop :=
    (forall r, In r rows -> (0 <= s_next r)%Z /\ exists comm, s_comm r = CStr comm) /\
    forall before r mid r' rest, rows = before ++ r :: mid ++ r' :: rest -> Wanted execnames pids r ->
      (forall x, In x (mid ++ [r']) -> s_prev x <> s_next r) -> s_next r' = s_next r -> s_comm r' = s_comm r.
End Spec.
