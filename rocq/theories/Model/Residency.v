(** Model of trappy/plotter/Utils.py:46-101 [get_trace_event_data]. *)
From Coq Require Import List Ascii String ZArith Bool.
From Verif Require Import Lib.PyStr Model.Base.
Import ListNotations.
Local Open Scope list_scope.

Section Residency.
  Context {T : Type}.
  (** A row of sched_switch: the columns that are read. *)
  Record switch := Switch { s_time : T; s_prev : Z; s_next : Z; s_comm : cell; s_cpu : Z }.
  (** An interval [[start, end, cpu]]. *)
  Notation iv := (T * T * Z)%type.
  Record rstate := RState { r_pmap : list (Z * str); r_data : list (str * list iv); r_procs : list str }.

  (** 77 *)
  Definition show_cell (c : cell) : str := match c with CInt z => str_of_Z z | CStr s => s | CNone => $"None" end.
  Definition task_name (r : switch) : str := show_cell (s_comm r) ++ $"-" ++ str_of_Z (s_next r).
  (** [data] is a defaultdict *)
  Definition dat (d : list (str * list iv)) (n : str) : list iv := match dget eqs n d with Some l => l | None => [] end.
  (** 72-75 *)
  Definition switch_out (r : switch) (st : rstate) : res rstate :=
    match dget Z.eqb (s_prev r) (r_pmap st) with
    | None => Ok st
    | Some n => match rev (dat (r_data st) n) with
                | [] => Err EIndex
                | (s, _, c) :: l => Ok (RState (ddel Z.eqb (s_prev r) (r_pmap st)) (dset eqs n (rev ((s, s_time r, c) :: l)) (r_data st)) (r_procs st))
                end
    end.
  (** 79-87 *)
  Definition switch_lost (r : switch) (st : rstate) : res rstate :=
    match dget Z.eqb (s_next r) (r_pmap st) with
    | None => Ok st
    | Some _ => match rev (dat (r_data st) (task_name r)) with
                | [] => Err EIndex
                | _ :: l => Ok (RState (ddel Z.eqb (s_next r) (r_pmap st)) (dset eqs (task_name r) (rev l) (r_data st)) (r_procs st))
                end
    end.
  (** 89-99; an empty list of names or pids selects all. *)
  Definition switch_in (execnames : list str) (pids : list Z) (end_idx : T) (r : switch) (st : rstate) : res rstate :=
    if Z.eqb (s_next r) 0 then Ok st
    else match s_comm r with
         | CStr comm =>
             if is_prefix $"migration" comm then Ok st
             else if match execnames with [] => false | _ => negb (existsb (eqs comm) execnames) end then Ok st
             else if match pids with [] => false | _ => negb (existsb (Z.eqb (s_next r)) pids) end then Ok st
             else let n := task_name r in
                  Ok (RState (dset Z.eqb (s_next r) n (r_pmap st)) (dset eqs n (dat (r_data st) n ++ [(s_time r, end_idx, s_cpu r)]) (r_data st))
                             (if existsb (eqs n) (r_procs st) then r_procs st else r_procs st ++ [n]))
         | _ => Err EAttribute
         end.
  Fixpoint walk (execnames : list str) (pids : list Z) (end_idx : T) (rows : list switch) (st : rstate) : res rstate :=
    match rows with
    | [] => Ok st
    | r :: rest => do st1 <- switch_out r st ;; do st2 <- switch_lost r st1 ;; do st3 <- switch_in execnames pids end_idx r st2 ;;
                   walk execnames pids end_idx rest st3
    end.
  Definition event_data (execnames : list str) (pids : list Z) (rows : list switch) : res (list (str * list iv) * list str * (T * T)) :=
    match rows, rev rows with
    | r0 :: _, rn :: _ => do st <- walk execnames pids (s_time rn) rows (RState [] [] []) ;;
                          Ok (r_data st, r_procs st, (s_time r0, s_time rn))
    | _, _ => Err EIndex
    end.
End Residency.
Arguments switch : clear implicits.
Arguments rstate : clear implicits.
