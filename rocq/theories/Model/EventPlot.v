(** Model of the data an EventPlot hands to its page,
    trappy/plotter/EventPlot.py:100-217.  Times are rationals: the averages of
    the code are doubles. *)
From Coq Require Import List Ascii String ZArith QArith Bool.
From Verif Require Import Lib.PyStr.
Import ListNotations.
Local Open Scope list_scope.

(** A lane is a number or a text. *)
Inductive lane := LZ (z : Z) | LS (s : str).
Definition lane_eqb (a b : lane) : bool :=
  match a, b with LZ x, LZ y => (x =? y)%Z | LS x, LS y => eqs x y | _, _ => false end.
(** [event_start, event_end, lane] *)
Record event := Event { e_start : Q; e_end : Q; e_lane : lane }.
Notation data := (list (str * list event)).

(** 117-118 *)
Definition avg (evs : list event) : Q :=
  (fold_left Qplus (map (fun e => e_end e - e_start e) evs) 0 / inject_Z (Z.of_nat (List.length evs) + 1))%Q.
(** 120 and 124: [sorted(..., reverse=True)] keeps the order of equal ones *)
Fixpoint insert_desc (x : Q * str) (l : list (Q * str)) : list (Q * str) :=
  match l with
  | [] => [x]
  | y :: r => if Qle_bool (fst y) (fst x) then x :: l else y :: insert_desc x r
  end.
Definition plot_keys (d : data) : list str :=
  map snd (fold_right insert_desc [] (filter (fun x => negb (Qeq_bool (fst x) 0)) (map (fun ne => (avg (snd ne), fst ne)) d))).

(** 193-196: [lane_map[lane] = idx] *)
Fixpoint lane_map (i : nat) (ls : list lane) (m : list (lane * nat)) : list (lane * nat) :=
  match ls with [] => m | l :: r => lane_map (S i) r (dset lane_eqb l i m) end.
Definition relane (m : list (lane * nat)) (e : event) : res event :=
  match dget lane_eqb (e_lane e) m with
  | Some i => Ok (Event (e_start e) (e_end e) (LZ (Z.of_nat i)))
  | None => Err ERuntime
  end.
Fixpoint number {A} (i : nat) (l : list A) : list (nat * A) :=
  match l with [] => [] | a :: r => (i, a) :: number (S i) r end.
(** 183-217 [_get_lanes]: the lanes with their labels and the data, which the call changes in place *)
Definition get_lanes (input : list lane) (prefix : str) (num : Z) (d : data) : res (list (nat * lane) * data) :=
  match input with
  | _ :: _ =>
      do d' <- mapM (fun ne => do evs <- mapM (relane (lane_map 0 input [])) (snd ne) ;; Ok (fst ne, evs)) d ;;
      Ok (number 0 input, d')
  | [] =>
      if (num =? 0)%Z then Err ERuntime
      else Ok (map (fun i => (i, LS (prefix ++ str_of_nat i))) (seq 0 (Z.to_nat num)), d)
  end.

(** 150-161 *)
Definition add_event (m : list (lane * list (Q * Q))) (e : event) : list (lane * list (Q * Q)) :=
  dset lane_eqb (e_lane e) (match dget lane_eqb (e_lane e) m with Some l => l | None => [] end ++ [(e_start e, e_end e)]) m.
Definition group_lanes (d : data) : list (str * list (lane * list (Q * Q))) :=
  map (fun ne => (fst ne, fold_left add_event (snd ne) [])) d.

Record graph := Graph { g_lanes : list (nat * lane); g_keys : list str; g_data : list (str * list (lane * list (Q * Q))) }.
(** 100-131 [__init__]; the keys that are passed are not used. *)
Definition event_plot (d : data) (input : list lane) (prefix : str) (num : Z) : res graph :=
  do x <- get_lanes input prefix num d ;;
  Ok (Graph (fst x) (plot_keys d) (group_lanes (snd x))).
