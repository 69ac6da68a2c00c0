(** Model of [apply_callbacks] (trappy/ftrace.py:571-618). *)
From Coq Require Import List Ascii String ZArith Bool.
From Verif Require Import Lib.PyStr Lib.F64 Model.Base.
Import ListNotations.

Section Callbacks.
  (** A row and the value of its [__line] column (every frame of a parsed trace
      has one; a frame without it raises KeyError). *)
  Context {R : Type} (line : R -> Z).

  (** [min(events, key=getLine)]: the first event with the least next line; each
      pending event has its next row and the rest of its rows. *)
  Definition pending := list (str * (R * list R)).
  Fixpoint least (best : str * (R * list R)) (evs : pending) : str * (R * list R) :=
    match evs with
    | [] => best
    | e :: rest => if (line (fst (snd e)) <? line (fst (snd best)))%Z then least e rest else least best rest
    end.
  (** 613-618: the chosen event moves on to its next row or is removed. *)
  Fixpoint advance (name : str) (evs : pending) : pending :=
    match evs with
    | [] => []
    | (n, (r, rest)) :: tl =>
        if eqs n name then match rest with [] => tl | r' :: rest' => (n, (r', rest')) :: tl end
        else (n, (r, rest)) :: advance name tl
    end.
  (** 603-618: the loop; the calls made, in order. *)
  Fixpoint loop (fuel : nat) (evs : pending) : res (list (str * R)) :=
    match evs with
    | [] => Ok []
    | e :: rest =>
        match fuel with
        | O => Err EFuel
        | S f => let b := least e rest in
                 do calls <- loop f (advance (fst b) evs) ;;
                 Ok ((fst b, fst (snd b)) :: calls)
        end
    end.
  (** 588-591: the requested frames, the empty ones left out. *)
  Definition start (frames : list (str * list R)) : pending :=
    flat_map (fun f => match snd f with [] => [] | r :: rest => [(fst f, (r, rest))] end) frames.
  Definition total (frames : list (str * list R)) : nat := fold_right (fun f n => (List.length (snd f) + n)%nat) 0%nat frames.
  Definition callback_calls (frames : list (str * list R)) : res (list (str * R)) :=
    loop (total frames) (start frames).
  (** The effect of calling [fn_map[event]] on some state. *)
  Definition apply_callbacks {S} (fn : str -> R -> S -> S) (frames : list (str * list R)) (s : S) : res S :=
    do calls <- callback_calls frames ;;
    Ok (fold_left (fun s c => fn (fst c) (snd c) s) calls s).
End Callbacks.

(** ftrace.py:596-601 and 607-609: the dictionary given to a callback.  [cols] are
    the frame's columns and [t], [vals] the index and the values of the row; the
    name-to-position dictionary keeps the last position of a repeated name. *)
Inductive cbval := VTime (t : float) | VCell (c : cell).
Definition event_dict (cols : list str) (t : float) (vals : list cell) : list (str * cbval) :=
  fold_left (fun d kv => dset eqs (fst kv) (snd kv) d)
            (combine ($"Index" :: cols) (VTime t :: map VCell vals)) [].
