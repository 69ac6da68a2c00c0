(** Model of the synchronisation of interactive line plots on a page,
    trappy/plotter/js/ILinePlot.js:17-173.  Numbers are rationals.  Dygraph
    1.1.1 keeps the ranges it is given and returns them from [xAxisRange] and
    [yAxisRange]; a row without values stands for one of the rows of
    [undefined] that are added at the ends. *)
From Coq Require Import List Ascii String ZArith QArith Bool.
From Verif Require Import Lib.PyStr.
Import ListNotations.
Local Open Scope nat_scope.
Local Open Scope list_scope.

Notation range := (Q * Q)%type.
Notation row := (Q * option (list Q))%type.
Definition qlt (a b : Q) : bool := negb (Qle_bool b a).

(** A Dygraph: its ranges, [rawData_], [padFront_] and [padBack_]. *)
Record graph := Graph { g_x : range; g_y : range; g_raw : list row; g_front : bool; g_back : bool }.
(** 160-165 *)
Record entry := Entry { e_graph : graph; e_group : option str; e_zoom : bool }.
(** 19-20: the plots by the names of their elements, what is synchronised for
    each group; the elements that are on the page. *)
Record page := Page { p_graphs : list (str * entry); p_sync : list (str * list str); p_dom : list str }.

(** 22-28 [purge] *)
Definition purge (p : page) : page :=
  Page (filter (fun ne => existsb (eqs (fst ne)) (p_dom p)) (p_graphs p)) (p_sync p) (p_dom p).

Definition in_group (g : str) (ne : str * entry) : bool :=
  match e_group (snd ne) with Some g' => eqs g' g | None => false end.
(** 46-60: a range is extended to hold another *)
Definition widen (r : option range) (x : range) : option range :=
  match r with
  | None => Some x
  | Some r => Some (if qlt (fst x) (fst r) then fst x else fst r, if qlt (snd r) (snd x) then snd x else snd r)
  end.
Definition hull (rs : list range) : option range := fold_left widen rs None.

Definition set_first (t : Q) (l : list row) : res (list row) :=
  match l with [] => Err EType | (_, v) :: r => Ok ((t, v) :: r) end.
Definition set_last (t : Q) (l : list row) : res (list row) :=
  do r <- set_first t (rev l) ;; Ok (rev r).
(** 76-97: what is done with each plot of the group *)
Definition sync_graph (x y : range) (g : graph) : res graph :=
  do raw <- (if g_front g then Ok (g_raw g)
             else match g_raw g with [] => Err EType | _ => Ok ((0%Q, None) :: g_raw g) end) ;;
  do raw <- set_first (fst x) raw ;;
  let raw := if g_back g then raw else raw ++ [(0%Q, None)] in
  do raw <- set_last (snd x) raw ;;
  Ok (Graph x y raw true true).
Definition sync_entry (grp : str) (x y : range) (ne : str * entry) : res (str * entry) :=
  if in_group grp ne then
    do g <- sync_graph x y (e_graph (snd ne)) ;; Ok (fst ne, Entry g (e_group (snd ne)) (e_zoom (snd ne)))
  else Ok ne.
(** 30-99 [sync] *)
Definition sync (grp : str) (p : page) : res page :=
  let ms := filter (in_group grp) (p_graphs p) in
  if 2 <=? List.length ms then
    match hull (map (fun ne => g_x (e_graph (snd ne))) ms), hull (map (fun ne => g_y (e_graph (snd ne))) ms) with
    | Some x, Some y =>
        do gs <- mapM (sync_entry grp x y) (p_graphs p) ;;
        let s := if forallb (fun ne => e_zoom (snd ne)) ms then dset eqs grp (map fst ms) (p_sync p) else p_sync p in
        Ok (Page gs s (p_dom p))
    | _, _ => Err EType
    end
  else Ok p.
(** 101-106 [generate], 108-167 [create_graph]: the ranges are those that were
    asked for or those Dygraph finds for the data. *)
Definition generate (n : str) (grp : option str) (zoom : bool) (x y : range) (raw : list row) (p : page) : res page :=
  let e := Entry (Graph x y raw false false) grp zoom in
  let p := purge (Page (dset eqs n e (p_graphs p)) (p_sync p) (p_dom p)) in
  match grp with None => Ok p | Some g => sync g p end.

(** What happens to a page: a plot is added, a cell is removed, the user zooms;
    synchronised plots follow the one that is zoomed. *)
Inductive act :=
| Make (n : str) (grp : option str) (zoom : bool) (x y : range) (raw : list row)
| Drop (n : str)
| UserZoom (n : str) (x y : range).
Definition follows (p : page) (n m : str) : bool :=
  eqs m n || existsb (fun gs => existsb (eqs n) (snd gs) && existsb (eqs m) (snd gs)) (p_sync p).
Definition step (p : page) (a : act) : res page :=
  match a with
  | Make n grp zoom x y raw => generate n grp zoom x y raw (Page (p_graphs p) (p_sync p) (n :: p_dom p))
  | Drop n => Ok (Page (p_graphs p) (p_sync p) (filter (fun m => negb (eqs m n)) (p_dom p)))
  | UserZoom n x y =>
      Ok (Page (map (fun me => if follows p n (fst me) then
                  let e := snd me in (fst me, Entry (Graph x y (g_raw (e_graph e)) (g_front (e_graph e)) (g_back (e_graph e))) (e_group e) (e_zoom e))
                else me) (p_graphs p)) (p_sync p) (p_dom p))
  end.
Fixpoint steps (p : page) (l : list act) : res page :=
  match l with [] => Ok p | a :: r => do p <- step p a ;; steps p r end.
Definition run (l : list act) : res page := steps (Page [] [] []) l.

(** 144-158: the width of a plot when it is made and when the browser is resized *)
Definition width_made (area per_line : Q) : Q := (area / per_line - 3)%Q.
Definition width_resized (area per_line : Q) : Q := (area / per_line)%Q.
