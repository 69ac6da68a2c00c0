(** What the plots of one page have to have in common. *)
From Coq Require Import List Ascii String ZArith QArith Bool Sorted.
From Verif Require Import Lib.PyStr Model.Sync.
Import ListNotations.
Local Open Scope list_scope.

(** The smallest range that holds all of these. *)
Definition Hull (rs : list range) (r : range) : Prop :=
  (forall x, In x rs -> fst r <= fst x /\ snd x <= snd r)%Q /\
  (exists x, In x rs /\ fst x == fst r)%Q /\ (exists x, In x rs /\ snd x == snd r)%Q.
(** The plots of a group. *)
Definition Member (grp : str) (ne : str * entry) : Prop := e_group (snd ne) = Some grp.

(** The rows of a plot are those it was made with, with at most one empty row at each end. *)
Definition Kept (raw : list row) (g : graph) : Prop :=
  g_front g = false /\ g_back g = false /\ g_raw g = raw \/
  g_front g = true /\ g_back g = true /\ exists t0 t1, g_raw g = (t0, None) :: raw ++ [(t1, None)].
(** A range holds another. *)
Definition Holds (r x : range) : Prop := (fst r <= fst x /\ snd x <= snd r)%Q.
(** The same, with empty rows at the ends of the range that is shown. *)
Definition Ended (raw : list row) (g : graph) : Prop :=
  g_raw g = raw \/ g_raw g = (fst (g_x g), None) :: raw ++ [(snd (g_x g), None)].

(** What [sync] does: at least two plots of the group get the hulls of their ranges, with empty rows at the ends;
    nothing else changes. *)
Definition Synced (grp : str) (l l' : list (str * entry)) : Prop :=
  exists x y, Hull (map (fun ne => g_x (e_graph (snd ne))) (filter (in_group grp) l)) x /\
              Hull (map (fun ne => g_y (e_graph (snd ne))) (filter (in_group grp) l)) y /\
  Forall2 (fun ne ne' => fst ne' = fst ne /\ e_group (snd ne') = e_group (snd ne) /\ e_zoom (snd ne') = e_zoom (snd ne) /\
             (Member grp ne -> g_x (e_graph (snd ne')) = x /\ g_y (e_graph (snd ne')) = y) /\
             (Member grp ne -> forall raw, Kept raw (e_graph (snd ne)) -> 
                g_raw (e_graph (snd ne')) = (fst x, None) :: raw ++ [(snd x, None)] /\ Kept raw (e_graph (snd ne'))) /\
             (~ Member grp ne -> ne' = ne)) l l'.

(** Plots that are made one after the other, each under its own name. *)
Definition name_of (a : act) : str := match a with Make n _ _ _ _ _ => n | Drop n => n | UserZoom n _ _ => n end.
Definition Made (a : act) : Prop := match a with Make _ _ _ _ _ _ => True | _ => False end.
Definition ranges (f : range -> range -> range) (grp : str) (acts : list act) : list range :=
  flat_map (fun a => match a with
                     | Make _ (Some g) _ x y _ => if eqs g grp then [f x y] else []
                     | _ => []
                     end) acts.
(** Rows in the order of time. *)
Definition InOrder (l : list row) : Prop := StronglySorted (fun a b => fst a <= fst b)%Q l.
(** The range that is shown at first holds all the rows. *)
Definition Whole (a : act) : Prop :=
  match a with Make _ _ _ x _ raw => (fst x <= snd x)%Q /\ InOrder raw /\ forall r, In r raw -> (fst x <= fst r <= snd x)%Q | _ => False end.
(** Every plot has the rows of a call that made it. *)
Definition Rows (acts : list act) (l : list (str * entry)) : Prop :=
  forall n e, In (n, e) l -> exists x y raw, In (Make n (e_group e) (e_zoom e) x y raw) acts /\ Kept raw (e_graph e).
(** Every plot has data. *)
Definition Full (a : act) : Prop := match a with Make _ _ _ _ _ raw => raw <> [] | _ => True end.
(** Of the two ranges of a plot, that of time and that of values. *)
Definition fx (x y : range) := x.
Definition fy (x y : range) := y.
