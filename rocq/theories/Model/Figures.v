(** Model of trappy/plot_utils.py:43-125 (limits and sizes) and of trappy/thermal.py:293-311. *)
From Coq Require Import List Ascii String ZArith QArith Qround Bool.
From Verif Require Import Lib.PyStr Lib.Regex Model.Temperature.
Import ListNotations.
Local Open Scope list_scope.

(** Rationals stand for the floating point numbers. *)
Inductive lim := LDefault | LRange | LPair (lo hi : Q).
(** plot_utils.py:43-61 [set_lim]: the limits afterwards. *)
Definition set_lim (l : lim) (cur : Q * Q) : Q * Q :=
  match l with
  | LDefault => cur
  | LRange => (fst cur - (1 # 10) * (snd cur - fst cur), snd cur + (1 # 10) * (snd cur - fst cur))%Q
  | LPair lo hi => (lo, hi)
  end.
(** What is set of an axis. *)
Record axis := Axis { x_label : str; y_label : str; ax_title : str; x_lim : Q * Q; y_lim : Q * Q }.
(** 105-125 [post_plot_setup], 63-75 [set_xlim], [set_ylim] *)
Definition post_plot_setup (ax : axis) (title : str) (xlabel ylabel : option str) (xlim ylim : lim) : axis :=
  Axis (match xlabel with Some s => s | None => x_label ax end) (match ylabel with Some s => s | None => y_label ax end)
       (match title with [] => ax_title ax | _ => title end) (set_lim xlim (x_lim ax)) (set_lim ylim (y_lim ax)).
(** 29 *)
Definition GOLDEN_RATIO : Q := 1618034 # 1000000.
(** 77-103 [pre_plot_setup]: the size of the figure, width and height. *)
Definition figsize (width height : option Q) (nrows : nat) : Q * Q :=
  let '(w, h) := match height, width with
                 | None, None => (10, 6)%Q
                 | None, Some w => (w, inject_Z (Qfloor (w / GOLDEN_RATIO)))
                 | Some h, None => (h * GOLDEN_RATIO, h)%Q
                 | Some h, Some w => (w, h)
                 end in
  (w, h * inject_Z (Z.of_nat nrows))%Q.

(** thermal.py:304: a P, then as many characters as possible, then _in *)
Definition pat_in : re := RSeqs [RLit $"P"; RGrp 1 (RStar (RCls not_nl)); RLit $"_in"].
(** 302-306 *)
Definition in_actor (col : str) : list str :=
  match re_match pat_in col with
  | Some m => if eqs col $"Ptot_in" then [] else match group 1 m with Some a => [a] | None => [] end
  | None => []
  end.
(** 293-311 [plot_inout_power]: the figures, each with its title and columns. *)
Definition plot_inout_power {V} (f : list (str * list V)) (title : str) : res (list (str * list (str * list V))) :=
  mapM (fun a => do cols <- mapM (fun c => match dget eqs c f with Some v => Ok (c, v) | None => Err EKey end) [$"P" ++ a ++ $"_in"; $"P" ++ a ++ $"_out"] ;;
                 Ok (normalize_title a title, cols))
       (flat_map in_actor (map fst f)).
