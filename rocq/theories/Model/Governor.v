(** Model of the power plots of trappy/thermal.py [ThermalGovernor] and of
    trappy/plot_utils.py [plot_weighted_input_power]. *)
From Coq Require Import List Ascii String ZArith NArith Bool Arith.
From Verif Require Import Lib.PyStr Lib.Regex Lib.TotalOrder Model.Sysfs.
Import ListNotations.
Local Open Scope list_scope.

(** [a <= b] of strings *)
Fixpoint str_leb (a b : str) : bool :=
  match a, b with
  | [], _ => true
  | _ :: _, [] => false
  | x :: a', y :: b' => (code x <? code y)%N || ((code x =? code y)%N && str_leb a' b')
  end.
(** "req_power\d+" and the like *)
Definition pat_numbered (p : str) : re := RSeqs [RLit p; RPlus (RCls is_digit)].
Definition matches (r : re) (s : str) : bool := match re_match r s with Some _ => true | None => false end.

Section Governor.
  (** [scale v w]: [v * w / 1024] *)
  Context {V W : Type} (scale : V -> Z -> W).
  (** A frame: its columns in order, each name once. *)
  Notation frame := (list (str * list V)).
  (** thermal.py:191, 233, 278-279: the columns whose name starts with the word and a number *)
  Definition power_cols (word : str) (f : frame) : frame := filter (fun c => matches (pat_numbered word) (fst c)) f.
  (** thermal.py:161-206 [plot_input_power] (word "req_power") and 249-291 [plot_output_power] ("granted_power"): the
      columns drawn.  Renaming the columns wants a name for each; a frame without columns cannot be drawn. *)
  Definition plot_power (word : str) (f : frame) (actor_order : list str) : res (list (str * list V)) :=
    let cs := power_cols word f in
    if negb (List.length cs =? List.length actor_order) then Err EValue
    else match cs with [] => Err EType | _ => Ok (combine actor_order (map snd cs)) end.
  (** [dfr[in_col] * weight / 1024]; a weight that is no number cannot be used *)
  Definition scaled (w : param) (l : list V) : res (list W) :=
    match w with PInt z => Ok (map (fun v => scale v z) l) | PText _ => Err EType end.
  (** thermal.py:208-247 [plot_weighted_input_power] *)
  Definition weighted (f : frame) (actor_weights : list (str * param)) : res (list (str * list W)) :=
    do d <- fold_left (fun d cw => do d <- d ;; do l <- scaled (snd (snd cw)) (snd (fst cw)) ;; Ok (dset eqs (fst (snd cw)) l d))
              (combine (power_cols $"req_power" f) actor_weights) (Ok []) ;;
    match d with [] => Err EType | _ => Ok d end.
  (** plot_utils.py:245-252: the weights in the order of the names of the parameters *)
  Definition sorted_weights (params : list (str * param)) : list param :=
    flat_map (fun k => if matches pat_weight k then match dget eqs k params with Some v => [v] | None => [] end else [])
      (sort_u str_leb (map fst params)).
  (** 238-267 [plot_weighted_input_power] for runs given by parameters and frame: the figure of each run *)
  Definition plot_weighted (actor_order : list str) (runs : list (list (str * param) * frame)) : res (list (list (str * list W))) :=
    let aws := map (fun r => combine actor_order (sorted_weights (fst r))) runs in
    if forallb (fun l => match l with [] => true | _ => false end) aws then Ok []
    else mapM (fun ra => weighted (snd (fst ra)) (snd ra)) (combine runs aws).
End Governor.
