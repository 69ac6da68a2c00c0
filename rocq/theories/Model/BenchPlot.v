(** Model of trappy/wa/results.py:27-79: drawing the results of benchmark runs.
    Scores are rationals, [None] is NaN (a run other benchmarks do not have). *)
From Coq Require Import List Ascii String ZArith QArith Bool.
From Verif Require Import Lib.PyStr.
Import ListNotations.
Local Open Scope list_scope.

Definition qlt (a b : Q) : bool := negb (Qle_bool b a).
(** Comparison of doubles: false if one is NaN. *)
Definition nlt (a b : option Q) : bool := match a, b with Some x, Some y => qlt x y | _, _ => false end.
Definition nle (a b : option Q) : bool := match a, b with Some x, Some y => Qle_bool x y | _, _ => false end.
(** Python's [min] and [max]: the first, replaced by later ones that are less (greater). *)
Definition py_min (l : list (option Q)) : res (option Q) :=
  match l with [] => Err EValue | x :: r => Ok (fold_left (fun m y => if nlt y m then y else m) r x) end.
Definition py_max (l : list (option Q)) : res (option Q) :=
  match l with [] => Err EValue | x :: r => Ok (fold_left (fun m y => if nlt m y then y else m) r x) end.
Definition nsub (a b : option Q) : option Q := match a, b with Some x, Some y => Some (x - y)%Q | _, _ => None end.
Definition nadd (a b : option Q) : option Q := match a, b with Some x, Some y => Some (x + y)%Q | _, _ => None end.
(** 37-62 [enlarge_axis]: [shown] are the limits [plt.axis()] returns, those of the axes pyplot drew on last; [ax] says
    whether the result has axes ([init_fig] was called).  The outcome is the limits its axes are given, if any. *)
Definition enlarge_axis (ax : bool) (shown : Q * Q) (columns : list (list (option Q))) : res (option (option Q * option Q)) :=
  match columns with
  | [] => Err EValue
  | _ =>
      let data := List.concat columns in
      do data_min <- py_min data ;;
      do data_max <- py_max data ;;
      let margin := option_map (fun d => d / 10)%Q (nsub data_max data_min) in
      let margin := if nlt margin (Some 1%Q) then Some 1%Q else margin in
      let low := nle data_min (Some (fst shown)) in
      let high := nle (Some (snd shown)) data_max in
      let y_min := if low then nsub data_min margin else Some (fst shown) in
      let y_max := if high then nadd data_max margin else Some (snd shown) in
      if low || high then if ax then Ok (Some (y_min, y_max)) else Err EAttribute else Ok None
  end.

(** 70-72: [replace('_', ' ')] and [title()]; letters are those of ASCII *)
Definition upper (c : ascii) : ascii := if is_lower c then ascii_of_N (code c - 32) else c.
Definition lower (c : ascii) : ascii := if is_upper c then ascii_of_N (code c + 32) else c.
Definition is_letter (c : ascii) : bool := is_upper c || is_lower c.
Fixpoint title_from (inside : bool) (s : str) : str :=
  match s with
  | [] => []
  | c :: r => (if inside then lower c else upper c) :: title_from (is_letter c) r
  end.
Definition bench_title (benchmark : str) : str :=
  title_from false (map (fun c => if Ascii.eqb c "_" then " "%char else c) benchmark).
(** 64-79 [plot_results_benchmark] and [plot_results]: benchmark and title of each drawing *)
Definition plot_results_benchmark (benches : list str) (b : str) (title : option str) : res (str * str) :=
  if existsb (eqs b) benches then Ok (b, match title with Some t => t | None => bench_title b end) else Err EKey.
Definition plot_results (benches : list str) : res (list (str * str)) := mapM (fun b => plot_results_benchmark benches b None) benches.
