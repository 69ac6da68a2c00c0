(** C83: sizes and limits of figures, and the figures of input and output power. *)
From Coq Require Import List Ascii String ZArith QArith Qround Bool.
From Verif Require Import Lib.PyStr Model.Temperature Model.Figures Spec.Figures Proofs.FiguresP.
Import ListNotations.
Local Open Scope list_scope.

(** "range" makes the interval one fifth longer around the same middle. *)
Theorem C83_range : forall lo hi, let '(lo', hi') := set_lim LRange (lo, hi) in
  (hi' - lo' == (6 # 5) * (hi - lo) /\ (lo' + hi') / 2 == (lo + hi) / 2 /\
   (lo <= hi -> lo' <= lo /\ hi <= hi') /\ (hi <= lo -> lo <= lo' /\ hi' <= hi))%Q.
Proof. exact range_ok. Qed.
(** Labels, title and limits are set if given and stay as they are otherwise. *)
Theorem C83_setup : forall ax title xlabel ylabel xlim ylim, let ax' := post_plot_setup ax title xlabel ylabel xlim ylim in
  (forall s, xlabel = Some s -> x_label ax' = s) /\ (xlabel = None -> x_label ax' = x_label ax) /\
  (forall s, ylabel = Some s -> y_label ax' = s) /\ (ylabel = None -> y_label ax' = y_label ax) /\
  (title <> [] -> ax_title ax' = title) /\ (title = [] -> ax_title ax' = ax_title ax) /\
  (xlim = LDefault -> x_lim ax' = x_lim ax) /\ (forall a b, xlim = LPair a b -> x_lim ax' = (a, b)) /\
  (ylim = LDefault -> y_lim ax' = y_lim ax) /\ (forall a b, ylim = LPair a b -> y_lim ax' = (a, b)) /\
  (xlim = LRange -> ylim = LDefault -> x_lim ax' = set_lim LRange (x_lim ax) /\ y_lim ax' = y_lim ax) /\
  (ylim = LRange -> xlim = LDefault -> y_lim ax' = set_lim LRange (y_lim ax) /\ x_lim ax' = x_lim ax).
Proof.
  intros ax title xlabel ylabel xlim ylim. cbv zeta. unfold post_plot_setup. cbn [x_label y_label ax_title x_lim y_lim].
  repeat split; intros; subst; try reflexivity. destruct title; congruence.
Qed.
(** The height is that of one row; one number gives the other by the golden ratio, a height as a whole number. *)
Theorem C83_sizes : forall n, figsize None None n = (10, 6 * inject_Z (Z.of_nat n))%Q /\
  (forall w h, figsize (Some w) (Some h) n = (w, h * inject_Z (Z.of_nat n))%Q) /\
  (forall h, figsize None (Some h) n = (h * (1618034 # 1000000), h * inject_Z (Z.of_nat n))%Q) /\
  (forall w, exists h, figsize (Some w) None n = (w, inject_Z h * inject_Z (Z.of_nat n))%Q /\ (inject_Z h * (1618034 # 1000000) <= w < inject_Z (h + 1) * (1618034 # 1000000))%Q).
Proof. intros n. repeat split. intros w. eexists. split; [reflexivity|]. apply floor_golden. Qed.
(** One figure for each column of input power but the total, with the column of the output power; none if one is missing. *)
Theorem C83_inout : forall V (f : list (str * list V)) title, NoDup (map fst f) -> exists actors, Actors (map fst f) actors /\
  ((forall a, In a actors -> In ($"P" ++ a ++ $"_in") (map fst f) /\ In ($"P" ++ a ++ $"_out") (map fst f)) ->
   exists out, plot_inout_power f title = Ok out /\
     Forall2 (fun a p => fst p = normalize_title a title /\ exists i o, In ($"P" ++ a ++ $"_in", i) f /\ In ($"P" ++ a ++ $"_out", o) f /\
                snd p = [($"P" ++ a ++ $"_in", i); ($"P" ++ a ++ $"_out", o)]) actors out) /\
  (forall a, In a actors -> ~ In ($"P" ++ a ++ $"_in") (map fst f) \/ ~ In ($"P" ++ a ++ $"_out") (map fst f) -> plot_inout_power f title = Err EKey).
Proof. exact @inout_ok. Qed.

Definition powers : list (str * list Z) :=
  [($"Pa7_in", [1; 2]); ($"Pgpu_in", [3; 4]); ($"Ptot_in", [4; 6]); ($"Pgpu_out", [3; 3]); ($"Pa7_out", [1; 1]); ($"tin", [0; 0])]%Z.
Example C83_ex_inout : NoDup (map fst powers) /\ plot_inout_power powers $"run" =
  Ok [($"run - a7", [($"Pa7_in", [1; 2]%Z); ($"Pa7_out", [1; 1]%Z)]); ($"run - gpu", [($"Pgpu_in", [3; 4]%Z); ($"Pgpu_out", [3; 3]%Z)])].
Proof. split; [repeat constructor; cbn; intuition discriminate|vm_compute; reflexivity]. Qed.
Example C83_ex_missing : plot_inout_power (($"Pbig_in", [5; 6]%Z) :: powers) [] = Err EKey.
Proof. vm_compute. reflexivity. Qed.
Example C83_ex_sizes : figsize (Some 20%Q) None 2 = (20, 12 * 2)%Q /\ set_lim LRange (0, 10)%Q = (-10 # 10, 110 # 10)%Q.
Proof. split; vm_compute; reflexivity. Qed.
(** A positive width below the golden ratio leaves no height. *)
Theorem C83_narrow_refuted : ~ (forall w n, (0 < w)%Q -> (0 < n)%nat -> (0 < snd (figsize (Some w) None n))%Q).
Proof. intros H. specialize (H 1%Q 1%nat eq_refl (le_n 1)). vm_compute in H. discriminate. Qed.
(** Text after "_in" is not looked at: an actor may be drawn twice. *)
Theorem C83_twice_refuted : ~ (forall (f : list (str * list Z)) title out, NoDup (map fst f) -> plot_inout_power f title = Ok out -> NoDup out).
Proof.
  intros H. specialize (H [($"Pa_in", [1%Z]); ($"Pa_in_max", [1%Z]); ($"Pa_out", [1%Z])] []).
  specialize (H [($"a", [($"Pa_in", [1%Z]); ($"Pa_out", [1%Z])]); ($"a", [($"Pa_in", [1%Z]); ($"Pa_out", [1%Z])])]).
  assert (N : NoDup (map fst [($"Pa_in", [1%Z]); ($"Pa_in_max", [1%Z]); ($"Pa_out", [1%Z])])) by (repeat constructor; cbn; intuition discriminate).
  specialize (H N). assert (E : plot_inout_power [($"Pa_in", [1%Z]); ($"Pa_in_max", [1%Z]); ($"Pa_out", [1%Z])] [] =
    Ok [($"a", [($"Pa_in", [1%Z]); ($"Pa_out", [1%Z])]); ($"a", [($"Pa_in", [1%Z]); ($"Pa_out", [1%Z])])]) by (vm_compute; reflexivity).
  apply H in E. inversion E as [|? ? E1 E2]. apply E1. now left.
Qed.

Print Assumptions C83_range.
Print Assumptions C83_setup.
Print Assumptions C83_sizes.
Print Assumptions C83_inout.
Print Assumptions C83_narrow_refuted.
Print Assumptions C83_twice_refuted.
