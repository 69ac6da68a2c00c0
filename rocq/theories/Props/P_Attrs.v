(** C86: the keywords of plots. *)
From Coq Require Import List Ascii String ZArith QArith Bool Lia.
From Verif Require Import Lib.PyStr Model.Attrs Spec.Attrs Proofs.AttrsP.
Import ListNotations.
Local Open Scope list_scope.

(** Which keywords are passed on to matplotlib, after any registrations. *)
Theorem C86_forwards : forall h, NoDup (forwards h) /\ forall a, In a (forwards h) <-> Forwarded h a.
Proof. exact forwards_ok. Qed.
(** Attributes and arguments of bar plots and line plots. *)
Theorem C86_bar : forall F kw, NoDup (map fst kw) -> forall k,
  dget eqs k (fst (bar_init F kw)) = attribute F bar_attrs kw k /\ dget eqs k (snd (bar_init F kw)) = plain F kw k.
Proof. intros F. exact (static_ok F bar_defaults). Qed.
Theorem C86_line : forall F kw, NoDup (map fst kw) -> forall k,
  dget eqs k (fst (line_init F kw)) = attribute F line_attrs kw k /\
  dget eqs k (snd (line_init F kw)) = (if negb (existsb (eqs $"scatter") F) && truthy (given kw $"scatter" VNone) then scattered F kw k else plain F kw k).
Proof. exact line_ok. Qed.
(** Drawing ends before the first line if a colour is forwarded, after it if steps are to be filled, and else draws all. *)
Theorem C86_draw : forall attr args n, plot_axis attr args n =
  match n with
  | O => (O, Done)
  | _ => if dmem eqs $"color" args then (O, Twice) else if truthy (get attr $"fill") && stepped args then (1%nat, Steps) else (n, Done)
  end.
Proof. exact drawing. Qed.
(** The parameters of a figure of an interactive plot: these and no others. *)
Theorem C86_interactive : forall kw num p steps title own,
  NoDup (map fst kw) -> num <> 0%Z -> given kw $"per_line" (VInt 2) = VInt p -> Z.min num p <> 0%Z -> styled (given kw $"drawstyle" VNone) steps ->
  exists ps, iline kw num title own = Ok ps /\
    forall k, dget eqs k ps = match dget eqs k (parameters kw (Z.min num p) steps title own) with Some o => o | None => None end.
Proof. exact iline_ok. Qed.

(** ** Examples *)
Definition history := [Register $"alpha"; Unregister $"marker"; Register $"zorder"; Unregister $"alpha"; Register $"alpha"].
Example C86_ex_forwards : forwards history = [$"markersize"; $"markevery"; $"linestyle"; $"linewidth"; $"drawstyle"; $"zorder"; $"alpha"].
Proof. vm_compute. reflexivity. Qed.
Definition kw1 : attrs := [($"scatter", VBool true); ($"alpha", VNum (1 # 2)); ($"point_size", VInt 4); ($"marker", VStr $"x"); ($"linewidth", VInt 2); ($"width", VInt 9)].
Example C86_ex_line : NoDup (map fst kw1) /\ snd (line_init (forwards history) kw1) =
    [($"alpha", VNum (1 # 2)); ($"linewidth", VInt 2); ($"linestyle", VStr []); ($"marker", VStr $"o"); ($"markersize", VInt 4)] /\
  get (fst (line_init (forwards history) kw1)) $"width" = VInt 9 /\ get (fst (line_init (forwards history) kw1)) $"marker" = VStr $"x" /\
  get (fst (line_init (forwards history) kw1)) $"length" = VInt 7.
Proof. split; [repeat constructor; cbn; intuition discriminate|vm_compute; repeat split]. Qed.
Definition kw2 : attrs := [($"drawstyle", VStr $"steps-post"); ($"fill_alpha", VNum (1 # 4)); ($"per_line", VInt 3); ($"xlim", VObj true 1); ($"height", VInt 900)].
Example C86_ex_interactive : NoDup (map fst kw2) /\ given kw2 $"per_line" (VInt 2) = VInt 3 /\ styled (given kw2 $"drawstyle" VNone) true /\
  match iline kw2 2 $"t" $"42" with
  | Ok ps => get ps $"step_plot" = VBool true /\ get ps $"fill_graph" = VBool true /\ get ps $"per_line" = VInt 2 /\ get ps $"height" = VInt 400 /\
             get ps $"syncGroup" = VStr $"42" /\ get ps $"dateWindow" = VObj true 1 /\ dget eqs $"valueRange" ps = None
  | Err _ => False
  end.
Proof. split; [repeat constructor; cbn; intuition discriminate|vm_compute; repeat split]. Qed.
Example C86_ex_steps : plot_axis (fst (line_init ARGS_TO_FORWARD (($"fill", VBool true) :: kw2))) (snd (line_init ARGS_TO_FORWARD (($"fill", VBool true) :: kw2))) 3 = (1%nat, Steps).
Proof. vm_compute. reflexivity. Qed.
(** A colour cannot be forwarded, although it can be registered. *)
Theorem C86_colour_refuted : ~ (forall h kw n, NoDup (map fst kw) -> dmem eqs $"fill" kw = false ->
  let st := line_init (forwards h) kw in plot_axis (fst st) (snd st) n = (n, Done)).
Proof.
  intros H. specialize (H [Register $"color"] [($"color", VStr $"red")] 1%nat ltac:(repeat constructor; cbn; tauto) eq_refl). vm_compute in H. discriminate.
Qed.
(** A height given to an interactive plot is not used. *)
Theorem C86_height_refuted : ~ (forall kw ps h, NoDup (map fst kw) -> dget eqs $"height" kw = Some h -> iline kw 1 [] [] = Ok ps -> dget eqs $"height" ps = Some h).
Proof.
  intros H. specialize (H [($"height", VInt 900)]). destruct (iline [($"height", VInt 900)] 1 [] []) as [ps|] eqn:E; [|vm_compute in E; discriminate].
  specialize (H ps (VInt 900) ltac:(repeat constructor; cbn; tauto) eq_refl eq_refl). vm_compute in E. injection E as <-. vm_compute in H. discriminate.
Qed.

Print Assumptions C86_forwards.
Print Assumptions C86_bar.
Print Assumptions C86_line.
Print Assumptions C86_draw.
Print Assumptions C86_interactive.
Print Assumptions C86_colour_refuted.
Print Assumptions C86_height_refuted.
