(** The keywords of plots. *)
From Coq Require Import List Ascii String ZArith QArith Bool Lia.
From Verif Require Import Lib.PyStr Lib.PyStrFacts Model.Attrs Spec.Attrs.
Import ListNotations.
Local Open Scope nat_scope.
Local Open Scope list_scope.

Notation has a l := (existsb (eqs a) l).
Lemma has_In a l : has a l = true <-> In a l.
Proof. rewrite existsb_exists. split; [intros (x & H & E); apply eqs_eq in E; now subst|intros H; exists a; split; auto; now apply eqs_eq]. Qed.
Lemma has_false a l : has a l = false <-> ~ In a l.
Proof. rewrite <- has_In. destruct (has a l); split; congruence. Qed.
Lemma remove_In a l : NoDup l -> forall b, In b (remove_first a l) <-> In b l /\ b <> a.
Proof.
  induction 1 as [|x l Hx Hl IH]; intros b; cbn; [tauto|]. destruct (eqs a x) eqn:E.
  - apply eqs_eq in E as <-. split; [intros Hb; split; auto; intros ->; contradiction|intros [[->|Hb] N]; [congruence|auto]].
  - cbn. rewrite IH. assert (a <> x) by (intros ->; rewrite (proj2 (eqs_eq x x) eq_refl) in E; discriminate).
    split; [intros [->|[Hb N]]; split; auto|intros [[->|Hb] N]; auto].
Qed.
Lemma remove_NoDup a l : NoDup l -> NoDup (remove_first a l).
Proof.
  induction 1 as [|x l Hx Hl IH]; cbn; [constructor|]. destruct (eqs a x) eqn:E; auto. constructor; auto.
  intros H. apply remove_In in H; [tauto|auto].
Qed.
Lemma step_NoDup l c : NoDup l -> NoDup (step l c).
Proof.
  intros H. destruct c as [a|a]; cbn.
  - destruct (has a l) eqn:E; auto. apply has_false in E. apply NoDup_rev in H. rewrite <- (rev_involutive (l ++ [a])). apply NoDup_rev.
    rewrite rev_app_distr. cbn. constructor; auto. rewrite <- in_rev. exact E.
  - now apply remove_NoDup.
Qed.
Lemma step_In l c b : NoDup l -> In b (step l c) <-> match c with Register a => b = a \/ In b l | Unregister a => In b l /\ b <> a end.
Proof.
  intros H. destruct c as [a|a]; cbn.
  - destruct (has a l) eqn:E.
    + apply has_In in E. split; auto. intros [->|]; auto.
    + rewrite in_app_iff. cbn. intuition congruence.
  - now apply remove_In.
Qed.
Lemma defaults_NoDup : NoDup ARGS_TO_FORWARD.
Proof. repeat constructor; cbn; intuition discriminate. Qed.
Lemma about_dec a c : about a c \/ ~ about a c.
Proof. destruct c as [b|b]; cbn; destruct (eqs a b) eqn:E; try (left; now apply eqs_eq); right; intros ->; rewrite (proj2 (eqs_eq b b) eq_refl) in E; discriminate. Qed.
Lemma Forwarded_snoc h c a : Forwarded (h ++ [c]) a <-> match c with Register b => a = b \/ Forwarded h a | Unregister b => Forwarded h a /\ a <> b end.
Proof.
  assert (K : ~ about a c -> Forwarded (h ++ [c]) a <-> Forwarded h a).
  { intros Ha. split.
    - intros [(pre & post & E & H)|[H D]].
      + left. destruct post as [|c' post _] using rev_ind.
        * apply app_inj_tail in E as [_ ->]. exfalso. now apply Ha.
        * rewrite app_comm_cons, app_assoc in E. apply app_inj_tail in E as [-> <-]. exists pre, post. split; auto.
          intros x Hx. apply H, in_or_app. now left.
      + right. split; auto. intros x Hx. apply H, in_or_app. now left.
    - intros [(pre & post & -> & H)|[H D]].
      + left. exists pre, (post ++ [c]). split; [now rewrite <- app_assoc|]. intros x Hx. apply in_app_iff in Hx as [Hx|[<-|[]]]; auto.
      + right. split; auto. intros x Hx. apply in_app_iff in Hx as [Hx|[<-|[]]]; auto. }
  destruct (about_dec a c) as [Ha|Ha].
  - destruct c as [b|b]; cbn in Ha; subst b.
    + split; auto. intros _. left. exists h, []. split; [reflexivity|]. intros x Hx. destruct Hx.
    + split; [|intros []; congruence]. intros [(pre & post & E & H)|[H _]]; exfalso.
      * destruct post as [|c' post _] using rev_ind; [apply app_inj_tail in E as [_ E]; discriminate|].
        rewrite app_comm_cons, app_assoc in E. apply app_inj_tail in E as [_ <-]. eapply H; [apply in_or_app; right; now left|reflexivity].
      * eapply H; [apply in_or_app; right; now left|reflexivity].
  - rewrite (K Ha). destruct c as [b|b]; cbn in Ha; tauto.
Qed.
Theorem forwards_ok h : NoDup (forwards h) /\ forall a, In a (forwards h) <-> Forwarded h a.
Proof.
  unfold forwards. induction h as [|c h IH] using rev_ind.
  - cbn [fold_left]. split; [apply defaults_NoDup|]. intros a. split.
    + intros H. right. split; [|exact H]. intros c Hc. destruct Hc.
    + intros [(pre & post & E & _)|[_ H]]; auto. destruct pre; discriminate.
  - rewrite fold_left_app. cbn [fold_left]. destruct IH as [N IH]. split; [now apply step_NoDup|]. intros a.
    rewrite step_In, Forwarded_snoc by auto. destruct c; now rewrite IH.
Qed.

(** ** Static plots *)
Lemma take_ok F kw : NoDup (map fst kw) -> forall a b k,
  dget eqs k (fst (fold_left (take F) kw (a, b))) = (if has k F then dget eqs k a else match dget eqs k kw with Some v => Some v | None => dget eqs k a end) /\
  dget eqs k (snd (fold_left (take F) kw (a, b))) = (if has k F then match dget eqs k kw with Some v => Some v | None => dget eqs k b end else dget eqs k b).
Proof.
  induction kw as [|[x v] kw IH]; intros N a b k; cbn [fold_left map fst].
  - cbn. destruct (has k F); auto.
  - cbn [map fst] in N. inversion N as [|? ? Hx N']; subst. unfold take at 2 4. cbn [fst snd].
    destruct (has x F) eqn:Ex; destruct (IH N' (if has x F then a else dset eqs x v a) (if has x F then dset eqs x v b else b) k) as [H1 H2];
      rewrite Ex in H1, H2; rewrite H1, H2; cbn [dget]; destruct (eqs k x) eqn:E.
    + apply eqs_eq in E as ->. rewrite Ex. apply (dget_None eqs eqs_eq) in Hx. rewrite Hx. split; auto.
      rewrite (dget_dset eqs eqs_eq), (proj2 (eqs_eq x x) eq_refl). reflexivity.
    + rewrite (dget_dset eqs eqs_eq), E. auto.
    + apply eqs_eq in E as ->. rewrite Ex. apply (dget_None eqs eqs_eq) in Hx. rewrite Hx. split; auto.
      rewrite (dget_dset eqs eqs_eq), (proj2 (eqs_eq x x) eq_refl). reflexivity.
    + rewrite (dget_dset eqs eqs_eq), E. auto.
Qed.
Theorem static_ok F D kw : NoDup (map fst kw) -> forall k,
  dget eqs k (fst (static_init F D kw)) = attribute F D kw k /\ dget eqs k (snd (static_init F D kw)) = plain F kw k.
Proof.
  intros N k. destruct (take_ok F kw N D [] k) as [H1 H2]. unfold static_init. rewrite H1, H2. unfold attribute, plain. split; auto.
  destruct (has k F); auto. cbn. now destruct (dget eqs k kw).
Qed.
Theorem line_ok F kw : NoDup (map fst kw) -> forall k,
  dget eqs k (fst (line_init F kw)) = attribute F line_defaults kw k /\
  dget eqs k (snd (line_init F kw)) = (if negb (has $"scatter" F) && truthy (given kw $"scatter" VNone) then scattered F kw k else plain F kw k).
Proof.
  intros N k. unfold line_init, check_add_scatter. pose proof (static_ok F line_defaults kw N) as S0. destruct (S0 k) as [S1 S2].
  set (st := static_init F line_defaults kw) in *.
  assert (T : truthy (get (fst st) $"scatter") = negb (has $"scatter" F) && truthy (given kw $"scatter" VNone)).
  { unfold get. rewrite (proj1 (S0 $"scatter")). unfold attribute, given.
    change (dget eqs $"scatter" line_defaults) with (Some (VBool false)). destruct (has $"scatter" F); cbn [negb andb]; auto. now destruct (dget eqs $"scatter" kw). }
  rewrite T. destruct (negb (has $"scatter" F) && truthy (given kw $"scatter" VNone)); [|split; assumption].
  cbn [fst snd]. split; [exact S1|]. rewrite (proj1 (S0 $"point_size")). unfold attribute, scattered, dmem.
  change (dget eqs $"point_size" line_defaults) with (@None val).
  destruct (has $"point_size" F) eqn:Ep; cbn [negb andb].
  - rewrite !(dget_dset eqs eqs_eq). rewrite andb_false_r. cbn [andb]. destruct (eqs k $"marker") eqn:E1; [apply eqs_eq in E1 as ->; reflexivity|]. now destruct (eqs k $"linestyle").
  - destruct (dget eqs $"point_size" kw) as [v|]; rewrite ?andb_true_r, ?andb_false_r; rewrite !(dget_dset eqs eqs_eq).
    + destruct (eqs k $"markersize") eqn:E0; [apply eqs_eq in E0 as ->; reflexivity|].
      destruct (eqs k $"marker") eqn:E1; [apply eqs_eq in E1 as ->; reflexivity|]. now destruct (eqs k $"linestyle").
    + destruct (eqs k $"marker") eqn:E1; [apply eqs_eq in E1 as ->; reflexivity|]. now destruct (eqs k $"linestyle").
Qed.
Theorem drawing attr args n : plot_axis attr args n =
  match n with
  | O => (O, Done)
  | _ => if dmem eqs $"color" args then (O, Twice) else if truthy (get attr $"fill") && stepped args then (1, Steps) else (n, Done)
  end.
Proof.
  induction n as [|n IH]; [reflexivity|]. cbn [plot_axis]. destruct (dmem eqs $"color" args) eqn:Ec; auto.
  destruct (truthy (get attr $"fill") && stepped args) eqn:Es; auto. rewrite IH. destruct n; reflexivity.
Qed.

(** ** Interactive plots *)
Lemma update_ok kw : NoDup (map fst kw) -> forall (d : list (str * val)) k,
  dget eqs k (fold_left (fun a kv => dset eqs (fst kv) (snd kv) a) kw d) = match dget eqs k kw with Some v => Some v | None => dget eqs k d end.
Proof.
  induction kw as [|[x v] kw IH]; intros N d k; cbn [fold_left dget fst snd]; auto. cbn [map fst] in N. inversion N as [|? ? Hx N']; subst.
  rewrite IH, (dget_dset eqs eqs_eq) by auto. destruct (eqs k x) eqn:E; auto. apply eqs_eq in E as ->. apply (dget_None eqs eqs_eq) in Hx. now rewrite Hx.
Qed.
Lemma draws_ok v steps : styled v steps -> draws_steps v = Ok steps.
Proof. destruct v as [|b|z|q|s|t o]; cbn; try tauto; intros ->; auto. now destruct s. Qed.
Theorem iline_ok kw num p steps title own : NoDup (map fst kw) -> num <> 0%Z -> given kw $"per_line" (VInt 2) = VInt p -> Z.min num p <> 0%Z ->
  styled (given kw $"drawstyle" VNone) steps ->
  exists ps, iline kw num title own = Ok ps /\
    forall k, dget eqs k ps = match dget eqs k (parameters kw (Z.min num p) steps title own) with Some o => o | None => None end.
Proof.
  intros N Hn Hp Hz Hs. unfold iline, iline_init. set (u := fold_left _ kw iline_defaults).
  assert (U : forall k, dget eqs k u = match dget eqs k kw with Some v => Some v | None => dget eqs k iline_defaults end) by (intros k; apply update_ok; auto).
  assert (G : forall k d, dget eqs k iline_defaults = Some d -> get u k = given kw k d).
  { intros k d Hd. unfold get, given. rewrite U, Hd. now destruct (dget eqs k kw). }
  rewrite (G $"drawstyle" VNone eq_refl). rewrite (draws_ok _ _ Hs). cbn [bind].
  set (a := if steps then dset eqs $"step_plot" (VBool true) u else u).
  assert (A : forall k, dget eqs k a = if steps && eqs k $"step_plot" then Some (VBool true) else dget eqs k u).
  { intros k. unfold a. destruct steps; cbn [andb]; auto. now rewrite (dget_dset eqs eqs_eq). }
  assert (GA : forall k d, dget eqs k iline_defaults = Some d -> eqs k $"step_plot" = false -> get a k = given kw k d).
  { intros k d Hd Hk. rewrite <- (G k d Hd). unfold get. now rewrite A, Hk, andb_false_r. }
  unfold gen_init. destruct (Z.eqb_spec num 0); [contradiction|]. rewrite (GA $"per_line" (VInt 2) eq_refl eq_refl), Hp.
  assert (M : (if (num <? p)%Z then num else p) = Z.min num p) by (destruct (Z.ltb_spec num p); lia). rewrite M.
  destruct (Z.eqb_spec (Z.min num p) 0); [contradiction|]. cbn [bind].
  set (g := ddel eqs $"colors" _).
  assert (GG : forall k, eqs $"colors" k = false -> dget eqs k g = if eqs k $"height" then Some (VInt 400) else if eqs k $"per_line" then Some (VInt (Z.min num p)) else dget eqs k a).
  { intros k Hk. unfold g. rewrite (dget_ddel eqs eqs_eq), Hk, !(dget_dset eqs eqs_eq). reflexivity. }
  assert (V : forall k, eqs $"colors" k = false -> eqs k $"height" = false -> eqs k $"per_line" = false -> eqs k $"step_plot" = false ->
              dget eqs k g = match dget eqs k kw with Some v => Some v | None => dget eqs k iline_defaults end).
  { intros k H1 H2 H3 H4. rewrite GG, H2, H3, A, H4, andb_false_r, U by auto. reflexivity. }
  assert (O : forall k, eqs $"colors" k = false -> eqs k $"height" = false -> eqs k $"per_line" = false -> eqs k $"step_plot" = false ->
              dget eqs k iline_defaults = None -> dget eqs k g = dget eqs k kw).
  { intros k H1 H2 H3 H4 H5. rewrite V, H5 by auto. now destruct (dget eqs k kw). }
  assert (W : forall k d, eqs $"colors" k = false -> eqs k $"height" = false -> eqs k $"per_line" = false -> eqs k $"step_plot" = false ->
              dget eqs k iline_defaults = Some d -> get g k = given kw k d).
  { intros k d H1 H2 H3 H4 H5. unfold get, given. rewrite V, H5 by auto. now destruct (dget eqs k kw). }
  assert (W1 : get g $"step_plot" = if steps then VBool true else given kw $"step_plot" (VBool false)).
  { unfold get, given. rewrite GG, A, U by reflexivity. change (eqs $"step_plot" $"height") with false. change (eqs $"step_plot" $"per_line") with false.
    change (eqs $"step_plot" $"step_plot") with true. change (dget eqs $"step_plot" iline_defaults) with (Some (VBool false)).
    destruct steps; cbn [andb]; auto. now destruct (dget eqs $"step_plot" kw). }
  assert (W2 : get g $"per_line" = VInt (Z.min num p)) by (unfold get; now rewrite GG).
  assert (W3 : get g $"height" = VInt 400) by (unfold get; now rewrite GG).
  assert (W4 : truthy (get g $"scatter") = truthy (given kw $"scatter" VNone)).
  { rewrite (W $"scatter" (VBool false)) by reflexivity. unfold given. now destruct (dget eqs $"scatter" kw). }
  exists (fig_params g title own). split; auto. unfold fig_params. cbv zeta.
  rewrite W1, W2, W3, W4, (W $"fill" (VBool false)), (W $"point_size" (VInt 2)), (O $"fill_alpha"), (O $"group"), (O $"sync_zoom"), (O $"ylim"), (O $"xlim") by reflexivity.
  clear. change (match dget eqs $"group" kw with Some v => v | None => VStr own end) with (given kw $"group" (VStr own)).
  change (match dget eqs $"sync_zoom" kw with Some v => v | None => VBool false end) with (given kw $"sync_zoom" (VBool false)).
  unfold parameters, dmem. generalize (given kw $"group" (VStr own)), (given kw $"sync_zoom" (VBool false)), (given kw $"point_size" (VInt 2)),
    (given kw $"fill" (VBool false)), (truthy (given kw $"scatter" VNone)), (if steps then VBool true else given kw $"step_plot" (VBool false)), (VInt (Z.min num p)).
  intros gr sz ps fi sc sp pl k.
  destruct (dget eqs $"xlim" kw) as [xl|], (dget eqs $"ylim" kw) as [yl|], (dget eqs $"fill_alpha" kw) as [fa|];
  rewrite !(dget_dset eqs eqs_eq); cbn [dget];
  repeat match goal with |- context [eqs k ?s] => destruct (eqs k s) eqn:?;
    [match goal with H : eqs k s = true |- _ => apply eqs_eq in H; subst k end; try reflexivity; destruct sc; reflexivity|] end; reflexivity.
Qed.
