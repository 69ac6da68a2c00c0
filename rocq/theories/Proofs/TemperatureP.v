From Coq Require Import List Ascii String ZArith Bool Lia.
From Verif Require Import Lib.PyStr Lib.PyStrFacts Spec.Governor Proofs.GovernorP Model.Temperature Spec.Temperature.
Import ListNotations.
Local Open Scope list_scope.

Lemma title_ok name what l : normalize_title what name = l <-> Named name what l.
Proof.
  unfold normalize_title, Named. destruct name as [|c name]; split; intros H.
  - subst. auto.
  - destruct H as [[_ ->]|[H _]]; [reflexivity|congruence].
  - subst. right. split; [congruence|reflexivity].
  - destruct H as [[H _]|[_ ->]]; [congruence|reflexivity].
Qed.
Section Temperature.
  Context {T F : Type} (div : Z -> Z -> F).
  Definition zone_b (tz_id : option Z) (z : Z) : bool := match tz_id with None => true | Some z' => (z =? z')%Z end.
  Definition ctl_b (tz_id : option Z) (z : Z) : bool := match tz_id with None => true | Some z' => (z' =? 0)%Z || (z =? z')%Z end.
  Lemma zone_b_spec tz z : zone_b tz z = true <-> InZone tz z.
  Proof. destruct tz; cbn; [apply Z.eqb_eq|tauto]. Qed.
  Lemma ctl_b_spec tz z : ctl_b tz z = true <-> ControlZone tz z.
  Proof. destruct tz; cbn; [rewrite orb_true_iff, !Z.eqb_eq; tauto|tauto]. Qed.
  Lemma filter_true {A} (l : list A) (p : A -> bool) : (forall a, p a = true) -> filter p l = l.
  Proof. intros H. induction l; cbn; [reflexivity|]. rewrite H. now f_equal. Qed.
  Definition zoned (tz : option Z) (r : run T) := filter (fun x => zone_b tz (snd (fst x))) (r_thermal r).
  Lemma thermal_cases tz (r : run T) ctl :
    plot_thermal div (r_thermal r) ctl (r_name r) tz =
    match zoned tz r with
    | [] => Err EValue
    | rows => Ok ((normalize_title $"Temperature" (r_name r), map (fun x => (fst (fst x), div (snd x) 1000)) rows) ::
                  match ctl with Some c => [(normalize_title $"Control" (r_name r), c)] | None => [] end)
    end.
  Proof.
    unfold plot_thermal, zoned, zone_b. destruct (r_thermal r) as [|x rows]; [reflexivity|].
    destruct tz as [z|].
    - destruct (filter _ _); reflexivity.
    - rewrite filter_true by reflexivity. reflexivity.
  Qed.
  Lemma gov_cases tz (r : run T) :
    match tz with
    | Some z => if (z =? 0)%Z then Ok (r_gov r)
                else match r_gov r with Some g => Ok (Some (filter (fun x => (snd (fst x) =? z)%Z) g)) | None => Err EKey end
    | None => Ok (r_gov r)
    end =
    match r_gov r with
    | None => if match tz with Some z => (z =? 0)%Z | None => true end then Ok None else Err EKey
    | Some g => Ok (Some (filter (fun x => ctl_b tz (snd (fst x))) g))
    end.
  Proof.
    destruct tz as [z|]; cbn [ctl_b].
    - destruct (Z.eqb_spec z 0) as [->|N]; [|reflexivity]. destruct (r_gov r); [|reflexivity]. cbn. now rewrite filter_true.
    - destruct (r_gov r); [|reflexivity]. now rewrite filter_true.
  Qed.
  Lemma only_fun {A} (P : A -> Prop) (p : A -> bool) l k : (forall a, p a = true <-> P a) -> (Only P l k <-> filter p l = k).
  Proof. intros H. split; [now apply only_filter|]. intros <-. now apply filter_only. Qed.
  Lemma run_ok tz (r : run T) out : plot_run div tz r = Ok out <-> Drawn div tz r out /\ (r_gov r = None -> forall z, tz = Some z -> z = 0%Z).
  Proof.
    unfold plot_run. rewrite gov_cases.
    assert (Z1 : forall k, Only (fun x => InZone tz (snd (fst x))) (r_thermal r) k <-> zoned tz r = k).
    { intros k. apply (only_fun _ (fun x => zone_b tz (snd (fst x)))). intros a. apply zone_b_spec. }
    destruct (r_gov r) as [g|] eqn:G.
    - cbn [bind option_map]. rewrite thermal_cases.
      assert (Z2 : forall k, Only (fun x => ControlZone tz (snd (fst x))) g k <-> filter (fun x => ctl_b tz (snd (fst x))) g = k).
      { intros k. apply (only_fun _ (fun x => ctl_b tz (snd (fst x)))). intros a. apply ctl_b_spec. }
      split.
      + intros H. split; [|discriminate]. destruct (zoned tz r) as [|x rows] eqn:E.
        * cbn in H. injection H as <-. apply drawn_gov; [now apply Z1|assumption|now apply title_ok].
        * injection H as <-. apply (drawn_thermal div tz r (x :: rows)); [now apply Z1|congruence|now apply title_ok|]. rewrite G.
          eexists _, _. split; [now apply Z2|]. split; [now apply title_ok|]. reflexivity.
      + intros [D _]. destruct D as [rows l1 ctl O N L C|g' l1 O G' L].
        * rewrite G in C. destruct C as (grows & l2 & O2 & L2 & ->). apply Z1 in O. rewrite O. apply Z2 in O2. rewrite O2.
          apply title_ok in L. apply title_ok in L2. rewrite L, L2. destruct rows; [congruence|]. reflexivity.
        * apply Z1 in O. rewrite O. rewrite G in G'. injection G' as <-. apply title_ok in L. subst l1. reflexivity.
    - destruct (match tz with Some z => (z =? 0)%Z | None => true end) eqn:Q; cbn [bind option_map].
      + assert (Q' : forall z, tz = Some z -> z = 0%Z) by (intros z ->; now apply Z.eqb_eq). rewrite thermal_cases. split.
        * intros H. split; [|auto]. destruct (zoned tz r) as [|x rows] eqn:E; [discriminate|]. injection H as <-.
          apply (drawn_thermal div tz r (x :: rows)); [now apply Z1|congruence|now apply title_ok|]. rewrite G. auto.
        * intros [D _]. destruct D as [rows l1 ctl O N L C|g' l1 O G' L]; [|congruence].
          rewrite G in C. destruct C as [_ ->]. apply Z1 in O. rewrite O. apply title_ok in L. rewrite L. destruct rows; [congruence|]. reflexivity.
      + split; [discriminate|]. intros [_ H]. destruct tz as [z|]; [|discriminate]. rewrite (H eq_refl z eq_refl) in Q. discriminate.
  Qed.
  Lemma run_err tz (r : run T) e : plot_run div tz r = Err e -> e = EKey /\ r_gov r = None.
  Proof.
    unfold plot_run. rewrite gov_cases. destruct (r_gov r) as [g|].
    - cbn [bind]. rewrite thermal_cases. destruct (zoned tz r); cbn; discriminate.
    - destruct (match tz with Some z => (z =? 0)%Z | None => true end); cbn [bind].
      + rewrite thermal_cases. destruct (zoned tz r); cbn; [|discriminate]. intros [= <-]. auto.
      + intros [= <-]. auto.
  Qed.
  Lemma mapM_iff {A B} (f : A -> res B) l out : mapM f l = Ok out <-> Forall2 (fun a b => f a = Ok b) l out.
  Proof.
    revert out. induction l as [|a l IH]; intros out; cbn.
    - split; [intros [= <-]; constructor|]. intros H. inversion H. reflexivity.
    - split.
      + destruct (f a) as [b|] eqn:E; cbn; [|discriminate]. destruct (mapM f l) as [bs|]; cbn; [|discriminate]. intros [= <-]. constructor; [assumption|now apply IH].
      + intros H. inversion H; subst. rewrite H2. cbn. apply IH in H4. rewrite H4. reflexivity.
  Qed.
  Lemma mapM_err {A B} (f : A -> res B) l e : mapM f l = Err e -> exists a, In a l /\ f a = Err e.
  Proof.
    induction l as [|a l IH]; cbn; [discriminate|]. destruct (f a) as [b|e'] eqn:E; cbn.
    - destruct (mapM f l); cbn; [discriminate|]. intros [= ->]. destruct IH as (x & I & H); [reflexivity|]. eauto.
    - intros [= ->]. eauto.
  Qed.
  Lemma temperature_ok tz (runs : list (run T)) out : plot_temperature div tz runs = Ok out <->
    exists outs, Forall2 (Drawn div tz) runs outs /\ out = List.concat outs /\
      (forall r, In r runs -> r_gov r = None -> forall z, tz = Some z -> z = 0%Z).
  Proof.
    unfold plot_temperature. split.
    - destruct (mapM (plot_run div tz) runs) as [outs|] eqn:E; cbn; [|discriminate]. intros [= <-]. apply mapM_iff in E.
      exists outs. split; [|split; [reflexivity|]].
      + clear - E. induction E as [|a b l k H Fa IH]; constructor; [now apply run_ok in H|assumption].
      + intros r I. clear - E I. induction E as [|a b l k H Fa IH]; [destruct I|]. destruct I as [-> |I]; [|auto]. apply run_ok in H. tauto.
    - intros (outs & Fa & -> & H). replace (mapM (plot_run div tz) runs) with (Ok outs); [reflexivity|]. symmetry. apply mapM_iff.
      induction Fa as [|a b l k D Fa IH]; constructor; [apply run_ok; split; [assumption|apply H; now left]|]. apply IH. intros r I. apply H. now right.
  Qed.
  Lemma temperature_err tz (runs : list (run T)) e : plot_temperature div tz runs = Err e -> e = EKey /\ exists r, In r runs /\ r_gov r = None.
  Proof.
    unfold plot_temperature. destruct (mapM (plot_run div tz) runs) as [outs|] eqn:E; cbn; [discriminate|]. intros [= ->].
    apply mapM_err in E as (r & I & H). apply run_err in H as [-> G]. eauto.
  Qed.
End Temperature.
