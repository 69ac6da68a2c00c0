From Coq Require Import List Ascii String ZArith QArith Qround Bool Lia Lqa.
From Verif Require Import Lib.PyStr Lib.PyStrFacts Lib.Regex Lib.RegexFacts Lib.SearchFacts Model.Temperature Model.Figures Spec.Figures.
Import ListNotations.
Local Open Scope nat_scope.
Local Open Scope list_scope.

(** ** Input and output power *)
Lemma not_nl_In a : Forall (fun c => not_nl c = true) a <-> ~ In nl a.
Proof.
  induction a as [|c a IH]; [split; [intros _ []|constructor]|]. split.
  - intros H. inversion H as [|? ? H1 H2]; subst. intros [-> |Hi]; [discriminate|]. now apply IH.
  - intros H. constructor; [|apply IH; intros Hi; apply H; now right]. destruct (not_nl c) eqn:E; auto. exfalso. apply H. left.
    unfold not_nl in E. apply negb_false_iff, N.eqb_eq in E. unfold nl. rewrite <- E. symmetry. apply ascii_N_embedding.
Qed.
Lemma names_dec_max (c : str) : (exists a, names c a) -> exists a, names c a /\ forall a', names c a' -> List.length a' <= List.length a.
Proof.
  intros (a0 & H0). assert (B : forall a, names c a -> List.length a <= List.length c).
  { intros a ((r & ->) & _). rewrite !app_length. lia. }
  assert (G : forall n a, names c a -> List.length c - List.length a <= n -> exists a, names c a /\ forall a', names c a' -> List.length a' <= List.length a).
  { induction n as [|n IH]; intros a Ha Hn.
    - exists a. split; auto. intros a' Ha'. pose proof (B a' Ha'). pose proof (B a Ha). lia.
    - destruct (Compare_dec.le_lt_dec (List.length c) (List.length a)).
      + exists a. split; auto. intros a' Ha'. pose proof (B a' Ha'). lia.
      + (* is there a longer one? *)
        assert (D : forall k, (exists a', names c a' /\ List.length a' = k) \/ ~ (exists a', names c a' /\ List.length a' = k)).
        { intros k. destruct c as [|p c']; [right; intros (a' & ((r & E) & _) & _); discriminate|].
          destruct (ascii_dec p "P"%char) as [-> |N]; [|right; intros (a' & ((r & E) & _) & _); injection E as E _; congruence].
          destruct (in_dec ascii_dec nl (firstn k c')) as [I|I].
          { right. intros (a' & ((r & E) & Hn') & <-). injection E as E. subst c'. apply Hn'. now rewrite firstn_app, firstn_all, Nat.sub_diag, firstn_O, app_nil_r in I. }
          destruct (is_prefix $"_in" (skipn k c')) eqn:P.
          - apply is_prefix_spec in P as (r & Er). destruct (Nat.le_gt_cases k (List.length c')).
            + left. exists (firstn k c'). split; [split; [exists r|auto]|now apply firstn_length_le].
              rewrite <- Er, firstn_skipn. reflexivity.
            + rewrite skipn_all2 in Er by lia. discriminate.
          - right. intros (a' & ((r & E) & _) & <-). injection E as E. subst c'. rewrite skipn_app, skipn_all, Nat.sub_diag in P. cbn in P. discriminate. }
        assert (E : (exists a', names c a' /\ List.length a < List.length a') \/ ~ (exists a', names c a' /\ List.length a < List.length a')).
        { assert (E' : forall m, (exists a', names c a' /\ List.length a < List.length a' <= m) \/ ~ (exists a', names c a' /\ List.length a < List.length a' <= m)).
          { induction m as [|m IHm]; [right; intros (a' & _ & H); lia|]. destruct IHm as [(a' & H1 & H2)|N]; [left; exists a'; split; auto; lia|].
            destruct (D (S m)) as [(a' & H1 & H2)|N2].
            - destruct (Nat.le_gt_cases (S m) (List.length a)); [right; intros (a'' & _ & H4); lia|]. left. exists a'. split; auto. lia.
            - right. intros (a' & H1 & H2). destruct (Nat.eq_dec (List.length a') (S m)) as [E|E]; [apply N2; eauto|]. apply N. exists a'. split; auto. lia. }
          destruct (E' (List.length c)) as [(a' & H1 & H2)|N]; [left; exists a'; split; auto; lia|]. right. intros (a' & H1 & H2). apply N. exists a'. split; auto.
        }
        destruct E as [(a' & H1 & H2)|N]; [apply (IH a'); auto; lia|]. exists a. split; auto. intros a' H'. destruct (Nat.le_gt_cases (List.length a') (List.length a)); auto.
        exfalso. apply N. eauto. }
  apply (G (List.length c) a0); auto. lia.
Qed.
Lemma names_split a u v rest c : c = $"P" ++ a ++ rest -> rest = u ++ v -> ~ In nl a -> ~ In nl u -> (exists r, v = $"_in" ++ r) -> names c (a ++ u).
Proof.
  intros -> -> Ha Hu (r & ->). split; [exists r; now rewrite <- app_assoc|]. rewrite in_app_iff. tauto.
Qed.
Lemma match_in c a : names c a -> (forall a', names c a' -> List.length a' <= List.length a) -> exists m, re_match pat_in c = Some m /\ group 1 m = Some a.
Proof.
  intros ((rest & ->) & Hn) Hmax. unfold re_match.
  set (k := fun s' => Some (mk_res [] ($"P" ++ a ++ $"_in" ++ rest) s')).
  change (mt pat_in (St None ($"P" ++ a ++ $"_in" ++ rest) []) k) with
    (mt (RLit $"P") (St None ($"P" ++ a ++ $"_in" ++ rest) []) (fun s1 => mt (RStar (RCls not_nl)) s1 (fun s2 => mt (RLit $"_in") (cap_add 1 s1 s2) k))).
  rewrite (lit_step $"P" _ (a ++ $"_in" ++ rest)) by reflexivity. set (s1 := adv _ _ _).
  eexists. split.
  - apply (star_back not_nl s1 a ($"_in" ++ rest)); auto.
    + now apply not_nl_In.
    + rewrite (cap_add_adv 1 s1 s1 a ($"_in" ++ rest)) by reflexivity. rewrite (lit_step $"_in" _ rest) by reflexivity. reflexivity.
    + intros u v E Hu Hp. apply mt_None. intros s' Hm. apply mat_lit in Hm as (Er & _).
      rewrite (cap_add_adv 1 s1 s1 (a ++ u) v) in Er by (cbn [s1 adv s_rest]; rewrite E; now rewrite <- app_assoc). cbn [s_rest] in Er.
      assert (N : names ($"P" ++ a ++ $"_in" ++ rest) (a ++ u)) by (eapply names_split; eauto; now apply not_nl_In).
      apply Hmax in N. rewrite app_length in N. destruct u; [congruence|]. cbn in N. lia.
  - reflexivity.
Qed.
Lemma match_names c m : re_match pat_in c = Some m -> exists a, names c a.
Proof.
  unfold re_match. intros H. apply mt_sound in H as (s' & Hm & _). change pat_in with (RSeq (RLit $"P") (RSeq (RGrp 1 (RStar (RCls not_nl))) (RLit $"_in"))) in Hm.
  inversion Hm as [| |? ? ? s1 ? H1 H2| | | | | | |]; subst. apply (mat_lit $"P") in H1 as (E1 & _). cbn [s_rest] in E1.
  inversion H2 as [| |? ? ? s2 ? H3 H4| | | | | | |]; subst. inversion H3 as [| | | | | | |? ? ? s3 H5| |]; subst.
  apply mat_star_cls in H5 as (u & E2 & Hu & _). apply (mat_lit $"_in") in H4 as (E3 & _). cbn [cap_add s_rest] in E3.
  exists u. split; [exists (s_rest s')|now apply not_nl_In]. rewrite <- E3, <- E2. reflexivity.
Qed.
Lemma in_actor_ok c : (exists a, in_actor c = [a] /\ Input c a) \/ in_actor c = [] /\ forall a, ~ Input c a.
Proof.
  unfold in_actor. destruct (re_match pat_in c) as [m|] eqn:E.
  - destruct (eqs c $"Ptot_in") eqn:T.
    + apply eqs_eq in T. right. split; auto. intros a (H & _). congruence.
    + destruct (match_names c m E) as (a0 & H0). destruct (names_dec_max c (ex_intro _ a0 H0)) as (a & Ha & Hm).
      destruct (match_in c a Ha Hm) as (m' & E' & G). rewrite E in E'. injection E' as <-. rewrite G. left. exists a. split; auto.
      split; [|split; auto]. intros ->. vm_compute in T. discriminate.
  - right. split; auto. intros a (_ & Ha & Hm). destruct (match_in c a Ha Hm) as (m' & E' & _). congruence.
Qed.
Lemma actors_ok cs : Actors cs (flat_map in_actor cs).
Proof.
  induction cs as [|c cs IH]; cbn [flat_map]; [constructor|]. destruct (in_actor_ok c) as [(a & -> & H)|(-> & H)]; cbn [app]; now constructor.
Qed.
Theorem inout_ok {V} (f : list (str * list V)) title : NoDup (map fst f) -> exists actors, Actors (map fst f) actors /\
  ((forall a, In a actors -> In ($"P" ++ a ++ $"_in") (map fst f) /\ In ($"P" ++ a ++ $"_out") (map fst f)) ->
   exists out, plot_inout_power f title = Ok out /\
     Forall2 (fun a p => fst p = normalize_title a title /\ exists i o, In ($"P" ++ a ++ $"_in", i) f /\ In ($"P" ++ a ++ $"_out", o) f /\
                snd p = [($"P" ++ a ++ $"_in", i); ($"P" ++ a ++ $"_out", o)]) actors out) /\
  (forall a, In a actors -> ~ In ($"P" ++ a ++ $"_in") (map fst f) \/ ~ In ($"P" ++ a ++ $"_out") (map fst f) -> plot_inout_power f title = Err EKey).
Proof.
  intros ND. exists (flat_map in_actor (map fst f)). split; [apply actors_ok|]. unfold plot_inout_power.
  set (actors := flat_map in_actor (map fst f)). clearbody actors.
  assert (G : forall c, (exists v, dget eqs c f = Some v /\ In (c, v) f) \/ dget eqs c f = None /\ ~ In c (map fst f)).
  { intros c. destruct (dget eqs c f) as [v|] eqn:E; [left; exists v; split; auto; now apply (dget_In eqs eqs_eq)|]. right. split; auto. now apply (dget_None eqs eqs_eq). }
  assert (K : forall c v, In (c, v) f -> In c (map fst f)) by (intros c v H; apply in_map_iff; now exists (c, v)).
  match goal with |- context [mapM ?g actors] => set (fig := g) end.
  split.
  - induction actors as [|a actors IH]; intros H; [exists []; split; [reflexivity|constructor]|].
    destruct IH as (out & E & F); [intros; apply H; now right|]. cbn [mapM]. destruct (H a) as [Hi Ho]; [now left|].
    destruct (G ($"P" ++ a ++ $"_in")) as [(i & Ei & Ii)|[_ N]]; [|easy]. destruct (G ($"P" ++ a ++ $"_out")) as [(o & Eo & Io)|[_ N]]; [|easy].
    assert (Ef : fig a = Ok (normalize_title a title, [($"P" ++ a ++ $"_in", i); ($"P" ++ a ++ $"_out", o)])).
    { unfold fig. cbn [mapM]. rewrite Ei, Eo. reflexivity. }
    rewrite Ef, E. cbn [bind]. eexists. split; [reflexivity|]. constructor; auto. split; auto. exists i, o. auto.
  - intros a Ha N. induction actors as [|b actors IH]; [easy|]. cbn [mapM].
    destruct (G ($"P" ++ b ++ $"_in")) as [(i & Ei & Ii)|[Ei _]].
    2:{ assert (Ef : fig b = Err EKey) by (unfold fig; cbn [mapM]; rewrite Ei; reflexivity). now rewrite Ef. }
    destruct (G ($"P" ++ b ++ $"_out")) as [(o & Eo & Io)|[Eo _]].
    2:{ assert (Ef : fig b = Err EKey) by (unfold fig; cbn [mapM]; rewrite Ei, Eo; reflexivity). now rewrite Ef. }
    assert (Ef : fig b = Ok (normalize_title b title, [($"P" ++ b ++ $"_in", i); ($"P" ++ b ++ $"_out", o)])).
    { unfold fig. cbn [mapM]. rewrite Ei, Eo. reflexivity. }
    rewrite Ef. cbn [bind]. destruct Ha as [-> |Ha]; [exfalso; destruct N as [N|N]; apply N; eauto|]. rewrite IH by auto. reflexivity.
Qed.

(** ** Limits and sizes *)
Local Open Scope Q_scope.
Theorem range_ok lo hi : let '(lo', hi') := set_lim LRange (lo, hi) in
  hi' - lo' == (6 # 5) * (hi - lo) /\ (lo' + hi') / 2 == (lo + hi) / 2 /\ (lo <= hi -> lo' <= lo /\ hi <= hi') /\ (hi <= lo -> lo <= lo' /\ hi' <= hi).
Proof. cbn. repeat split; try (field); lra. Qed.
Theorem floor_golden w : let h := Qfloor (w / GOLDEN_RATIO) in inject_Z h * GOLDEN_RATIO <= w < inject_Z (h + 1) * GOLDEN_RATIO.
Proof.
  cbv zeta. assert (P : 0 < GOLDEN_RATIO) by reflexivity. split.
  - pose proof (Qfloor_le (w / GOLDEN_RATIO)) as H. apply (Qmult_le_compat_r _ _ GOLDEN_RATIO) in H; [|lra].
    rewrite (Qmult_comm (w / GOLDEN_RATIO)), Qmult_div_r in H by (intros E; rewrite E in P; now apply Qlt_irrefl in P). exact H.
  - pose proof (Qlt_floor (w / GOLDEN_RATIO)) as H. apply (Qmult_lt_compat_r _ _ GOLDEN_RATIO P) in H.
    rewrite (Qmult_comm (w / GOLDEN_RATIO)), Qmult_div_r in H by (intros E; rewrite E in P; now apply Qlt_irrefl in P). exact H.
Qed.
