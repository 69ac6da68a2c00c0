From Coq Require Import List Ascii String ZArith NArith Bool Lia.
From Verif Require Import Lib.PyStr Lib.PyStrFacts Lib.Regex Lib.RegexFacts Lib.SearchFacts Spec.Lines Proofs.LineP Model.Sysfs Spec.Sysfs.
Import ListNotations.
Local Open Scope list_scope.

Lemma numbered_match a b ds q prev : digits ds -> match b with c :: _ => is_digit c = false | [] => False end ->
  forall k : st -> option mres, k (St (last_or prev (a ++ ds ++ b)) q []) <> None ->
  mt (RSeqs [RLit a; RPlus (RCls is_digit); RLit b]) (St prev (a ++ ds ++ b ++ q) []) k <> None.
Proof.
  intros [Hne Hd] Hb k Hk. cbn [RSeqs mt]. rewrite (lit_step a _ (ds ++ b ++ q)) by reflexivity.
  destruct (k (St (last_or prev (a ++ ds ++ b)) q [])) as [x|] eqn:E; [|congruence].
  assert (G : mt (RPlus (RCls is_digit)) (adv (St prev (a ++ ds ++ b ++ q) []) a (ds ++ b ++ q))
      (fun s' => mt (RLit b) s' k) = Some x).
  { eapply (plus_max is_digit _ ds (b ++ q)); [reflexivity|exact Hne|exact Hd|destruct b; [tauto|exact Hb]|].
    rewrite (lit_step b _ q) by reflexivity. unfold adv. cbn [s_prev s_caps]. rewrite <- !last_or_app. exact E. }
  cbn [mt] in G |- *. rewrite G. discriminate.
Qed.
Lemma numbered_search a b s : match b with c :: _ => is_digit c = false | [] => False end ->
  (re_search (RSeqs [RLit a; RPlus (RCls is_digit); RLit b]) s <> None <-> Numbered a b s).
Proof.
  intros Hb. set (r := RSeqs _). split.
  - intros H. unfold re_search in H. destruct (search_from r [] None s) as [m|] eqn:E; [|congruence].
    apply search_inv in E as (p & t & s' & -> & M & _). unfold r in M. cbn [RSeqs] in M.
    apply mat_seq_inv in M as (s1 & M1 & M). apply mat_seq_inv in M as (s2 & M2 & M3).
    apply mat_lit in M1 as (E1 & _). apply mat_plus_cls in M2 as (ds & E2 & Hne & Hd & _). apply mat_lit in M3 as (E3 & _).
    cbn [s_rest] in E1. exists p, ds, (s_rest s'). split; [split; auto|]. now rewrite E1, E2, E3.
  - intros (p & ds & q & Hd & ->) H. unfold re_search in H.
    pose proof (search_from_None _ _ _ _ H p (a ++ ds ++ b ++ q) eq_refl) as N.
    apply (numbered_match a b ds q (last_or None p) Hd Hb (fun s' => Some (mk_res [] [] s'))); [discriminate|].
    now apply nomatch_mt.
Qed.
Lemma is_property_spec s : is_property s = true <-> Numbered $"cdev" $"_weight" s \/ Numbered $"trip_point_" $"_temp" s.
Proof.
  unfold is_property. pose proof (numbered_search $"cdev" $"_weight" s eq_refl) as A.
  pose proof (numbered_search $"trip_point_" $"_temp" s eq_refl) as B.
  fold pat_weight in A. fold pat_trip in B.
  destruct (re_search pat_weight s); [split; auto; intros _; left; apply A; discriminate|].
  destruct (re_search pat_trip s); [split; auto; intros _; right; apply B; discriminate|].
  split; [discriminate|]. intros [H|H]; [apply A in H|apply B in H]; congruence.
Qed.
Lemma properties_spec listing p : In p (properties listing) <-> Property listing p.
Proof.
  unfold properties, Property. rewrite in_app_iff. apply or_iff_compat_l. rewrite filter_In, is_property_spec.
  destruct listing as [l|]; [split; [intros [H1 H2]; eauto|intros (l' & [= <-] & H); exact H]|].
  split; [intros [[] _]|intros (l & H & _); discriminate].
Qed.
Lemma removelast_spec (s : str) : s = [] /\ removelast s = [] \/ exists c, s = removelast s ++ [c].
Proof.
  destruct s as [|c s]; [now left|]. right. exists (last (c :: s) c). apply app_removelast_last. discriminate.
Qed.
Lemma read_param_spec contents v : read_param contents = v <-> ValueOf contents v.
Proof.
  unfold read_param, ValueOf. split.
  - intros <-. exists (removelast contents). split; [apply removelast_spec|]. now destruct (py_int10 (removelast contents)).
  - intros (t & [[-> ->]|[c ->]] & H); rewrite ?removelast_last; cbn [removelast].
    + destruct (py_int10 []); auto.
    + destruct (py_int10 t); auto.
Qed.
Theorem parameters_ok file listing name v :
  dget eqs name (get_parameters file listing) = Some v <->
  Property listing name /\ exists contents, file name = Some contents /\ ValueOf contents v.
Proof.
  unfold get_parameters.
  assert (G : forall l ret, dget eqs name (fold_left (fun ret p => match file p with Some contents => dset eqs p (read_param contents) ret | None => ret end) l ret) = Some v <->
    (In name l /\ exists contents, file name = Some contents /\ read_param contents = v) \/ ((In name l -> file name = None) /\ dget eqs name ret = Some v)).
  { induction l as [|p l IH]; intros ret; cbn [fold_left].
    - split; [intros H; right; split; auto; intros []|intros [[[] _]|[_ H]]; auto].
    - rewrite IH. destruct (file p) as [c|] eqn:Ep.
      + rewrite (dget_dset eqs eqs_eq). destruct (eqs name p) eqn:E.
        * apply eqs_eq in E. subst p. split.
          -- intros [[H1 H2]|[H1 [= <-]]]; left; (split; [now left|eauto]).
          -- intros [[H1 (c' & E1 & E2)]|[H1 _]].
             ++ assert (c' = c) by congruence. subst c'. destruct (in_dec (list_eq_dec ascii_dec) name l) as [Hi|Hi].
                ** left. eauto.
                ** right. split; [tauto|]. now rewrite E2.
             ++ exfalso. rewrite H1 in Ep; [discriminate|now left].
        * assert (N : p <> name) by (intros ->; rewrite eqs_refl in E; discriminate).
          cbn [In]. split; intros [[H1 H2]|[H1 H2]].
          -- left. auto.
          -- right. split; auto. intros [H|H]; [congruence|auto].
          -- left. split; auto. destruct H1; [congruence|auto].
          -- right. auto.
      + cbn [In]. split; intros [[H1 H2]|[H1 H2]].
        * left. auto.
        * right. split; auto. intros [<-|H]; auto.
        * left. split; auto. destruct H1 as [<-|H1]; auto. destruct H2 as (c & H2 & _). congruence.
        * right. auto. }
  rewrite G. rewrite properties_spec. cbn [dget]. split.
  - intros [[H1 (c & H2 & H3)]|[_ H]]; [|discriminate]. split; auto. exists c. split; auto. now apply read_param_spec.
  - intros [H1 (c & H2 & H3)]. left. split; auto. exists c. split; auto. now apply read_param_spec.
Qed.
Theorem parameters_distinct file listing : NoDup (map fst (get_parameters file listing)).
Proof.
  unfold get_parameters. generalize (properties listing) as l.
  assert (G : forall l ret, NoDup (map fst ret) -> NoDup (map fst (fold_left (fun ret p => match file p with Some contents => dset eqs p (read_param contents) ret | None => ret end) l ret))).
  { induction l as [|p l IH]; intros ret H; cbn [fold_left]; auto. apply IH. destruct (file p); auto. now apply (dset_NoDup eqs eqs_eq). }
  intros l. apply G. constructor.
Qed.
