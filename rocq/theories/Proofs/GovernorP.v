From Coq Require Import List Ascii String ZArith NArith Bool Arith Lia Sorted.
From Verif Require Import Lib.PyStr Lib.PyStrFacts Lib.Regex Lib.RegexFacts Lib.SearchFacts Lib.TotalOrder Spec.Lines Model.Sysfs Proofs.SysfsP Model.Governor Spec.Governor.
Import ListNotations.
Local Open Scope list_scope.

(** ** The order of strings *)
Lemma code_inj a b : code a = code b -> a = b.
Proof. unfold code. intros H. rewrite <- (ascii_N_embedding a), <- (ascii_N_embedding b), H. reflexivity. Qed.
Lemma str_leb_total : total_order str_leb.
Proof.
  split.
  - intros a. induction a as [|x a IH]; intros [|y b]; cbn; auto.
    destruct (N.ltb_spec (code x) (code y)); [now left|]. destruct (N.ltb_spec (code y) (code x)); [now right|].
    rewrite (proj2 (N.eqb_eq (code x) (code y))), (proj2 (N.eqb_eq (code y) (code x))) by lia. cbn. apply IH.
  - intros a. induction a as [|x a IH]; intros [|y b]; cbn; try discriminate; auto.
    destruct (N.ltb_spec (code x) (code y)), (N.ltb_spec (code y) (code x)); cbn; try lia.
    + destruct (N.eqb_spec (code y) (code x)); [lia|discriminate].
    + destruct (N.eqb_spec (code x) (code y)); [lia|discriminate].
    + destruct (N.eqb_spec (code x) (code y)) as [E|]; [|discriminate]. rewrite (proj2 (N.eqb_eq (code y) (code x))) by lia.
      cbn. intros H1 H2. rewrite (code_inj _ _ E), (IH b) by assumption. reflexivity.
  - intros a. induction a as [|x a IH]; intros [|y b] [|z c]; cbn; try discriminate; auto.
    intros H1 H2. apply orb_true_iff in H1. apply orb_true_iff in H2. apply orb_true_iff.
    rewrite !andb_true_iff, !N.ltb_lt, !N.eqb_eq in *.
    destruct H1 as [H1|[E1 H1]], H2 as [H2|[E2 H2]]; [left; lia..|]. right. split; [lia|]. eapply IH; eassumption.
Qed.
Lemma str_leb_app p a b : str_leb (p ++ a) (p ++ b) = str_leb a b.
Proof. induction p as [|x p IH]; cbn; [reflexivity|]. rewrite N.ltb_irrefl, N.eqb_refl. exact IH. Qed.

(** ** Numbers *)
Lemma dec_acc s : forall n, fold_left (fun n c => n * 10 + (N_of_ascii c - 48))%N s n = (n * 10 ^ N.of_nat (List.length s) + dec_val s)%N.
Proof.
  unfold dec_val. induction s as [|c s IH]; intros n; cbn [fold_left List.length]; [change (10 ^ N.of_nat 0)%N with 1%N; lia|].
  rewrite IH. rewrite (IH (0 * 10 + _)%N). rewrite Nat2N.inj_succ, N.pow_succ_r'. lia.
Qed.
Lemma dec_cons c s : dec_val (c :: s) = ((N_of_ascii c - 48) * 10 ^ N.of_nat (List.length s) + dec_val s)%N.
Proof. unfold dec_val at 1. cbn [fold_left]. rewrite dec_acc. reflexivity. Qed.
Lemma digit_range c : is_digit c = true -> (48 <= code c <= 57)%N.
Proof. unfold is_digit, in_range. rewrite andb_true_iff, !N.leb_le. tauto. Qed.
Lemma dec_bound s : Forall (fun c => is_digit c = true) s -> (dec_val s < 10 ^ N.of_nat (List.length s))%N.
Proof.
  induction 1 as [|c s H Hs IH]; [reflexivity|]. rewrite dec_cons. cbn [List.length]. rewrite Nat2N.inj_succ, N.pow_succ_r'.
  apply digit_range in H. unfold code in H. nia.
Qed.
Lemma dec_lex a b t : Forall (fun c => is_digit c = true) a -> Forall (fun c => is_digit c = true) b -> List.length a = List.length b ->
  (dec_val a < dec_val b)%N -> str_leb (b ++ t) (a ++ t) = false.
Proof.
  intros Ha. revert b. induction Ha as [|x a Hx Ha IH]; intros b Hb L H; destruct b as [|y b]; try discriminate.
  inversion Hb; subst. rewrite !dec_cons in H. cbn in L. injection L as L. rewrite L in H. cbn [List.app str_leb].
  assert (B1 := dec_bound a Ha). assert (B2 := dec_bound b H3). rewrite L in B1.
  apply digit_range in Hx. apply digit_range in H2. unfold code in *.
  destruct (N.ltb_spec (N_of_ascii y) (N_of_ascii x)); [exfalso; nia|]. destruct (N.eqb_spec (N_of_ascii y) (N_of_ascii x)) as [E|E]; [|reflexivity].
  cbn. apply IH; [assumption..|]. rewrite E in H. lia.
Qed.

(** ** Names *)
Lemma starts_weight k : matches pat_weight k = true <-> Starts $"cdev" $"_weight" k.
Proof.
  unfold matches. split.
  - destruct (re_match pat_weight k) as [m|] eqn:E; [intros _|discriminate]. unfold re_match in E. apply mt_sound in E as (s' & M & _).
    unfold pat_weight in M. cbn [RSeqs] in M.
    apply mat_seq_inv in M as (s1 & M1 & M). apply mat_seq_inv in M as (s2 & M2 & M3).
    apply mat_lit in M1 as (E1 & _). apply mat_plus_cls in M2 as (ds & E2 & Hne & Hd & _). apply mat_lit in M3 as (E3 & _).
    cbn [s_rest] in E1. exists ds, (s_rest s'). split; [split; auto|]. now rewrite E1, E2, E3.
  - intros (ds & q & Hd & ->). unfold re_match.
    destruct (mt pat_weight _ _) eqn:E; [reflexivity|]. exfalso. revert E. apply (numbered_match $"cdev" $"_weight" ds q None Hd eq_refl). discriminate.
Qed.
Lemma starts_power w k : matches (pat_numbered w) k = true <-> Starts w [] k.
Proof.
  unfold matches. split.
  - destruct (re_match (pat_numbered w) k) as [m|] eqn:E; [intros _|discriminate]. unfold re_match in E. apply mt_sound in E as (s' & M & _).
    unfold pat_numbered in M. cbn [RSeqs] in M.
    apply mat_seq_inv in M as (s1 & M1 & M2).
    apply mat_lit in M1 as (E1 & _). apply mat_plus_cls in M2 as (ds & E2 & Hne & Hd & _).
    cbn [s_rest] in E1. exists ds, (s_rest s'). split; [split; auto|]. now rewrite E1, E2.
  - intros (ds & q & [Hne Hd] & ->). cbn [List.app]. unfold re_match, pat_numbered. cbn [RSeqs mt].
    rewrite (lit_step w _ (ds ++ q)) by reflexivity.
    destruct ds as [|d ds]; [congruence|]. inversion Hd; subst.
    assert (G : forall (k : st -> option mres), (forall s, k s <> None) -> mt (RPlus (RCls is_digit)) (adv (St None (w ++ (d :: ds) ++ q) []) w ((d :: ds) ++ q)) k <> None).
    { intros k Hk E. set (s := adv _ _ _) in E.
      assert (M : exists s', mat (RPlus (RCls is_digit)) s s').
      { unfold RPlus, s, adv. eexists. eapply mat_seq; [apply mat_cls; assumption|apply mat_star0]. }
      destruct M as (s' & M). revert E. apply (mt_complete _ _ _ _ M). apply Hk. }
    cbn [mt] in G |- *. destruct (mt _ _ _) eqn:E; [reflexivity|]. exfalso. revert E. apply G. discriminate.
Qed.

Lemma filter_only {A} (P : A -> Prop) (p : A -> bool) l : (forall a, p a = true <-> P a) -> Only P l (filter p l).
Proof.
  intros H. induction l as [|a l IH]; cbn; [constructor|]. destruct (p a) eqn:E; constructor; auto; [now apply H|].
  intros Q. apply H in Q. congruence.
Qed.
Lemma only_filter {A} (P : A -> Prop) (p : A -> bool) l k : (forall a, p a = true <-> P a) -> Only P l k -> filter p l = k.
Proof.
  intros H. induction 1 as [|a l k Q O IH|a l k Q O IH]; cbn; [reflexivity| |].
  - rewrite (proj2 (H a) Q), IH. reflexivity.
  - destruct (p a) eqn:E; [apply H in E; contradiction|exact IH].
Qed.
Lemma filter_sorted {A} (R : A -> A -> Prop) p l : StronglySorted R l -> StronglySorted R (filter p l).
Proof.
  induction 1 as [|a l S IH F]; cbn; [constructor|]. destruct (p a); [|assumption]. constructor; [assumption|].
  apply Forall_forall. intros x I. apply filter_In in I as [I _]. rewrite Forall_forall in F. auto.
Qed.
Lemma sorted_map {A B} (R : A -> A -> Prop) (S : B -> B -> Prop) (f : A -> B) l :
  (forall a b, In a l -> In b l -> R a b -> S (f a) (f b)) -> StronglySorted R l -> StronglySorted S (map f l).
Proof.
  intros H Hs. induction Hs as [|a l Hl IH F]; cbn; [constructor|]. constructor.
  - apply IH. intros. apply H; auto; right; assumption.
  - apply Forall_forall. intros y I. apply in_map_iff in I as (x & <- & I). rewrite Forall_forall in F. apply H; [now left|now right|auto].
Qed.

Lemma combine_parts {A B} (l : list A) (k : list B) : List.length k = List.length l -> map fst (combine l k) = l /\ map snd (combine l k) = k.
Proof.
  revert k. induction l as [|a l IH]; intros [|b k] L; try discriminate; cbn; [auto|]. destruct (IH k) as [-> ->]; [now injection L|]. auto.
Qed.

Section Governor.
  Context {V W : Type} (scale : V -> Z -> W).
  Lemma power_ok word (f : list (str * list V)) actors out :
    plot_power word f actors = Ok out <->
    exists cs, Only (fun c => Starts word [] (fst c)) f cs /\ cs <> [] /\ map fst out = actors /\ map snd out = map snd cs.
  Proof.
    unfold plot_power. assert (K := filter_only (fun c => Starts word [] (fst c)) (fun c => matches (pat_numbered word) (fst c)) f (fun c => starts_power word (fst c))).
    fold (power_cols word f) in K. split.
    - destruct (Nat.eqb_spec (List.length (power_cols word f)) (List.length actors)) as [L|L]; [|discriminate]. cbn [negb].
      intros H. exists (power_cols word f). split; [exact K|].
      destruct (power_cols word f) as [|c cs] eqn:E; [discriminate|]. split; [congruence|].
      injection H as <-. apply (combine_parts actors (map snd (c :: cs))). now rewrite map_length.
    - intros (cs & O & Hne & E1 & E2). apply (only_filter _ (fun c => matches (pat_numbered word) (fst c))) in O; [|intros; apply starts_power].
      fold (power_cols word f) in O. rewrite O. rewrite <- (map_length snd cs), <- E2, <- E1, !map_length, Nat.eqb_refl. cbn [negb].
      destruct cs as [|c cs]; [congruence|]. f_equal. clear. induction out as [|[a b] out IH]; cbn; [reflexivity|]. now rewrite IH.
  Qed.
  Lemma power_fails word (f : list (str * list V)) actors cs : Only (fun c => Starts word [] (fst c)) f cs ->
    List.length cs <> List.length actors -> plot_power word f actors = Err EValue.
  Proof.
    intros O L. apply (only_filter _ (fun c => matches (pat_numbered word) (fst c))) in O; [|intros; apply starts_power].
    fold (power_cols word f) in O. unfold plot_power. rewrite O. apply Nat.eqb_neq in L. now rewrite L.
  Qed.

  Lemma flat_map_filter {A B} (p : A -> bool) (g : A -> list B) l : flat_map (fun a => if p a then g a else []) l = flat_map g (filter p l).
  Proof. induction l as [|a l IH]; cbn; [reflexivity|]. rewrite IH. destruct (p a); reflexivity. Qed.
  Lemma weights_ok params ns ws : Weights params ns ws -> sorted_weights params = map PInt ws.
  Proof.
    intros (ND & Hd & Hl & Hs & Honly & Hw). unfold sorted_weights. rewrite flat_map_filter.
    assert (E : filter (matches pat_weight) (sort_u str_leb (map fst params)) = map weight_name ns).
    { apply (sorted_ext str_leb str_leb_total).
      - apply filter_sorted. apply sort_u_sorted, str_leb_total.
      - apply (sorted_map (fun a b => (dec_val a < dec_val b)%N)); [|assumption]. intros a b Ia Ib H. unfold lt, ltb. apply negb_true_iff.
        unfold weight_name. rewrite str_leb_app. rewrite Forall_forall in Hd. apply dec_lex; try assumption; [apply Hd; assumption..|auto].
      - intros k. rewrite filter_In, (sort_u_In _ str_leb_total). rewrite starts_weight, (in_map_iff weight_name). split.
        + intros [I S]. destruct (Honly k I S) as (n & In_ & ->). eauto.
        + intros (n & <- & I). split.
          * clear - I Hw. induction Hw as [|n' w ns ws H Hw IH]; [destruct I|]. destruct I as [-> |I]; [|auto].
            apply in_map_iff. exists (weight_name n, PInt w). auto.
          * rewrite Forall_forall in Hd. exists n, []. split; [auto|]. unfold weight_name. now rewrite app_nil_r. }
    rewrite E. clear - ND Hw. induction Hw as [|n w ns ws H Hw IH]; cbn [map flat_map]; [reflexivity|].
    rewrite (In_dget eqs eqs_eq _ _ _ ND H). cbn. now rewrite IH.
  Qed.
  Notation expected := (expected scale).
  Lemma dset_new {X} (k : str) (v : X) d : ~ In k (map fst d) -> dset eqs k v d = d ++ [(k, v)].
  Proof.
    induction d as [|[k' v'] d IH]; cbn; intros H; [reflexivity|]. destruct (eqs k k') eqn:E.
    - apply eqs_eq in E. subst. tauto.
    - f_equal. apply IH. tauto.
  Qed.
  Lemma fold_weighted cs actors ws : NoDup actors -> forall d, (forall a, In a actors -> ~ In a (map fst d)) ->
    fold_left (fun d (cw : (str * list V) * (str * param)) => do d <- d ;; do l <- scaled scale (snd (snd cw)) (snd (fst cw)) ;; Ok (dset eqs (fst (snd cw)) l d))
      (combine cs (combine actors (map PInt ws))) (Ok d) = Ok (d ++ expected cs actors ws).
  Proof.
    revert actors ws. induction cs as [|c cs IH]; intros actors ws ND d Hd; [cbn; now rewrite app_nil_r|].
    destruct actors as [|a actors]; [cbn; now rewrite app_nil_r|]. destruct ws as [|w ws]; [cbn; now rewrite app_nil_r|].
    inversion ND; subst. cbn [map combine fold_left bind snd fst scaled]. rewrite (dset_new a) by (apply Hd; now left).
    rewrite IH; [|assumption|].
    - rewrite <- app_assoc. reflexivity.
    - intros b Hb. rewrite map_app, in_app_iff. cbn. intros [H|[<- |[]]]; [|contradiction]. apply (Hd b); [now right|assumption].
  Qed.
  Lemma weighted_one params f ns ws cs actors : Weights params ns ws -> Only (fun c => Starts $"req_power" [] (fst c)) f cs -> NoDup actors ->
    cs <> [] -> actors <> [] -> ws <> [] -> weighted scale f (combine actors (sorted_weights params)) = Ok (expected cs actors ws).
  Proof.
    intros HW O ND Hc Ha Hw. rewrite (weights_ok _ _ _ HW).
    apply (only_filter _ (fun c => matches (pat_numbered $"req_power") (fst c))) in O; [|intros; apply starts_power].
    unfold weighted. unfold power_cols. rewrite O. rewrite (fold_weighted cs actors ws ND []) by (intros ? ? []).
    destruct actors as [|a actors]; [congruence|]. destruct ws as [|w ws]; [congruence|]. destruct cs as [|c cs]; [congruence|]. reflexivity.
  Qed.
  Lemma weighted_several runs actors : (exists r, In r runs /\ sorted_weights (fst r) <> []) -> actors <> [] ->
    plot_weighted scale actors runs = mapM (fun r => weighted scale (snd r) (combine actors (sorted_weights (fst r)))) runs.
  Proof.
    intros (r & I & H) Ha. unfold plot_weighted.
    replace (forallb _ _) with false.
    - clear. induction runs as [|r runs IH]; cbn [map combine mapM fst snd]; [reflexivity|]. now rewrite IH.
    - symmetry. apply not_true_iff_false. intros F. rewrite forallb_forall in F.
      specialize (F (combine actors (sorted_weights (fst r)))). destruct actors as [|a actors]; [congruence|].
      destruct (sorted_weights (fst r)) as [|w ws] eqn:E; [congruence|]. cbn [combine] in F. discriminate F.
      apply in_map_iff. exists r. rewrite E. auto.
  Qed.
  Lemma weighted_ok actors runs outs : NoDup actors -> actors <> [] -> runs <> [] ->
    Forall2 (fun r out => exists ns ws cs, Weights (fst r) ns ws /\ ws <> [] /\
      Only (fun c => Starts $"req_power" [] (fst c)) (snd r) cs /\ cs <> [] /\ out = expected cs actors ws) runs outs ->
    plot_weighted scale actors runs = Ok outs.
  Proof.
    intros ND Ha Hr F. rewrite weighted_several; [|destruct F as [|r out runs outs (ns & ws & cs & HW & Hw & _) F]; [congruence|]|assumption].
    - clear Hr. induction F as [|r out runs outs (ns & ws & cs & HW & Hw & O & Hc & ->) F IH]; cbn [mapM]; [reflexivity|].
      rewrite (weighted_one _ _ _ _ _ _ HW O ND Hc Ha Hw). cbn [bind]. now rewrite IH.
    - exists r. split; [now left|]. rewrite (weights_ok _ _ _ HW). destruct ws; [congruence|discriminate].
  Qed.
  Lemma weighted_none runs actors : (forall r, In r runs -> sorted_weights (fst r) = []) -> plot_weighted scale (V:=V) actors runs = Ok [].
  Proof.
    intros H. unfold plot_weighted. replace (forallb _ _) with true; [reflexivity|]. symmetry. apply forallb_forall. intros l I.
    apply in_map_iff in I as (r & <- & I). rewrite (H r I). destruct actors; reflexivity.
  Qed.
  Lemma no_weights runs actors : (forall r, In r runs -> forall k, In k (map fst (fst r)) -> ~ Starts $"cdev" $"_weight" k) ->
    plot_weighted scale (V:=V) actors runs = Ok [].
  Proof.
    intros H. apply weighted_none. intros r I. unfold sorted_weights. rewrite flat_map_filter.
    replace (filter _ _) with (@nil str); [reflexivity|]. symmetry.
    destruct (filter _ _) as [|k l] eqn:E; [reflexivity|]. assert (J : In k (filter (matches pat_weight) (sort_u str_leb (map fst (fst r))))) by (rewrite E; now left).
    apply filter_In in J as [J M]. rewrite (sort_u_In _ str_leb_total) in J. apply starts_weight in M. destruct (H r I k J M).
  Qed.
End Governor.
