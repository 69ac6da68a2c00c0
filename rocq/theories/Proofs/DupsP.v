(** handle_duplicate_index. *)
From Coq Require Import List Arith ZArith Bool QArith Qcanon Sorted Lia Lqa Permutation.
From Verif Require Import Model.Dups Spec.Groups.
Import ListNotations.
Local Open Scope nat_scope.

(** ** No duplicates: nothing happens, in any arithmetic *)
Section NoDups.
  Context {T : Type} (A : arith T).
  Lemma dup_values_none arr : forall seen out,
    Forall (fun x => existsb (a_eq A x) seen = false) arr ->
    ForallOrdPairs (fun x y => a_eq A y x = false) arr ->
    dup_values A seen out arr = out.
  Proof.
    induction arr as [|x arr IH]; intros seen out Hs Hp; cbn [dup_values]; auto.
    inversion Hs; subst. inversion Hp; subst. rewrite H1. apply IH; auto.
    rewrite Forall_forall in *. intros y Hy. cbn. rewrite (H3 y Hy). cbn. auto.
  Qed.
  Theorem handle_unique max_delta arr : ForallOrdPairs (fun x y => a_eq A y x = false) arr ->
    handle_dups A max_delta arr = arr.
  Proof.
    intros H. unfold handle_dups. rewrite dup_values_none; auto.
    apply Forall_forall. reflexivity.
  Qed.

  (** ** Binary search *)
  Lemma bsearch_spec (p : T -> bool) (arr : list T) k : forall fuel lo hi, lo <= k <= hi -> hi <= List.length arr -> hi - lo < fuel ->
    (forall i x, nth_error arr i = Some x -> p x = (i <? k)) ->
    bsearch fuel lo hi p arr = k.
  Proof.
    induction fuel as [|f IH]; intros lo hi Hk Hl Hf Hp; [lia|]. cbn [bsearch].
    destruct (Nat.ltb_spec lo hi); [|lia].
    assert (Hm : lo + (hi - lo) / 2 < hi) by (assert ((hi - lo) / 2 < hi - lo) by (apply Nat.div_lt; lia); lia).
    set (mid := lo + (hi - lo) / 2) in *.
    destruct (nth_error arr mid) as [x|] eqn:E; [|apply nth_error_None in E; lia].
    rewrite (Hp mid x E). destruct (Nat.ltb_spec mid k).
    - apply IH; auto; lia.
    - apply IH; auto; try lia.
  Qed.
  Lemma bump_app a b i d : bump_at A (List.length a + i) d (a ++ b) = a ++ bump_at A i d b.
  Proof. induction a as [|x a IH]; cbn; auto. now rewrite IH. Qed.
End NoDups.

(** ** Exact arithmetic *)
Local Open Scope Qc_scope.
Notation QA := q_arith.
Lemma qlt_true a b : a_lt QA a b = true <-> a < b.
Proof. cbn. destruct (Qclt_le_dec a b); split; auto; try discriminate. intros H. exfalso. eapply Qcle_not_lt; eauto. Qed.
Lemma qlt_false a b : a_lt QA a b = false <-> b <= a.
Proof. cbn. destruct (Qclt_le_dec a b); split; auto; try discriminate. intros H. exfalso. eapply Qcle_not_lt; eauto. Qed.
Lemma qeq_iff a b : a_eq QA a b = true <-> a = b.
Proof. cbn. destruct (Qc_eq_dec a b); split; auto; discriminate. Qed.
Lemma Qclt_irrefl (a : Qc) : ~ a < a.
Proof. intros H. eapply Qclt_not_le; eauto. apply Qcle_refl. Qed.

Lemma bump_loop_group v : forall c pre post d,
  bump_loop QA c (List.length pre) d (pre ++ repeat v c ++ post) = pre ++ doubled v d c ++ post.
Proof.
  induction c as [|c IH]; intros pre post d; cbn [bump_loop repeat doubled app]; auto.
  replace (List.length pre) with (List.length pre + 0)%nat at 2 by lia. rewrite bump_app. cbn [bump_at].
  specialize (IH (pre ++ [v + d]) post (d + d)). rewrite app_length, <- !app_assoc in IH. cbn [List.length app] in IH.
  rewrite Nat.add_1_r in IH. exact IH.
Qed.

Lemma fix_group max_delta done v n rest : (1 <= n)%nat ->
  Forall (fun x => x < v) done -> Forall (fun x => v < x) rest ->
  fix_dup QA max_delta (done ++ repeat v n ++ rest) v =
  done ++ spread max_delta v n (hd_error rest) ++ rest.
Proof.
  intros Hn Hd Hr. unfold fix_dup. set (arr := done ++ repeat v n ++ rest).
  assert (Hlen : List.length arr = (List.length done + (n + List.length rest))%nat)
    by (unfold arr; now rewrite !app_length, repeat_length).
  assert (Hnth : forall i x, nth_error arr i = Some x ->
    ((i < List.length done)%nat /\ x < v) \/ ((List.length done <= i < List.length done + n)%nat /\ x = v) \/
    ((List.length done + n <= i)%nat /\ v < x)).
  { intros i x E. unfold arr in E. destruct (Nat.ltb_spec i (List.length done)).
    - left. split; auto. rewrite nth_error_app1 in E by auto. apply nth_error_In in E. rewrite Forall_forall in Hd. auto.
    - right. rewrite nth_error_app2 in E by auto. destruct (Nat.ltb_spec (i - List.length done) n).
      + left. split; [lia|]. rewrite nth_error_app1 in E by (now rewrite repeat_length). apply nth_error_In in E.
        now apply repeat_spec in E.
      + right. split; [lia|]. rewrite nth_error_app2 in E by (now rewrite repeat_length). apply nth_error_In in E.
        rewrite Forall_forall in Hr. auto. }
  assert (El : search_left QA v arr = List.length done).
  { unfold search_left. apply bsearch_spec; try lia. intros i x E. destruct (Hnth i x E) as [[Hi Hx]|[[Hi Hx]|[Hi Hx]]].
    - rewrite (proj2 (Nat.ltb_lt _ _)) by auto. now apply qlt_true.
    - rewrite (proj2 (Nat.ltb_ge _ _)) by lia. apply qlt_false. subst. apply Qcle_refl.
    - rewrite (proj2 (Nat.ltb_ge _ _)) by lia. apply qlt_false. now apply Qclt_le_weak. }
  assert (Er : search_right QA v arr = (List.length done + n)%nat).
  { unfold search_right. apply bsearch_spec; try lia. intros i x E. destruct (Hnth i x E) as [[Hi Hx]|[[Hi Hx]|[Hi Hx]]].
    - rewrite (proj2 (Nat.ltb_lt _ _)) by lia. apply negb_true_iff. apply qlt_false. now apply Qclt_le_weak.
    - rewrite (proj2 (Nat.ltb_lt _ _)) by lia. apply negb_true_iff. apply qlt_false. subst. apply Qcle_refl.
    - rewrite (proj2 (Nat.ltb_ge _ _)) by lia. apply negb_false_iff. now apply qlt_true. }
  rewrite El, Er. replace (Z.of_nat (List.length done + n) - Z.of_nat (List.length done))%Z with (Z.of_nat n) by lia.
  assert (En : nth_error arr (List.length done + n) = hd_error rest).
  { unfold arr. rewrite nth_error_app2 by lia. rewrite nth_error_app2 by (rewrite repeat_length; lia).
    rewrite repeat_length. replace (List.length done + n - List.length done - n)%nat with 0%nat by lia. now destruct rest. }
  rewrite En.
  assert (Ed : (let delta := match hd_error rest with
      | Some next => a_divz QA (a_sub QA next v) (Z.of_nat n) | None => max_delta end in
      if a_lt QA max_delta delta then max_delta else delta) = step max_delta v n (hd_error rest)).
  { destruct (hd_error rest) as [w|]; cbn; destruct (Qclt_le_dec _ _); auto. }
  cbv zeta in Ed |- *. rewrite Ed. destruct n as [|n]; [lia|].
  replace (List.length done + S n - S (List.length done))%nat with n by lia.
  unfold arr. cbn [repeat spread]. 
  replace (done ++ (v :: repeat v n) ++ rest) with ((done ++ [v]) ++ repeat v n ++ rest) by (now rewrite <- !app_assoc).
  replace (S (List.length done)) with (List.length (done ++ [v])) by (rewrite app_length; cbn; lia).
  rewrite bump_loop_group. now rewrite <- !app_assoc.
Qed.

(** The duplicated values are those of the groups of more than one. *)
Lemma existsb_eq (x : Qc) l : existsb (a_eq QA x) l = true <-> In x l.
Proof.
  rewrite existsb_exists. split; [intros (y & Hy & E); apply qeq_iff in E; now subst|].
  intros H. exists x. split; auto. now apply qeq_iff.
Qed.
Lemma existsb_neq (x : Qc) l : existsb (a_eq QA x) l = false <-> ~ In x l.
Proof. rewrite <- existsb_eq. destruct (existsb _ _); split; congruence. Qed.
Lemma dup_values_again v n seen out rest : In v seen -> In v out ->
  dup_values QA seen out (repeat v n ++ rest) = dup_values QA seen out rest.
Proof.
  intros Hs Ho. induction n as [|n IH]; cbn [repeat app dup_values]; auto.
  rewrite (proj2 (existsb_eq v seen) Hs), (proj2 (existsb_eq v out) Ho). exact IH.
Qed.
Definition dup_groups (gs : list group) : list Qc := map fst (filter (fun g => (2 <=? snd g)%nat) gs).
Lemma dup_values_groups gs : forall seen out, increasing gs ->
  (forall g x, In g gs -> In x seen \/ In x out -> x < fst g) ->
  dup_values QA seen out (flat gs) = out ++ dup_groups gs.
Proof.
  induction gs as [|[v n] gs IH]; intros seen out [Hs Hn] Hb; cbn [flat flat_map dup_groups filter map fst snd].
  - now rewrite app_nil_r.
  - inversion Hs as [|? ? Hs' Hv]; subst. inversion Hn as [|? ? Hn1 Hn']; subst. cbn [fst snd] in *. fold (flat gs).
    assert (Nv : ~ In v seen). { intros Hi. apply (Qclt_irrefl v). apply (Hb (v, n)); auto. now left. }
    assert (No : ~ In v out). { intros Hi. apply (Qclt_irrefl v). apply (Hb (v, n)); auto. now left. }
    assert (Hb' : forall o, (forall x, In x o -> In x out \/ x = v) -> forall g x, In g gs -> In x (v :: seen) \/ In x o -> x < fst g).
    { intros o Ho g x Hg Hx. rewrite Forall_forall in Hv. destruct Hx as [[<-|Hx]|Hx]; auto.
      - apply Hb; auto. now right.
      - apply Ho in Hx as [Hx| ->]; auto. apply Hb; auto. now right. }
    destruct n as [|[|n]]; [lia| |].
    + cbn [repeat app dup_values]. rewrite (proj2 (existsb_neq v seen) Nv). cbn. rewrite IH; [|split; auto|].
      * reflexivity.
      * apply Hb'. auto.
    + cbn [repeat app dup_values]. rewrite (proj2 (existsb_neq v seen) Nv).
      rewrite (proj2 (existsb_eq v (v :: seen))) by (now left). rewrite (proj2 (existsb_neq v out) No).
      rewrite dup_values_again; [|now left|apply in_or_app; right; now left].
      cbn [Nat.leb filter map fst]. rewrite IH; [|split; auto|].
      * rewrite <- app_assoc. reflexivity.
      * apply Hb'. intros x Hx. apply in_app_iff in Hx as [Hx|[<-|[]]]; auto.
Qed.

Lemma flat_In x gs : In x (flat gs) -> exists g, In g gs /\ x = fst g.
Proof.
  intros H. unfold flat in H. apply in_flat_map in H as (g & Hg & Hx). apply repeat_spec in Hx. eauto.
Qed.
Lemma doubled_one v d : doubled v d 0 = [].
Proof. reflexivity. Qed.
Lemma hd_flat gs : Forall (fun g : group => (1 <= snd g)%nat) gs ->
  hd_error (flat gs) = match gs with [] => None | (w, _) :: _ => Some w end.
Proof.
  intros H. destruct gs as [|[w m] gs]; auto. inversion H; subst. cbn [snd] in *. destruct m; [lia|]. reflexivity.
Qed.
Lemma fold_groups max_delta gs : forall done, increasing gs -> fits max_delta gs ->
  (forall g x, In g gs -> In x done -> x < fst g) ->
  fold_left (fix_dup QA max_delta) (dup_groups gs) (done ++ flat gs) = done ++ spread_all max_delta gs.
Proof.
  induction gs as [|[v n] gs IH]; intros done [Hs Hn] Hf Hb; auto.
  inversion Hs as [|? ? Hs' Hv]; subst. inversion Hn as [|? ? Hn1 Hn']; subst. cbn [fst snd] in *.
  destruct Hf as [Hf1 Hf2].
  set (nx := match gs with [] => None | (w, _) :: _ => Some w end) in *.
  assert (Hsp : forall x, In x (spread max_delta v n nx) -> forall g, In g gs -> x < fst g).
  { intros x Hx g Hg. subst nx. destruct gs as [|[w m] gs']; [destruct Hg|].
    rewrite Forall_forall in Hf1. specialize (Hf1 x Hx). destruct Hg as [<-|Hg]; auto.
    inversion Hs' as [|? ? _ Hw]; subst. rewrite Forall_forall in Hw. eapply Qclt_trans; [exact Hf1|]. apply (Hw g Hg). }
  assert (IH' : fold_left (fix_dup QA max_delta) (dup_groups gs) (done ++ spread max_delta v n nx ++ flat gs) =
                done ++ spread max_delta v n nx ++ spread_all max_delta gs).
  { rewrite !app_assoc. apply IH; [split; auto|auto|].
    intros g x Hg Hx. apply in_app_iff in Hx as [Hx|Hx]; [apply Hb; auto; now right|]. eapply Hsp; eauto. }
  cbn [spread_all]. fold nx. rewrite <- IH'.
  change (flat ((v, n) :: gs)) with (repeat v n ++ flat gs).
  unfold dup_groups. cbn [filter snd]. destruct (Nat.leb_spec 2 n).
  - cbn [map fst fold_left]. rewrite fix_group; auto.
    + rewrite hd_flat by auto. reflexivity.
    + apply Forall_forall. intros x Hx. apply (Hb (v, n)); auto. now left.
    + apply Forall_forall. intros x Hx. apply flat_In in Hx as (g & Hg & ->). rewrite Forall_forall in Hv. auto.
  - assert (n = 1%nat) by lia. subst n. reflexivity.
Qed.
Theorem handle_groups max_delta gs : increasing gs -> fits max_delta gs ->
  handle_dups QA max_delta (flat gs) = spread_all max_delta gs.
Proof.
  intros Hi Hf. unfold handle_dups. rewrite (dup_values_groups gs [] []); auto.
  - apply (fold_groups max_delta gs []); auto. intros ? ? ? [].
  - intros ? ? ? [[]|[]].
Qed.

(** ** The result *)
Ltac qc := unfold Qcminus in *; unfold Qclt, Qcle, Qcplus, Qcopp, Qcmult in *; cbn [this Q2Qc] in *;
  repeat rewrite Qred_correct in *; lra.
Lemma of_nat_pos n : (1 <= n)%nat -> 0 < Q2Qc (inject_Z (Z.of_nat n)).
Proof.
  intros H. unfold Qclt. cbn [this Q2Qc]. rewrite !Qred_correct. change 0%Q with (inject_Z 0). rewrite <- Zlt_Qlt. lia.
Qed.
Lemma div_mul a n : (1 <= n)%nat -> Q2Qc (inject_Z (Z.of_nat n)) * (a / Q2Qc (inject_Z (Z.of_nat n))) = a.
Proof.
  intros H. apply of_nat_pos in H. apply Qcmult_div_r. intros E. rewrite E in H. now apply Qclt_irrefl in H.
Qed.
Lemma div_pos a n : (1 <= n)%nat -> 0 < a -> 0 < a / Q2Qc (inject_Z (Z.of_nat n)).
Proof.
  intros H Ha. pose proof (div_mul a n H) as E. apply of_nat_pos in H.
  set (q := a / _) in *. set (k := Q2Qc (inject_Z (Z.of_nat n))) in *. destruct (Qclt_le_dec 0 q) as [L|L]; auto.
  exfalso. assert (H0 : q * k <= 0 * k) by (apply Qcmult_le_compat_r; [exact L|apply Qclt_le_weak; exact H]).
  rewrite Qcmult_comm, E, Qcmult_0_l in H0. eapply Qcle_not_lt; eauto.
Qed.
Lemma step_pos max_delta v n nx : 0 < max_delta -> (1 <= n)%nat -> (forall w, nx = Some w -> v < w) ->
  0 < step max_delta v n nx.
Proof.
  intros Hm Hn Hw. destruct nx as [w|]; cbn; auto. destruct (Qclt_le_dec _ _); auto.
  apply div_pos; auto. specialize (Hw w eq_refl). qc.
Qed.
Lemma doubled_sorted v n : forall d, 0 < d ->
  StronglySorted Qclt (doubled v d n) /\ Forall (fun x => v + d <= x) (doubled v d n).
Proof.
  induction n as [|n IH]; intros d Hd; cbn [doubled]; [repeat constructor|].
  destruct (IH (d + d)) as [I1 I2]; [qc|]. split.
  - constructor; auto. eapply Forall_impl; [|exact I2]. cbv beta. intros x Hx. qc.
  - constructor; [apply Qcle_refl|]. eapply Forall_impl; [|exact I2]. cbv beta. intros x Hx. qc.
Qed.
Lemma spread_sorted max_delta v n nx : 0 < max_delta -> (forall w, nx = Some w -> v < w) ->
  StronglySorted Qclt (spread max_delta v n nx) /\ Forall (fun x => v <= x) (spread max_delta v n nx).
Proof.
  intros Hm Hw. destruct n as [|n]; [repeat constructor|]. unfold spread.
  assert (Hd : 0 < step max_delta v (S n) nx) by (apply step_pos; auto; lia).
  destruct (doubled_sorted v n _ Hd) as [I1 I2]. split.
  - constructor; auto. eapply Forall_impl; [|exact I2]. cbv beta. intros x Hx. qc.
  - constructor; [apply Qcle_refl|]. eapply Forall_impl; [|exact I2]. cbv beta. intros x Hx. qc.
Qed.
Lemma sorted_app {X} (R : X -> X -> Prop) a b : StronglySorted R a -> StronglySorted R b ->
  (forall x y, In x a -> In y b -> R x y) -> StronglySorted R (a ++ b).
Proof.
  intros Ha Hb H. induction Ha as [|x a Ha IH Hf]; cbn; auto. constructor.
  - apply IH. intros; apply H; auto. now right.
  - apply Forall_app. split; auto. apply Forall_forall. intros y Hy. apply H; auto. now left.
Qed.
Lemma spread_all_lb max_delta gs : 0 < max_delta -> increasing gs ->
  forall v, (forall g, In g gs -> v < fst g) -> forall x, In x (spread_all max_delta gs) -> v < x.
Proof.
  intros Hm. induction gs as [|[w n] gs IH]; intros [Hs Hn] v Hv x Hx; [destruct Hx|].
  inversion Hs as [|? ? Hs' Hw]; subst. inversion Hn; subst. cbn [spread_all] in Hx. apply in_app_iff in Hx as [Hx|Hx].
  - assert (Hl : Forall (fun y => w <= y) (spread max_delta w n (match gs with [] => None | (w, _) :: _ => Some w end))).
    { apply spread_sorted; auto. intros w' E. destruct gs as [|[u m] gs]; [discriminate|]. injection E as <-.
      inversion Hw; subst. exact H3. }
    rewrite Forall_forall in Hl. eapply Qclt_le_trans; [apply (Hv (w, n)); now left|]. apply Hl, Hx.
  - apply IH; auto; [split; auto|]. intros g Hg. apply Hv. now right.
Qed.
Theorem spread_all_strict max_delta gs : 0 < max_delta -> increasing gs -> fits max_delta gs ->
  StronglySorted Qclt (spread_all max_delta gs).
Proof.
  intros Hm. induction gs as [|[v n] gs IH]; intros [Hs Hn] Hf; [constructor|].
  inversion Hs as [|? ? Hs' Hv]; subst. inversion Hn as [|? ? Hn1 Hn']; subst. destruct Hf as [Hf1 Hf2]. cbn [spread_all].
  apply sorted_app.
  - apply spread_sorted; auto. intros w E. destruct gs as [|[u m] gs]; [discriminate|]. injection E as <-. inversion Hv; subst. exact H1.
  - apply IH; auto. split; auto.
  - intros x y Hx Hy. destruct gs as [|[u m] gs]; [destruct Hy|].
    rewrite Forall_forall in Hf1. specialize (Hf1 x Hx).
    apply (spread_all_lb max_delta ((u, m) :: gs)) with (v := x) in Hy; auto; [split; auto|].
    intros g [<-|Hg]; auto. eapply Qclt_trans; [exact Hf1|]. inversion Hs'; subst. rewrite Forall_forall in H2. apply (H2 g Hg).
Qed.
Lemma spread_length max_delta v n nx : List.length (spread max_delta v n nx) = n.
Proof.
  destruct n as [|n]; auto. cbn [spread List.length]. f_equal. generalize (step max_delta v (S n) nx).
  induction n as [|n IH]; intros d; cbn; auto.
Qed.
Lemma spread_all_length max_delta gs : List.length (spread_all max_delta gs) = List.length (flat gs).
Proof.
  induction gs as [|[v n] gs IH]; auto. cbn [spread_all]. change (flat ((v, n) :: gs)) with (repeat v n ++ flat gs).
  now rewrite !app_length, spread_length, repeat_length, IH.
Qed.
Lemma spread_all_first max_delta gs : forall i x, nth_error (flat gs) i = Some x ->
  (forall j, (j < i)%nat -> nth_error (flat gs) j <> Some x) -> nth_error (spread_all max_delta gs) i = Some x.
Proof.
  induction gs as [|[v n] gs IH]; intros i x E Hj; [destruct i; discriminate|].
  change (flat ((v, n) :: gs)) with (repeat v n ++ flat gs) in *. cbn [spread_all].
  destruct (Nat.ltb_spec i n) as [L|L].
  - assert (x = v). { rewrite nth_error_app1 in E by (now rewrite repeat_length). apply nth_error_In in E. now apply repeat_spec in E. }
    subst x. destruct i as [|i].
    + destruct n as [|n]; [lia|]. reflexivity.
    + exfalso. apply (Hj 0%nat); [lia|]. destruct n; [lia|]. reflexivity.
  - rewrite nth_error_app2 in * by (now rewrite ?repeat_length, ?spread_length).
    rewrite repeat_length in E. rewrite spread_length. apply IH; auto. intros j Hj'. specialize (Hj (n + j)%nat ltac:(lia)).
    rewrite nth_error_app2 in Hj by (rewrite repeat_length; lia). rewrite repeat_length in Hj.
    now replace (n + j - n)%nat with j in Hj by lia.
Qed.

(** Groups of at most three always fit. *)
Lemma three_fit max_delta v n w : (1 <= n <= 3)%nat -> v < w -> Forall (fun x => x < w) (spread max_delta v n (Some w)).
Proof.
  intros Hn Hv.
  assert (Hd : (1 <= n)%nat -> Q2Qc (inject_Z (Z.of_nat n)) * step max_delta v n (Some w) <= w - v).
  { intros H. pose proof (div_mul (w - v) n H) as E. unfold step. cbv zeta. destruct (Qclt_le_dec _ _) as [L|L].
    - eapply Qcle_trans; [|rewrite <- E; apply Qcle_refl].
      rewrite (Qcmult_comm _ max_delta), (Qcmult_comm _ ((w - v) / _)).
      apply Qcmult_le_compat_r; [now apply Qclt_le_weak|].
      apply Qclt_le_weak, of_nat_pos; auto.
    - rewrite E. apply Qcle_refl. }
  specialize (Hd ltac:(lia)). 
  destruct n as [|[|[|[|n]]]]; try lia; unfold spread; cbn [doubled]; set (d := step _ _ _ _) in *; clearbody d.
  - repeat constructor; auto.
  - change (Z.of_nat 2) with 2%Z in Hd. constructor; auto. constructor; [|constructor].
    unfold Qcminus in *; unfold Qclt, Qcle, Qcplus, Qcopp, Qcmult in *; cbn [this Q2Qc] in *; repeat rewrite Qred_correct in *; unfold inject_Z in *; lra.
  - change (Z.of_nat 3) with 3%Z in Hd. constructor; auto. constructor; [|constructor; [|constructor]];
    unfold Qcminus in *; unfold Qclt, Qcle, Qcplus, Qcopp, Qcmult in *; cbn [this Q2Qc] in *; repeat rewrite Qred_correct in *; unfold inject_Z in *; lra.
Qed.
Lemma threes_fit max_delta gs : increasing gs ->
  (forall g h, In g gs -> In h gs -> fst g < fst h -> (snd g <= 3)%nat) -> fits max_delta gs.
Proof.
  induction gs as [|[v n] gs IH]; intros [Hs Hn] H3; [exact I|].
  inversion Hs as [|? ? Hs' Hv]; subst. inversion Hn as [|? ? Hn1 Hn']; subst. split.
  - destruct gs as [|[w m] gs]; auto. inversion Hv; subst. cbn [fst snd] in *. apply three_fit; auto. split; auto.
    apply (H3 (v, n) (w, m)); auto; [now left|right; now left].
  - apply IH; [split; auto|]. intros g h Hg Hh. apply H3; now right.
Qed.
(** Every sorted index is such a list of groups. *)
Lemma sorted_groups (arr : list Qc) : StronglySorted Qcle arr -> exists gs, arr = flat gs /\ increasing gs.
Proof.
  induction 1 as [|x arr Hs (gs & E & Hi & Hn) Hf].
  - exists []. repeat split; constructor.
  - destruct gs as [|[v n] gs].
    + exists [(x, 1%nat)]. cbn in E. subst. split; auto. split; repeat constructor.
    + assert (Hxv : x <= v).
      { rewrite Forall_forall in Hf. apply Hf. rewrite E. inversion Hn; subst. cbn [snd] in *. destruct n; [lia|]. now left. }
      destruct (Qc_eq_dec x v) as [->|Hne].
      * exists ((v, S n) :: gs). split; [cbn; now rewrite E|]. split.
        -- inversion Hi; subst. now constructor.
        -- inversion Hn; subst. constructor; auto. cbn. lia.
      * assert (Hlt : x < v). { destruct (Qcle_lt_or_eq _ _ Hxv); congruence. }
        exists ((x, 1%nat) :: (v, n) :: gs). split; [now rewrite E|]. split.
        -- constructor; auto. constructor; auto. inversion Hi; subst. eapply Forall_impl; [|exact H2]. cbv beta. intros g Hg.
           eapply Qclt_trans; eauto.
        -- constructor; auto.
Qed.
Lemma count_group gs v n : increasing gs -> In (v, n) gs -> count_occ Qc_eq_dec (flat gs) v = n.
Proof.
  induction gs as [|[u m] gs IH]; intros [Hs Hn] Hi; [destruct Hi|]. inversion Hs as [|? ? Hs' Hv]; subst. inversion Hn; subst.
  change (flat ((u, m) :: gs)) with (repeat u m ++ flat gs). rewrite count_occ_app.
  destruct Hi as [E|Hi].
  - injection E as -> ->. rewrite count_occ_repeat_eq by auto. 
    assert (Z : count_occ Qc_eq_dec (flat gs) v = 0%nat); [|lia]. apply count_occ_not_In. intros Hx.
    apply flat_In in Hx as (g & Hg & E). rewrite Forall_forall in Hv. specialize (Hv g Hg). cbn in Hv. rewrite <- E in Hv.
    now apply Qclt_irrefl in Hv.
  - rewrite IH by (auto; split; auto). rewrite count_occ_repeat_neq; auto.
    rewrite Forall_forall in Hv. specialize (Hv _ Hi). cbn in Hv. intros ->. now apply Qclt_irrefl in Hv.
Qed.
Theorem handle_strict max_delta arr : 0 < max_delta -> StronglySorted Qcle arr ->
  (forall x y, In x arr -> In y arr -> x < y -> (count_occ Qc_eq_dec arr x <= 3)%nat) ->
  let out := handle_dups QA max_delta arr in
  StronglySorted Qclt out /\ List.length out = List.length arr /\
  (forall i x, nth_error arr i = Some x -> (forall j, (j < i)%nat -> nth_error arr j <> Some x) -> nth_error out i = Some x).
Proof.
  intros Hm Hs H3. destruct (sorted_groups arr Hs) as (gs & -> & Hi). cbv zeta.
  assert (Hf : fits max_delta gs).
  { apply threes_fit; auto. intros [v n] [w m] Hg Hh Hlt. cbn [fst snd] in *. rewrite <- (count_group gs v n Hi Hg).
    assert (In1 : forall u k, In (u, k) gs -> In u (flat gs)).
    { intros u k Hu. apply in_flat_map. exists (u, k). split; auto. destruct Hi as [_ Hn]. rewrite Forall_forall in Hn.
      specialize (Hn _ Hu). cbn [fst snd] in *. destruct k; [lia|]. now left. }
    eapply H3; eauto. }
  rewrite handle_groups by auto. split; [now apply spread_all_strict|]. split; [apply spread_all_length|].
  apply spread_all_first.
Qed.

(** ** Sorting by time and line *)
Section Sort.
  Context {T : Type} (A : arith T) {R : Type}.
  Lemma sort_sorted (rows : list (T * Z * R)) :
    StronglySorted (fun a b => row_le A (fst a) (fst b) = true) rows -> sort_rows A rows = rows.
  Proof.
    induction 1 as [|x rows Hs IH Hf]; auto. cbn [sort_rows fold_right]. unfold sort_rows in IH. rewrite IH.
    destruct rows as [|y rows]; auto. cbn [insert_row]. inversion Hf; subst. now rewrite H1.
  Qed.
  Lemma insert_perm (x : T * Z * R) rows : Permutation (insert_row A x rows) (x :: rows).
  Proof.
    induction rows as [|y rows IH]; cbn [insert_row]; auto. destruct (row_le A (fst x) (fst y)); auto.
    rewrite IH. apply perm_swap.
  Qed.
  Theorem sort_perm (rows : list (T * Z * R)) : Permutation (sort_rows A rows) rows.
  Proof.
    induction rows as [|x rows IH]; auto. cbn [sort_rows fold_right]. fold (sort_rows A rows). rewrite insert_perm. now constructor.
  Qed.
  Lemma combine_same (rows : list (T * Z * R)) :
    map (fun tr => (fst tr, snd (fst (snd tr)), snd (snd tr))) (combine (map (fun r => fst (fst r)) rows) rows) = rows.
  Proof. induction rows as [|[[t l] r] rows IH]; auto. cbn. now rewrite IH. Qed.
  (** Strictly increasing times: nothing changes. *)
  Theorem handle_frame_id max_delta (rows : list (T * Z * R)) :
    (forall x y, a_lt A x y = true -> a_eq A y x = false) ->
    StronglySorted (fun a b => a_lt A (fst (fst a)) (fst (fst b)) = true) rows ->
    handle_frame A max_delta rows = rows.
  Proof.
    intros Hlt Hs. unfold handle_frame. rewrite sort_sorted.
    - rewrite handle_unique; [apply combine_same|]. clear - Hlt Hs. induction Hs as [|x rows Hs IH Hf]; cbn; constructor; auto.
      apply Forall_forall. intros y Hy. apply in_map_iff in Hy as (z & <- & Hz). rewrite Forall_forall in Hf. auto.
    - clear - Hs. induction Hs as [|x rows Hs IH Hf]; constructor; auto. eapply Forall_impl; [|exact Hf]. cbv beta.
      intros y Hy. unfold row_le. now rewrite Hy.
  Qed.
End Sort.

(** Rows end up ordered by time and, within a time, by line. *)
Lemma row_le_total a b : row_le QA a b = false -> row_le QA b a = true.
Proof.
  unfold row_le. destruct (a_lt QA (fst a) (fst b)) eqn:E1; [discriminate|]. cbn [orb].
  destruct (a_lt QA (fst b) (fst a)) eqn:E2; auto. cbn [negb andb orb]. intros H. apply Z.leb_gt in H. apply Z.leb_le. lia.
Qed.
Lemma row_le_iff a b : row_le QA a b = true <-> fst a < fst b \/ (fst a = fst b /\ (snd a <= snd b)%Z).
Proof.
  unfold row_le. rewrite orb_true_iff, andb_true_iff, negb_true_iff, qlt_true, qlt_false, Z.leb_le. split.
  - intros [H|[H1 H2]]; auto. destruct (Qcle_lt_or_eq _ _ H1); auto.
  - intros [H|[H1 H2]]; auto. right. split; auto. rewrite H1. apply Qcle_refl.
Qed.
Lemma row_le_trans a b c : row_le QA a b = true -> row_le QA b c = true -> row_le QA a c = true.
Proof.
  rewrite !row_le_iff. intros [H1|[H1 H1']] [H2|[H2 H2']].
  - left. eapply Qclt_trans; eauto.
  - left. congruence.
  - left. congruence.
  - right. split; [congruence|lia].
Qed.
Lemma insert_sorted {R} (x : Qc * Z * R) rows :
  StronglySorted (fun a b => row_le QA (fst a) (fst b) = true) rows ->
  StronglySorted (fun a b => row_le QA (fst a) (fst b) = true) (insert_row QA x rows).
Proof.
  induction 1 as [|y rows Hs IH Hf]; cbn [insert_row]; [repeat constructor|].
  destruct (row_le QA (fst x) (fst y)) eqn:E.
  - constructor; [now constructor|]. constructor; auto. eapply Forall_impl; [|exact Hf]. cbv beta. intros z Hz.
    eapply row_le_trans; eauto.
  - constructor; auto. apply Forall_forall. intros z Hz. apply (Permutation_in _ (insert_perm QA x rows)) in Hz.
    destruct Hz as [<-|Hz]; [now apply row_le_total|]. rewrite Forall_forall in Hf. auto.
Qed.
Theorem sort_rows_sorted {R} (rows : list (Qc * Z * R)) :
  StronglySorted (fun a b => fst (fst a) < fst (fst b) \/ (fst (fst a) = fst (fst b) /\ (snd (fst a) <= snd (fst b))%Z)) (sort_rows QA rows).
Proof.
  assert (H : StronglySorted (fun a b => row_le QA (fst a) (fst b) = true) (sort_rows QA rows)).
  { induction rows as [|x rows IH]; [constructor|]. cbn [sort_rows fold_right]. now apply insert_sorted. }
  induction H as [|x l Hs IH Hf]; constructor; auto. eapply Forall_impl; [|exact Hf]. cbv beta. intros y Hy. now apply row_le_iff.
Qed.
