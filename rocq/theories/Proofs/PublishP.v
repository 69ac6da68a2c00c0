(** Publishing a notebook: the replacements one after the other are one simultaneous replacement. *)
From Coq Require Import List Ascii String ZArith Bool Lia.
From Verif Require Import Lib.PyStr Lib.PyStrFacts Lib.ReplaceFacts Model.Publish Spec.Publish.
Import ListNotations.
Local Open Scope list_scope.

Fixpoint tails (s : str) : list str := match s with [] => [] | _ :: r => s :: tails r end.
Definition incomp (a b : str) : bool := negb (is_prefix a b) && negb (is_prefix b a).
(** no non-empty end of [a] begins [b], nor does [b] begin one *)
Definition apart (a b : str) : bool := forallb (fun w => incomp w b) (tails a).

Lemma tails_in a : forall x w, a = x ++ w -> w <> [] -> In w (tails a).
Proof.
  induction a as [|c a IH]; intros x w E Hw.
  - destruct x; cbn in E; [congruence|discriminate].
  - destruct x as [|d x]; cbn in E; [left; now rewrite E|]. injection E as -> E. right. eapply IH; eauto.
Qed.
Lemma apart_tl c a b : apart (c :: a) b = true -> apart a b = true.
Proof. unfold apart. cbn [tails forallb]. now intros [_ H]%andb_true_iff. Qed.
Lemma apart_ext w b s : w <> [] -> apart w b = true -> is_prefix b (w ++ s) = false.
Proof.
  intros Hw H. destruct w as [|c w]; [congruence|]. unfold apart in H. cbn [tails forallb] in H. apply andb_true_iff in H as [H _].
  unfold incomp in H. apply andb_true_iff in H as [H1 H2]. apply negb_true_iff in H1, H2.
  remember (c :: w) as v eqn:Ev. clear Ev Hw c w. revert v H1 H2.
  induction b as [|x b IH]; intros v H1 H2; [destruct v; cbn in *; discriminate|].
  destruct v as [|y v]; [cbn in *; discriminate|]. cbn [app is_prefix] in *.
  destruct (Ascii.eqb x y) eqn:E; cbn [andb] in *; auto.
  rewrite Ascii.eqb_sym, E in H1. cbn [andb] in H1. now apply IH.
Qed.
(** what begins a text starting with [b], when no end of it is comparable with [b], is empty *)
Lemma apart_pre w b s : apart w b = true -> is_prefix w (b ++ s) = true -> w = [].
Proof.
  destruct w as [|c w]; auto. intros H Hp. exfalso. unfold apart in H. cbn [tails forallb] in H. apply andb_true_iff in H as [H _].
  unfold incomp in H. apply andb_true_iff in H as [H1 H2]. apply negb_true_iff in H1, H2.
  remember (c :: w) as v eqn:Ev. clear Ev c w. revert v H1 H2 Hp.
  induction b as [|x b IH]; intros v H1 H2 Hp; [destruct v; cbn in *; discriminate|].
  destruct v as [|y v]; [cbn in *; discriminate|]. cbn [app is_prefix] in *.
  apply andb_true_iff in Hp as [E Hp]. rewrite E in H1. rewrite Ascii.eqb_sym, E in H2. cbn [andb] in *. eapply IH; eauto.
Qed.

Section Replace.
  Variables (k u : str).
  Hypothesis (Hk : k <> []).
  (** [replace] as a relation *)
  Lemma replace_hd s : replace k u (k ++ s) = u ++ replace k u s.
  Proof. apply (replace_at k u [] s Hk). intros a1 a2 E Hn. destruct a1; cbn in E; [congruence|discriminate]. Qed.
  Lemma replace_cons c s : is_prefix k (c :: s) = false -> replace k u (c :: s) = c :: replace k u s.
  Proof. intros H. unfold replace. cbn [replace_aux]. now rewrite H. Qed.
  Lemma replace_ind (P : str -> str -> Prop) :
    P [] [] -> (forall s, P s (replace k u s) -> P (k ++ s) (u ++ replace k u s)) ->
    (forall c s, is_prefix k (c :: s) = false -> P s (replace k u s) -> P (c :: s) (c :: replace k u s)) ->
    forall s, P s (replace k u s).
  Proof.
    intros H0 H1 H2 s. remember (List.length s) as n eqn:En. revert s En.
    induction n as [n IH] using lt_wf_ind. intros s ->. destruct s as [|c s]; [apply H0|].
    destruct (is_prefix k (c :: s)) eqn:E.
    - apply is_prefix_spec in E as [t E]. rewrite E, replace_hd. apply H1. apply (IH (List.length t)); auto.
      rewrite E, app_length. destruct k; [congruence|cbn; lia].
    - rewrite replace_cons by auto. apply H2; auto. apply (IH (List.length s)); auto.
  Qed.
  Lemma replace_apart a s : apart a k = true -> replace k u (a ++ s) = a ++ replace k u s.
  Proof.
    induction a as [|c a IH]; intros H; auto. cbn [app].
    pose proof (apart_ext (c :: a) k s ltac:(discriminate) H) as E. cbn [app] in E. rewrite replace_cons by auto. f_equal.
    apply IH. eapply apart_tl; eauto.
  Qed.
  (** a text [w] none of whose ends meets the URL begins the result only if it began the source *)
  Lemma replace_prefix : forall s w, apart w u = true -> is_prefix w (replace k u s) = true -> is_prefix w s = true.
  Proof.
    intros s. apply (replace_ind (fun s t => forall w, apart w u = true -> is_prefix w t = true -> is_prefix w s = true)); auto.
    - intros t _ w Hw Hp. now rewrite (apart_pre w u _ Hw Hp).
    - intros c t Hc IH w Hw Hp. destruct w as [|x w]; auto. cbn [is_prefix] in *. apply andb_true_iff in Hp as [-> Hp]. cbn [andb].
      apply IH; auto. eapply apart_tl; eauto.
  Qed.
End Replace.

Fixpoint chain_ok (rs : list (str * str)) : bool :=
  match rs with
  | [] => true
  | (k, u) :: rs' => negb (eqs k []) && forallb (fun r => apart u (fst r) && apart (fst r) k && apart (fst r) u) rs' && chain_ok rs'
  end.
Lemma eqs_nil k : eqs k [] = false -> k <> [].
Proof. intros H ->. cbn in H. discriminate. Qed.

Lemma published_push k u rs (Hk : k <> []) (Hu : forall k2 u2, In (k2, u2) rs -> apart u k2 = true)
  (Hkk : forall k2 u2, In (k2, u2) rs -> apart k2 k = true) (Hku : forall k2 u2, In (k2, u2) rs -> apart k2 u = true) :
  forall txt out, Published ((k, u) :: rs) txt out -> Published rs (replace k u txt) out.
Proof.
  induction 1 as [|k2 u2 r r' Hi Hp IH|c r r' Hn Hp IH].
  - apply P_end.
  - destruct Hi as [E|Hi].
    + assert (k2 = k /\ u2 = u) as [-> ->] by (split; congruence). rewrite replace_hd by auto.
      clear Hp. assert (Hc : forall k2 u2, In (k2, u2) rs -> apart u k2 = true) by auto. clear Hu. revert Hc.
      generalize u at 1 2 4 as v. induction v as [|c v IHv]; intros Hc; auto.
      cbn [app]. apply P_chr; [|apply IHv; intros; eapply apart_tl; eauto].
      intros k3 u3 t Hi3 E3. pose proof (apart_ext (c :: v) k3 (replace k u r) ltac:(discriminate) (Hc _ _ Hi3)) as E4.
      cbn [app] in E4. rewrite E3, is_prefix_app in E4. discriminate.
    + rewrite replace_apart by eauto. now apply P_ref.
  - rewrite replace_cons.
    + apply P_chr; auto. intros k3 u3 t Hi3 E3. 
      assert (Hc : is_prefix k (c :: r) = false).
      { destruct (is_prefix k (c :: r)) eqn:E; auto. apply is_prefix_spec in E as [t' E]. exfalso. eapply (Hn k u); [now left|exact E]. }
      assert (E4 : is_prefix k3 (replace k u (c :: r)) = true) by (rewrite replace_cons, E3 by auto; apply is_prefix_app).
      apply replace_prefix in E4; eauto. apply is_prefix_spec in E4 as [t' E4]. eapply (Hn k3 u3); [now right|exact E4].
    + destruct (is_prefix k (c :: r)) eqn:E; auto. apply is_prefix_spec in E as [t' E]. exfalso. eapply (Hn k u); [now left|exact E].
Qed.
Lemma published_nil txt out : Published [] txt out -> txt = out.
Proof. induction 1 as [|k u r r' Hi Hp IH|c r r' Hn Hp IH]; auto; [destruct Hi|now f_equal]. Qed.
Lemma chain_run : forall rs txt out, chain_ok rs = true -> Published rs txt out ->
  fold_left (fun t r => replace (fst r) (snd r) t) rs txt = out.
Proof.
  induction rs as [|[k u] rs IH]; intros txt out H Hp; [now apply published_nil|].
  cbn [chain_ok] in H. apply andb_true_iff in H as [H Hc]. apply andb_true_iff in H as [Hk H]. apply negb_true_iff, eqs_nil in Hk.
  rewrite forallb_forall in H. cbn [fold_left fst snd]. apply IH; auto.
  apply published_push; auto; intros k2 u2 Hi; specialize (H _ Hi); cbn [fst] in H;
    apply andb_true_iff in H as [H H3]; apply andb_true_iff in H as [H1 H2]; auto.
Qed.
(** Every text has a published form. *)
Lemma published_total rs (Hne : forall k u, In (k, u) rs -> k <> []) : forall txt, exists out, Published rs txt out.
Proof.
  intros txt. remember (List.length txt) as n eqn:En. revert txt En.
  induction n as [n IH] using lt_wf_ind. intros [|c s] ->; [exists []; apply P_end|].
  destruct (existsb (fun r => is_prefix (fst r) (c :: s)) rs) eqn:E.
  - apply existsb_exists in E as [[k u] [Hi E]]. cbn [fst] in E. apply is_prefix_spec in E as [t E].
    destruct (IH (List.length t)) with (txt := t) as [out Ho]; auto.
    { rewrite E, app_length. specialize (Hne _ _ Hi). destruct k; [congruence|cbn; lia]. }
    exists (u ++ out). rewrite E. now apply P_ref.
  - destruct (IH (List.length s)) with (txt := s) as [out Ho]; auto. exists (c :: out). apply P_chr; auto.
    intros k u t Hi Et. assert (existsb (fun r => is_prefix (fst r) (c :: s)) rs = true); [|congruence].
    apply existsb_exists. exists (k, u). split; auto. cbn [fst]. rewrite Et. apply is_prefix_app.
Qed.
Lemma chain_nonempty rs : chain_ok rs = true -> forall k u, In (k, u) rs -> k <> [].
Proof.
  induction rs as [|[k u] rs IH]; intros H k' u' Hi; [destruct Hi|]. destruct Hi as [E|Hi];
    cbn [chain_ok] in H; apply andb_true_iff in H as [H Hc]; eauto.
  apply andb_true_iff in H as [Hk _]. apply negb_true_iff, eqs_nil in Hk. congruence.
Qed.
Lemma chain_iff rs txt out : chain_ok rs = true ->
  fold_left (fun t r => replace (fst r) (snd r) t) rs txt = out <-> Published rs txt out.
Proof.
  intros H. split; [|now apply chain_run]. intros <-.
  destruct (published_total rs (chain_nonempty rs H) txt) as [out Ho]. now rewrite (chain_run rs txt out H Ho).
Qed.

(** no local path is left *)
Definition clean_ok (p : str) (rs : list (str * str)) : bool :=
  forallb (fun r => apart (snd r) p && apart p (snd r)) rs.
Section Clean.
  Variables (rs : list (str * str)) (p : str).
  Hypothesis (Hp : p <> []) (Hc : clean_ok p rs = true).
  Hypothesis (Hin : exists u, In (p, u) rs).
  Lemma clean_at k u : In (k, u) rs -> apart u p = true /\ apart p u = true.
  Proof. intros Hi. unfold clean_ok in Hc. rewrite forallb_forall in Hc. specialize (Hc _ Hi). cbn [snd] in Hc. now apply andb_true_iff in Hc. Qed.
  Lemma published_prefix txt out : Published rs txt out -> forall x w, p = x ++ w -> is_prefix w out = true -> is_prefix w txt = true.
  Proof.
    assert (Hap : forall k u x w, In (k, u) rs -> p = x ++ w -> apart w u = true).
    { intros k u x w Hi E. destruct (clean_at k u Hi) as [_ H]. rewrite E in H. clear E. induction x; auto. apply IHx. eapply apart_tl; eauto. }
    induction 1 as [|k u r r' Hi Hpb IH|c r r' Hn Hpb IH]; intros x w E Hw; auto.
    - now rewrite (apart_pre w u _ (Hap _ _ _ _ Hi E) Hw).
    - destruct w as [|y w]; auto. cbn [is_prefix] in *. apply andb_true_iff in Hw as [-> Hw]. cbn [andb].
      apply (IH (x ++ [y])); auto. now rewrite <- app_assoc.
  Qed.
  Lemma published_clean txt out : Published rs txt out -> ~ Occurs p out.
  Proof.
    intros H (a & b & E). revert a b E. induction H as [|k u r r' Hi Hpb IH|c r r' Hn Hpb IH]; intros a b E.
    - destruct a; cbn in E; [destruct p; [congruence|discriminate]|discriminate].
    - destruct (clean_at k u Hi) as [H1 _]. clear Hi. revert a b E H1. induction u as [|d u IHu]; intros a b E H1; [eapply IH; eauto|].
      destruct a as [|x a].
      + pose proof (apart_ext (d :: u) p r' ltac:(discriminate) H1) as E2. rewrite E in E2. cbn [app] in E2. rewrite is_prefix_app in E2. discriminate.
      + cbn [app] in E. assert (E' : u ++ r' = a ++ p ++ b) by congruence. apply (IHu a b E'). eapply apart_tl; eauto.
    - destruct a as [|x a].
      + cbn [app] in E. destruct Hin as [u Hu]. assert (E2 : is_prefix p (c :: r) = true).
        { apply (published_prefix (c :: r) (c :: r')) with (x := []); auto; [now apply P_chr|]. rewrite E. apply is_prefix_app. }
        apply is_prefix_spec in E2 as [t E2]. now apply (Hn p u t Hu).
      + cbn [app] in E. assert (E' : r' = a ++ p ++ b) by congruence. now apply (IH a b E').
  Qed.
End Clean.
Lemma published_id rs txt : (forall k u, In (k, u) rs -> ~ Occurs k txt) -> Published rs txt txt.
Proof.
  induction txt as [|c s IH]; intros H; [apply P_end|]. apply P_chr.
  - intros k u t Hi E. apply (H k u Hi). exists [], t. exact E.
  - apply IH. intros k u Hi (a & b & E). apply (H k u Hi). exists (c :: a), b. now rewrite E.
Qed.

Lemma refs_chain v4 : chain_ok (refs v4) = true.
Proof. destruct v4; vm_compute; reflexivity. Qed.
Lemma refs_clean v4 : forallb (fun r => clean_ok (fst r) (refs v4)) (refs v4) = true.
Proof. destruct v4; vm_compute; reflexivity. Qed.
Lemma publish_iff v4 txt out : change_resource_paths v4 txt = out <-> Published (refs v4) txt out.
Proof. apply chain_iff, refs_chain. Qed.
Lemma publish_clean v4 txt k u : In (k, u) (refs v4) -> ~ Occurs k (change_resource_paths v4 txt).
Proof.
  intros Hi. pose proof (refs_clean v4) as H. rewrite forallb_forall in H. specialize (H _ Hi). cbn [fst] in H.
  apply (published_clean (refs v4) k) with (txt := txt); auto.
  - eapply chain_nonempty; [apply refs_chain|exact Hi].
  - now exists u.
  - now apply publish_iff.
Qed.
Lemma publish_twice v4 txt : change_resource_paths v4 (change_resource_paths v4 txt) = change_resource_paths v4 txt.
Proof. apply publish_iff, published_id. intros k u Hi. eapply publish_clean; eauto. Qed.
Lemma publish_keeps v4 txt : (forall k u, In (k, u) (refs v4) -> ~ Occurs k txt) -> change_resource_paths v4 txt = txt.
Proof. intros H. now apply publish_iff, published_id. Qed.
Lemma publish_iline v4 txt p : In p (page_paths v4 $"ILinePlot") -> ~ Occurs p (change_resource_paths v4 txt).
Proof.
  intros Hi. assert (exists u, In (p, u) (refs v4)) as [u Hu]; [|eapply publish_clean; eauto].
  cbn in Hi. destruct Hi as [<- |[<- |[<- |[<- |[]]]]]; eexists; cbn; intuition eauto.
Qed.
