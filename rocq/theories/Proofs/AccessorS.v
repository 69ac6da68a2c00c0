(** The accessors found in a text are those of its expression. *)
From Coq Require Import List Ascii String ZArith NArith Bool Lia.
From Verif Require Import Lib.PyStr Lib.PyStrFacts Model.Grammar Spec.Grammar Proofs.GrammarT Proofs.GrammarP Model.Accessor Spec.Accessor.
Import ListNotations.
Local Open Scope list_scope.

Lemma scan_enough s : forall n, (List.length s < n)%nat -> exists l, forall m, (List.length s < m)%nat -> scan m s = Some l.
Proof.
  intros n Hn. clear n Hn. remember (List.length s) as k eqn:Hk. revert s Hk. induction k as [k IH] using (well_founded_induction Wf_nat.lt_wf). intros s ->.
  destruct (skip s) as [|c r] eqn:E.
  - exists []. intros m Hm. destruct m; [lia|]. cbn [scan]. now rewrite E.
  - pose proof (skip_len s) as Ls. rewrite E in Ls. cbn [List.length] in Ls.
    destruct (p_acc (c :: r)) as [| |t r'] eqn:Ea.
    + destruct (IH (List.length r) ltac:(lia) r eq_refl) as (l & H). exists l. intros m Hm. destruct m; [lia|]. cbn [scan]. rewrite E, Ea. apply H. lia.
    + destruct (IH (List.length r) ltac:(lia) r eq_refl) as (l & H). exists l. intros m Hm. destruct m; [lia|]. cbn [scan]. rewrite E, Ea. apply H. lia.
    + destruct (acc_good (List.length (c :: r)) (c :: r) ltac:(lia)) as [_ Hl]. specialize (Hl _ _ Ea). cbn [List.length] in Hl.
      destruct (IH (List.length r) ltac:(lia) r eq_refl) as (l & H). destruct (IH (List.length r') ltac:(lia) r' eq_refl) as (l' & H').
      destruct t as [t|x|e col|f args|o a|a q].
      3: { exists ((e, col) :: l'). intros m Hm. destruct m; [lia|]. cbn [scan]. rewrite E, Ea, H' by lia. reflexivity. }
      all: exists l; intros m Hm; destruct m; [lia|]; cbn [scan]; rewrite E, Ea; apply H; lia.
Qed.
Lemma accessors_total s : exists l, accessors s = Some l.
Proof. destruct (scan_enough s (S (List.length s)) ltac:(lia)) as (l & H). exists l. apply H. lia. Qed.
Lemma scan_eq s n : (List.length s < n)%nat -> scan n s = accessors s.
Proof. intros H. destruct (scan_enough s n H) as (l & E). unfold accessors. rewrite !E by lia. reflexivity. Qed.
Lemma acc_ws c s : is_ws c = true -> accessors (c :: s) = accessors s.
Proof.
  intros H. assert (E : skip (c :: s) = skip s) by (unfold skip; cbn [span]; rewrite H; destruct (span is_ws s); reflexivity).
  rewrite <- (scan_eq s (S (List.length (c :: s)))) by (cbn; lia). unfold accessors. cbn [scan]. now rewrite E.
Qed.
Lemma acc_no c s : is_ws c = false -> p_acc (c :: s) = PNo -> accessors (c :: s) = accessors s.
Proof.
  intros H E. unfold accessors at 1. cbn [scan]. rewrite (skip_head c s H), E. apply scan_eq. cbn. lia.
Qed.
Lemma acc_yes e c s r : skip s = s -> p_acc s = PYes (AAcc e c) r -> accessors s = option_map (cons (e, c)) (accessors r).
Proof.
  intros Hs E. unfold accessors at 1. cbn [scan]. rewrite Hs. destruct s as [|x s]; [discriminate|].
  destruct (acc_good (List.length (x :: s)) (x :: s) ltac:(lia)) as [_ Hl]. specialize (Hl _ _ E). cbn [List.length] in Hl.
  rewrite E, scan_eq by (cbn; lia). reflexivity.
Qed.
Lemma acc_start c s : is_ws c = false -> id_start c = false -> accessors (c :: s) = accessors s.
Proof.
  intros H1 H2. apply acc_no; auto. unfold p_acc, func_name. rewrite skip_head by auto. cbn [ident]. now rewrite H2.
Qed.

(** ** Text without a colon *)
Lemma colon_none u rest : ~ In ":"%char u -> literal $":" rest = None -> literal $":" (u ++ rest) = None.
Proof.
  intros Hu Hr. induction u as [|c u IH]; auto. assert (Hu' : ~ In ":"%char u) by (intros H; apply Hu; now right). specialize (IH Hu').
  destruct (is_ws c) eqn:E.
  - unfold literal in *. replace (skip ((c :: u) ++ rest)) with (skip (u ++ rest)); auto.
    symmetry. apply (skip_white [c]). repeat constructor. exact E.
  - apply (lit_none ":"%char). cbn [app]. rewrite skip_head by auto. cbn. intros [E2|[]]. apply Hu. now left.
Qed.
Lemma span_inside p u rest : match rest with c :: _ => p c = false | [] => True end -> exists a b, span p (u ++ rest) = (a, b ++ rest) /\ u = a ++ b.
Proof.
  intros H. induction u as [|c u IH]; cbn [app span].
  - exists [], []. split; auto. destruct rest as [|c r]; auto. cbn [span]. now rewrite H.
  - destruct (p c).
    + destruct IH as (a & b & E & ->). rewrite E. exists (c :: a), b. auto.
    + exists [], (c :: u). auto.
Qed.
Lemma ident_inside u rest a r : head_ok rest -> ident (u ++ rest) = Some (a, r) -> exists b, r = b ++ rest /\ u = a ++ b.
Proof.
  intros H. destruct u as [|c u]; cbn [app].
  - destruct rest as [|c rest]; [discriminate|]. cbn [ident]. destruct H as [H _]. unfold id_char in H. apply orb_false_iff in H as [-> _]. discriminate.
  - cbn [ident]. destruct (id_start c); [|discriminate]. destruct (span_inside id_char u rest) as (x & y & E & ->); [now apply head_span|].
    rewrite E. intros [= <- <-]. exists y. auto.
Qed.
Lemma dotted_inside n : forall u rest a r, head_ok rest -> dotted n (u ++ rest) = (a, r) -> exists b, r = b ++ rest /\ u = a ++ b.
Proof.
  induction n as [|n IH]; intros u rest a r H; cbn [dotted].
  - intros [= <- <-]. exists u. auto.
  - destruct u as [|c u]; cbn [app].
    + destruct rest as [|c rest]; [intros [= <- <-]; exists []; auto|]. rewrite match_dot by apply H. intros [= <- <-]. exists []. auto.
    + destruct (Ascii.eqb c ".") eqn:E.
      * apply Ascii.eqb_eq in E as ->. destruct (ident (u ++ rest)) as [[x y]|] eqn:E1; [|intros [= <- <-]; exists ("."%char :: u); auto].
        destruct (ident_inside _ _ _ _ H E1) as (b & -> & ->). destruct (dotted n (b ++ rest)) as [p q] eqn:E2.
        destruct (IH _ _ _ _ H E2) as (b' & -> & ->). intros [= <- <-]. exists b'. split; auto. cbn [app]. now rewrite app_assoc.
      * rewrite match_dot by (intros ->; discriminate). intros [= <- <-]. exists (c :: u). auto.
Qed.
Lemma quiet u rest : ~ In ":"%char u -> head_ok rest -> literal $":" rest = None -> accessors (u ++ rest) = accessors rest.
Proof.
  intros Hu Hr Hc. induction u as [|c u IH]; auto. assert (Hu' : ~ In ":"%char u) by (intros H; apply Hu; now right). specialize (IH Hu').
  cbn [app]. destruct (is_ws c) eqn:E; [now rewrite acc_ws|]. rewrite acc_no; auto.
  unfold p_acc, func_name. change (c :: u ++ rest) with ((c :: u) ++ rest). cbn [app]. rewrite skip_head by auto. change (c :: u ++ rest) with ((c :: u) ++ rest).
  destruct (ident ((c :: u) ++ rest)) as [[a r]|] eqn:E1; auto. destruct (ident_inside _ _ _ _ Hr E1) as (b & -> & E2).
  destruct (dotted (List.length (b ++ rest)) (b ++ rest)) as [x y] eqn:E3. destruct (dotted_inside _ _ _ _ _ Hr E3) as (b' & -> & ->).
  rewrite colon_none; auto. intros H. apply Hu. rewrite E2. apply in_or_app. right. apply in_or_app. now right.
Qed.
(** ... that ends with a character of its own. *)
Lemma quiet_end u c rest : ~ In ":"%char u -> is_ws c = false -> id_char c = false -> c <> "."%char -> c <> ":"%char ->
  accessors (u ++ c :: rest) = accessors rest.
Proof.
  intros Hu H1 H2 H3 H4. rewrite quiet; auto.
  - apply acc_start; auto. unfold id_char in H2. now apply orb_false_iff in H2.
  - split; auto.
  - apply (lit_none ":"%char). rewrite skip_head by auto. cbn. intuition.
Qed.
Lemma white_colon u : white u -> ~ In ":"%char u.
Proof. intros H Hi. apply (proj1 (Forall_forall _ _) H) in Hi. discriminate. Qed.
Lemma name_colon u : Name u -> ~ In ":"%char u.
Proof.
  intros (c & r & -> & Hc & Hr) [E|Hi]; [subst; discriminate|]. rewrite Forall_forall in Hr. apply Hr in Hi. discriminate.
Qed.
Lemma dotted_colon u : Dotted u -> ~ In ":"%char u.
Proof.
  induction 1 as [s Hs|s t Hs Ht IH]; [now apply name_colon|]. intros Hi. apply in_app_or in Hi as [Hi|[E|Hi]]; [now apply name_colon in Hi|discriminate|auto].
Qed.
Lemma digit_colon u : Forall (fun c => is_digit c = true) u -> ~ In ":"%char u.
Proof. intros H Hi. rewrite Forall_forall in H. apply H in Hi. discriminate. Qed.
Lemma number_colon u : Number u -> ~ In ":"%char u.
Proof.
  intros H Hi. destruct H as [d [_ Hd]|d f [_ Hd] Hf|d f e g x [_ Hd] Hf He Hg [_ Hx]].
  - now apply digit_colon in Hi.
  - apply in_app_or in Hi as [Hi|[E|Hi]]; [now apply digit_colon in Hi|discriminate|now apply digit_colon in Hi].
  - apply in_app_or in Hi as [Hi|[E|Hi]]; [now apply digit_colon in Hi|discriminate|]. apply in_app_or in Hi as [Hi|[E|Hi]]; [now apply digit_colon in Hi| |].
    + subst. destruct He as [E|[E|[]]]; discriminate.
    + apply in_app_or in Hi as [Hi|Hi]; [|now apply digit_colon in Hi]. destruct Hg as [<-|[<-|[<-|[]]]]; cbn in Hi; intuition discriminate.
Qed.
Lemma op_end op l : op_level op l -> exists u c, op = u ++ [c] /\ ~ In ":"%char u /\ is_ws c = false /\ id_char c = false /\ c <> "."%char /\ c <> ":"%char.
Proof.
  intros (ops & Hl & Ho). cbn in Hl. repeat destruct Hl as [Hl|Hl]; try easy; injection Hl as <- <-; cbn in Ho; repeat destruct Ho as [Ho|Ho]; try easy; subst op.
  all: first [ eexists [_], _; split; [reflexivity|]; split; [cbn; intuition discriminate|]; repeat split; discriminate
             | eexists [], _; split; [reflexivity|]; split; [cbn; intuition discriminate|]; repeat split; discriminate ].
Qed.
Lemma p_acc_ok ev w1 w2 c r : Dotted ev -> white w1 -> white w2 -> Name c -> head_ok r ->
  p_acc ((ev ++ w1 ++ ":"%char :: w2 ++ c) ++ r) = PYes (AAcc ev c) r /\ skip ((ev ++ w1 ++ ":"%char :: w2 ++ c) ++ r) = (ev ++ w1 ++ ":"%char :: w2 ++ c) ++ r.
Proof.
  intros He H1 H2 Hc Hr. split.
  - replace ((ev ++ w1 ++ ":"%char :: w2 ++ c) ++ r) with ([] ++ ev ++ (w1 ++ ":"%char :: w2 ++ c ++ r)) by (cbn [app]; repeat (rewrite <- app_assoc; cbn [app]); reflexivity).
    unfold p_acc. rewrite func_name_dotted by (auto; try constructor; apply ws_head_ok; auto; discriminate).
    rewrite (lit_head w1 ":"%char) by auto. rewrite skip_white by auto.
    assert (Hs : skip (c ++ r) = c ++ r). { destruct Hc as (x & x' & -> & H & _). apply skip_head. now apply start_facts. }
    rewrite Hs, ident_name by (auto; now apply head_span). auto.
  - destruct (dotted_start ev He) as (x & ev' & -> & Hx). cbn [app]. apply skip_head. now apply start_facts.
Qed.

Definition plus (l : list (str * str)) (x : option (list (str * str))) : option (list (str * str)) := option_map (app l) x.
Lemma plus_nil x : plus [] x = x. Proof. now destruct x. Qed.
Lemma plus_app a b x : plus (a ++ b) x = plus a (plus b x).
Proof. destruct x; cbn; auto. now rewrite app_assoc. Qed.
Ltac assoc := cbn [app]; repeat (rewrite <- app_assoc; cbn [app]).
Definition Finds (l : nat) (e : exp) (s : str) : Prop := forall rest, Stop rest -> accessors (s ++ rest) = plus (accs e) (accessors rest).
Definition FindsAll (l : list exp) (s : str) : Prop := forall w rest, white w -> accessors (s ++ w ++ ")"%char :: rest) = plus (flat_map accs l) (accessors rest).
Lemma text_finds : forall l e s, Text l e s -> Finds l e s.
Proof.
  apply (Text_ind2 Finds FindsAll).
  - intros n Hn rest Hs. cbn [accs]. rewrite plus_nil. apply quiet; [now apply number_colon|apply Hs|now apply stop_colon].
  - intros x Hx rest Hs. cbn [accs]. rewrite plus_nil. apply quiet; [now apply name_colon|apply Hs|now apply stop_colon].
  - intros ev w1 w2 c He H1 H2 Hc rest Hs. destruct (p_acc_ok ev w1 w2 c rest He H1 H2 Hc (proj1 Hs)) as [E1 E2].
    rewrite (acc_yes ev c _ rest E2 E1). reflexivity.
  - intros e s w _ IH Hw rest Hs. assoc. rewrite acc_start by reflexivity. rewrite IH by (apply closing; auto).
    rewrite quiet_end; try reflexivity; try discriminate. now apply white_colon.
  - intros f w1 a s l t w2 Hf H1 _ IHa Ht IHl H2 rest Hs. assoc. rewrite app_assoc. rewrite quiet_end; try reflexivity; try discriminate.
    + assert (SN : Stop (t ++ w2 ++ ")"%char :: rest)). { destruct Ht as [|w' e' s' l' t' Hw' _ _]; [apply closing; auto|]. assoc. apply closing; auto. }
      rewrite IHa by auto. rewrite IHl by auto. cbn [accs]. now rewrite plus_app.
    + intros Hi. apply in_app_or in Hi as [Hi|Hi]; [now apply dotted_colon in Hi|now apply white_colon in Hi].
  - intros op e s Hop _ IH rest Hs. cbn [app]. rewrite acc_start by (destruct Hop as [-> | ->]; reflexivity). now apply IH.
  - intros l op a s b t w Ho _ IHa Hb IHb Hw rest Hs. destruct (text_first _ _ _ Hb) as (d & t' & Et & Hd).
    destruct (op_ok op l w d (t' ++ rest) Ho Hw Hd) as (_ & _ & O3). assert (Ed : d :: t' ++ rest = t ++ rest) by (rewrite Et; reflexivity). rewrite Ed in O3.
    assoc. rewrite IHa by auto. cbn [accs]. rewrite plus_app. f_equal. destruct (op_end op _ Ho) as (u & c & -> & A1 & A2 & A3 & A4 & A5).
    assoc. rewrite app_assoc. rewrite quiet_end; auto. intros Hi. apply in_app_or in Hi as [Hi|Hi]; [now apply white_colon in Hi|auto].
  - intros a s w1 w2 g n _ IHa H1 H2 Hg Hn rest Hs.
    assert (Hd : exists d r, w2 ++ g :: n ++ rest = d :: r /\ opfree d = true).
    { destruct H2 as [|c w2 Hc H2]; cbn [app]; [exists g; eexists; split; [reflexivity|destruct Hg as [-> | ->]; reflexivity]|eexists _, _; split; [reflexivity|now apply ws_opfree]]. }
    destruct Hd as (d & r & Ed & Hd). destruct (op_ok $"**" 0 w1 d r) as (_ & _ & O3); auto. { exists [$"**"]. cbn. auto. }
    rewrite <- Ed in O3. assoc. change ("*"%char :: "*"%char :: w2 ++ g :: n ++ rest) with ($"**" ++ w2 ++ g :: n ++ rest).
    rewrite IHa by auto. cbn [accs]. rewrite app_nil_r. f_equal.
    replace (w1 ++ $"**" ++ w2 ++ g :: n ++ rest) with ((w1 ++ $"**" ++ w2 ++ g :: n) ++ rest) by (assoc; reflexivity).
    apply quiet; [|apply Hs|now apply stop_colon]. intros Hi. apply in_app_or in Hi as [Hi|Hi]; [now apply white_colon in Hi|].
    apply in_app_or in Hi as [Hi|Hi]; [destruct Hi as [E|[E|[]]]; discriminate|]. apply in_app_or in Hi as [Hi|[E|Hi]]; [now apply white_colon in Hi| |now apply number_colon in Hi].
    destruct Hg as [-> | ->]; discriminate.
  - intros l e s Hl _ IH rest Hs. now apply IH.
  - intros l e s w Hw _ IH rest Hs. assoc. rewrite <- (IH rest Hs). clear IH. induction Hw as [|c w Hc Hw IHw]; auto. cbn [app]. now rewrite acc_ws.
  - intros w rest Hw. cbn [app flat_map]. rewrite plus_nil. rewrite quiet_end; try reflexivity; try discriminate. now apply white_colon.
  - intros w0 e s l t Hw0 _ IH Hl IHl w rest Hw. assoc. rewrite quiet_end; try reflexivity; try discriminate; [|now apply white_colon].
    assert (SN : Stop (t ++ w ++ ")"%char :: rest)). { destruct Hl as [|w' e' s' l' t' Hw' _ _]; [apply closing; auto|]. assoc. apply closing; auto. }
    rewrite IH by auto. rewrite IHl by auto. cbn [flat_map]. now rewrite plus_app.
Qed.
Lemma accessors_ok e s tail l : Text 6 e s -> Ends tail -> accessors tail = Some l -> accessors (s ++ tail) = Some (accs e ++ l).
Proof.
  intros Ht He Hl. rewrite (text_finds _ _ _ Ht tail) by now apply ends_stop. now rewrite Hl.
Qed.
