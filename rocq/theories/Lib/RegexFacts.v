(** Facts about the matcher: declarative relation, soundness and completeness,
    and reasoning principles for greedy character loops. *)
From Coq Require Import List Ascii String ZArith NArith Bool Lia Arith.
From Verif Require Import Lib.PyStr Lib.PyStrFacts Lib.Regex.
Import ListNotations.

(** Declarative reading of a pattern, independent of search order. *)
Inductive mat : re -> st -> st -> Prop :=
| mat_eps s : mat REps s s
| mat_cls p c rest pv caps : p c = true -> mat (RCls p) (St pv (c :: rest) caps) (St (Some c) rest caps)
| mat_seq r1 r2 s1 s2 s3 : mat r1 s1 s2 -> mat r2 s2 s3 -> mat (RSeq r1 r2) s1 s3
| mat_altl r1 r2 s1 s2 : mat r1 s1 s2 -> mat (RAlt r1 r2) s1 s2
| mat_altr r1 r2 s1 s2 : mat r2 s1 s2 -> mat (RAlt r1 r2) s1 s2
| mat_star0 r s : mat (RStar r) s s
| mat_star1 r s1 s2 s3 : mat r s1 s2 -> List.length (s_rest s2) < List.length (s_rest s1) ->
    mat (RStar r) s2 s3 -> mat (RStar r) s1 s3
| mat_grp n r s1 s2 : mat r s1 s2 -> mat (RGrp n r) s1 (cap_add n s1 s2)
| mat_bos rest caps : mat RBos (St None rest caps) (St None rest caps)
| mat_wb s : xorb (opt_word (s_prev s)) (opt_word (hd_error (s_rest s))) = true -> mat RWb s s.

Lemma mt_sound {A} r : forall s (k : st -> option A) x,
  mt r s k = Some x -> exists s', mat r s s' /\ k s' = Some x.
Proof.
  induction r as [|p|r1 IH1 r2 IH2|r1 IH1 r2 IH2|r IH|n r IH| |]; intros s k x H; cbn [mt] in H.
  - eauto using mat.
  - destruct s as [pv [|c rest] caps]; cbn in *; [discriminate|].
    destruct (p c) eqn:E; [|discriminate]. eauto using mat.
  - apply IH1 in H as (s1 & H1 & H). apply IH2 in H as (s2 & H2 & H). eauto using mat.
  - destruct (mt r1 s k) eqn:E.
    + injection H as ->. apply IH1 in E as (s1 & ? & ?). eauto using mat.
    + apply IH2 in H as (s1 & ? & ?). eauto using mat.
  - set (fuel := List.length (s_rest s)) in H. clearbody fuel.
    revert s H. induction fuel as [|f IHf]; intros s H.
    + eauto using mat.
    + match type of H with match ?e with _ => _ end = _ => destruct e eqn:E end.
      * injection H as ->. apply IH in E as (s1 & H1 & H).
        destruct (Nat.ltb_spec (List.length (s_rest s1)) (List.length (s_rest s))); [|discriminate].
        apply IHf in H as (s2 & H2 & H). eauto using mat.
      * eauto using mat.
  - apply IH in H as (s1 & H1 & H). eauto using mat.
  - destruct s as [[c|] rest caps]; cbn in *; [discriminate|]. eauto using mat.
  - destruct (xorb _ _) eqn:E; [|discriminate]. eauto using mat.
Qed.

(** Every state reached consumes a prefix of the input. *)
Lemma mat_suffix r s s' : mat r s s' -> exists u, s_rest s = u ++ s_rest s'.
Proof.
  induction 1; try (now exists []); cbn in *.
  - now exists [c].
  - destruct IHmat1 as [u1 E1], IHmat2 as [u2 E2]. exists (u1 ++ u2).
    now rewrite E1, E2, app_assoc.
  - assumption.
  - assumption.
  - destruct IHmat1 as [u1 E1], IHmat2 as [u2 E2]. exists (u1 ++ u2).
    now rewrite E1, E2, app_assoc.
  - assumption.
Qed.

Lemma mt_complete {A} r : forall s s' (k : st -> option A),
  mat r s s' -> k s' <> None -> mt r s k <> None.
Proof.
  induction r as [|p|r1 IH1 r2 IH2|r1 IH1 r2 IH2|r IH|n r IH| |]; intros s s' k H Hk; cbn [mt].
  - inversion H; subst; auto.
  - inversion H; subst; cbn. now rewrite H1.
  - inversion H; subst. eapply IH1; eauto.
  - inversion H; subst.
    + destruct (mt r1 s k) eqn:E; [discriminate|]. exfalso. revert E. eapply IH1; eauto.
    + destruct (mt r1 s k) eqn:E; [discriminate|]. eapply IH2; eauto.
  - remember (List.length (s_rest s)) as fuel eqn:Ef.
    assert (Hf : List.length (s_rest s) <= fuel) by lia. clear Ef.
    remember (RStar r) as rr eqn:Er. revert fuel Hf.
    induction H; try discriminate; injection Er as ->; intros fuel Hf.
    + destruct fuel as [|f]; auto. destruct (mt r s _); auto. discriminate.
    + destruct fuel as [|f]; [lia|].
      match goal with |- match ?e with _ => _ end <> _ => destruct e eqn:E end; [discriminate|].
      exfalso. revert E. eapply IH; [exact H|].
      destruct (Nat.ltb_spec (List.length (s_rest s2)) (List.length (s_rest s1))); [|lia].
      apply IHmat2; auto. lia.
  - inversion H; subst. eapply IH; eauto.
  - inversion H; subst; auto.
  - inversion H; subst. now rewrite H0.
Qed.

Lemma mt_None {A} r s (k : st -> option A) :
  (forall s', mat r s s' -> k s' = None) -> mt r s k = None.
Proof.
  intros H. destruct (mt r s k) eqn:E; auto.
  apply mt_sound in E as (s' & H1 & H2). rewrite H in H2; congruence.
Qed.

Lemma mt_ext {A} r : forall s (k k' : st -> option A),
  (forall s', k s' = k' s') -> mt r s k = mt r s k'.
Proof.
  induction r as [|p|r1 IH1 r2 IH2|r1 IH1 r2 IH2|r IH|n r IH| |]; intros s k k' H; cbn [mt]; auto.
  - destruct (s_rest s); auto. destruct (p a); auto.
  - rewrite (IH1 s k k') by auto. now rewrite (IH2 s k k') by auto.
  - generalize (List.length (s_rest s)) as fuel. intros fuel. revert s.
    induction fuel as [|f IHf]; intros s; auto.
    erewrite (IH s); [|intros s'; cbv beta; rewrite IHf; reflexivity].
    now rewrite H.
  - destruct (s_prev s); auto.
  - destruct (xorb _ _); auto.
Qed.

(** ** Greedy loops over one character class *)
Definition last_or (o : option ascii) (u : str) : option ascii :=
  match rev u with [] => o | c :: _ => Some c end.
Lemma last_or_nil o : last_or o [] = o.
Proof. reflexivity. Qed.
Lemma last_or_snoc o u c : last_or o (u ++ [c]) = Some c.
Proof. unfold last_or. now rewrite rev_app_distr. Qed.
Lemma last_or_app o u v : last_or o (u ++ v) = last_or (last_or o u) v.
Proof.
  unfold last_or. rewrite rev_app_distr. destruct (rev v) as [|c w]; cbn; auto.
Qed.
Lemma last_or_cons o c u : last_or o (c :: u) = last_or (Some c) u.
Proof. exact (last_or_app o [c] u). Qed.

(** State after consuming [u]. *)
Definition adv (s : st) (u rest : str) : st := St (last_or (s_prev s) u) rest (s_caps s).

Fixpoint star_try {A} (p : ascii -> bool) (pv : option ascii) (rest : str) caps
  (k : st -> option A) : option A :=
  match rest with
  | [] => k (St pv [] caps)
  | c :: r => if p c then
                match star_try p (Some c) r caps k with
                | Some x => Some x
                | None => k (St pv rest caps)
                end
              else k (St pv rest caps)
  end.

Lemma mt_star_cls {A} p s (k : st -> option A) :
  mt (RStar (RCls p)) s k = star_try p (s_prev s) (s_rest s) (s_caps s) k.
Proof.
  cbn [mt].
  assert (G : forall fuel s, List.length (s_rest s) <= fuel ->
    (fix loop (fuel : nat) (s : st) : option A :=
         match fuel with
         | O => k s
         | S f =>
             match match s_rest s with
                   | [] => None
                   | c :: rest =>
                     if p c then
                      let s' := St (Some c) rest (s_caps s) in
                      if (List.length (s_rest s') <? List.length (s_rest s))%nat
                      then loop f s' else None else None end with
             | Some x => Some x
             | None => k s
             end
         end) fuel s = star_try p (s_prev s) (s_rest s) (s_caps s) k).
  { induction fuel as [|f IH]; intros [pv rest caps] Hl; cbn [s_rest s_prev s_caps] in *.
    - destruct rest; [reflexivity|cbn in Hl; lia].
    - destruct rest as [|c r]; [reflexivity|]. cbn [star_try]. destruct (p c); auto.
      cbv zeta. cbn [s_rest s_caps].
      replace (List.length r <? List.length (c :: r)) with true
        by (symmetry; apply Nat.ltb_lt; cbn; lia).
      rewrite IH by (cbn in *; lia). reflexivity. }
  apply G. lia.
Qed.

(** The loop stops at the end of [a] when the continuation accepts there and
    rejects after every longer run. *)
Lemma star_back {A} p s a b (k : st -> option A) x :
  s_rest s = a ++ b -> Forall (fun c => p c = true) a ->
  k (adv s a b) = Some x ->
  (forall u v, b = u ++ v -> u <> [] -> Forall (fun c => p c = true) u ->
     k (adv s (a ++ u) v) = None) ->
  mt (RStar (RCls p)) s k = Some x.
Proof.
  intros E Ha Hk Hno. rewrite mt_star_cls. destruct s as [pv rest caps].
  cbn [s_rest s_prev s_caps] in *. subst rest. unfold adv in *. cbn [s_prev s_caps] in *.
  revert pv Hk Hno. induction a as [|c a IH]; intros pv Hk Hno.
  - cbn [app] in *.
    assert (G : forall u v pv', b = u ++ v -> u <> [] -> Forall (fun c => p c = true) u ->
               pv' = last_or pv u -> star_try p pv' v caps k = None).
    { intros u v. revert u. induction v as [|d v IHv]; intros u pv' Hb Hu Hp ->.
      - cbn. now apply Hno.
      - cbn [star_try]. destruct (p d) eqn:Ed.
        + rewrite (IHv (u ++ [d])).
          * now apply Hno.
          * now rewrite <- app_assoc.
          * now destruct u.
          * apply Forall_app. auto.
          * now rewrite last_or_snoc.
        + now apply Hno. }
    destruct b as [|c b]; cbn [star_try]; auto.
    destruct (p c) eqn:Ec; auto.
    rewrite (G [c] b); auto. discriminate.
  - inversion Ha; subst. cbn [app star_try]. rewrite H1.
    rewrite (IH H2 (Some c)); auto.
    + rewrite <- Hk. f_equal. f_equal. now rewrite last_or_cons.
    + intros u v Hb Hu Hp. rewrite <- (Hno u v) by auto.
      f_equal. cbn [app]. now rewrite last_or_cons.
Qed.

(** Greedy run followed by a character outside the class. *)
Lemma star_max {A} p s a b (k : st -> option A) x :
  s_rest s = a ++ b -> Forall (fun c => p c = true) a ->
  match b with [] => True | c :: _ => p c = false end ->
  k (adv s a b) = Some x ->
  mt (RStar (RCls p)) s k = Some x.
Proof.
  intros E Ha Hb Hk. eapply star_back; eauto.
  intros u v -> Hu Hp. destruct u as [|c u]; [congruence|].
  inversion Hp; subst. cbn in Hb. congruence.
Qed.

Lemma star_None {A} p s (k : st -> option A) :
  (forall u v, s_rest s = u ++ v -> Forall (fun c => p c = true) u -> k (adv s u v) = None) ->
  mt (RStar (RCls p)) s k = None.
Proof.
  intros H. rewrite mt_star_cls. destruct s as [pv rest caps]. cbn [s_rest s_prev s_caps] in *.
  unfold adv in H. cbn [s_prev s_caps] in H.
  revert pv H. induction rest as [|c r IH]; intros pv H; cbn [star_try].
  - now apply (H [] []).
  - destruct (p c) eqn:E.
    + rewrite IH; [now apply (H [] (c :: r))|].
      intros u v -> Hu. rewrite <- (H (c :: u) v); auto. now rewrite last_or_cons.
    + now apply (H [] (c :: r)).
Qed.

(** Character-class plus. *)
Lemma plus_back {A} p s c a b (k : st -> option A) x :
  s_rest s = c :: a ++ b -> p c = true -> Forall (fun c => p c = true) a ->
  k (adv s (c :: a) b) = Some x ->
  (forall u v, b = u ++ v -> u <> [] -> Forall (fun c => p c = true) u ->
     k (adv s (c :: a ++ u) v) = None) ->
  mt (RPlus (RCls p)) s k = Some x.
Proof.
  intros E Hc Ha Hk Hno. unfold RPlus. cbn [mt]. rewrite E, Hc.
  apply (star_back p (St (Some c) (a ++ b) (s_caps s)) a b k x); auto.
  - rewrite <- Hk. unfold adv. cbn. now rewrite last_or_cons.
  - intros u v Hb Hu Hp. rewrite <- (Hno u v) by auto. unfold adv. cbn. now rewrite last_or_cons.
Qed.
Lemma plus_max {A} p s a b (k : st -> option A) x :
  s_rest s = a ++ b -> a <> [] -> Forall (fun c => p c = true) a ->
  match b with [] => True | c :: _ => p c = false end ->
  k (adv s a b) = Some x ->
  mt (RPlus (RCls p)) s k = Some x.
Proof.
  intros E Hne Ha Hb Hk. destruct a as [|c a]; [congruence|]. inversion Ha; subst.
  eapply plus_back; eauto. intros u v -> Hu Hp. destruct u; [congruence|].
  inversion Hp; subst. cbn in Hb. congruence.
Qed.
Lemma plus_None {A} p s (k : st -> option A) :
  (forall u v, s_rest s = u ++ v -> u <> [] -> Forall (fun c => p c = true) u -> k (adv s u v) = None) ->
  mt (RPlus (RCls p)) s k = None.
Proof.
  intros H. unfold RPlus. cbn [mt]. destruct (s_rest s) as [|c r] eqn:E; auto.
  destruct (p c) eqn:Ec; auto.
  apply (star_None p (St (Some c) r (s_caps s)) k). cbn. intros u v -> Hu.
  rewrite <- (H (c :: u) v); auto; [|discriminate]. unfold adv. cbn. now rewrite last_or_cons.
Qed.
Lemma cls_step {A} p s c rest (k : st -> option A) :
  s_rest s = c :: rest -> p c = true -> mt (RCls p) s k = k (adv s [c] rest).
Proof. intros E Hc. cbn. now rewrite E, Hc. Qed.
Lemma cls_None {A} p s (k : st -> option A) :
  match s_rest s with [] => True | c :: _ => p c = false end -> mt (RCls p) s k = None.
Proof. cbn. destruct (s_rest s); auto. now intros ->. Qed.
Lemma lit_step {A} l s rest (k : st -> option A) :
  s_rest s = l ++ rest -> mt (RLit l) s k = k (adv s l rest).
Proof.
  revert s. induction l as [|c l IH]; intros s E.
  - cbn in *. destruct s; cbn in *; subst. reflexivity.
  - destruct l as [|d l].
    + cbn [RLit app] in *. unfold RCh. apply cls_step; auto. apply is_ch_eq. reflexivity.
    + change (RLit (c :: d :: l)) with (RSeq (RCls (is_ch c)) (RLit (d :: l))).
      change (mt (RSeq (RCls (is_ch c)) (RLit (d :: l))) s k)
        with (mt (RCls (is_ch c)) s (fun s' => mt (RLit (d :: l)) s' k)).
      rewrite (cls_step (is_ch c) s c ((d :: l) ++ rest)); [|exact E|now apply is_ch_eq].
      unfold adv at 1. cbn [last_or rev app].
      change (last_or (s_prev s) [c]) with (Some c).
      change (d :: l ++ rest) with ((d :: l) ++ rest).
      rewrite (IH (St (Some c) ((d :: l) ++ rest) (s_caps s))) by reflexivity.
      unfold adv. cbn [s_prev s_rest s_caps]. now rewrite (last_or_cons (s_prev s)).
Qed.
Lemma adv_rest s u v : s_rest (adv s u v) = v.
Proof. reflexivity. Qed.
Lemma adv_adv s u v u' v' : adv (adv s u v) u' v' = adv s (u ++ u') v'.
Proof. unfold adv. cbn. now rewrite last_or_app. Qed.
Lemma adv_caps s u v : s_caps (adv s u v) = s_caps s.
Proof. reflexivity. Qed.

Lemma cap_add_adv n s0 s u v :
  s_rest s0 = u ++ v ->
  cap_add n s0 (adv s u v) = St (last_or (s_prev s) u) v ((n, u) :: s_caps s).
Proof.
  intros E. unfold cap_add, adv. cbn. rewrite E, app_length.
  replace (List.length u + List.length v - List.length v) with (List.length u) by lia.
  now rewrite firstn_app, firstn_all, Nat.sub_diag, firstn_O, app_nil_r.
Qed.

(** Declarative reading of common forms. *)
Lemma mat_star_cls p s s' : mat (RStar (RCls p)) s s' ->
  exists u, s_rest s = u ++ s_rest s' /\ Forall (fun c => p c = true) u /\
            s_prev s' = last_or (s_prev s) u /\ s_caps s' = s_caps s.
Proof.
  remember (RStar (RCls p)) as r eqn:Er. induction 1; try discriminate; injection Er as ->.
  - exists []. auto.
  - inversion H; subst. destruct IHmat2 as (u & E & Hu & Hp & Hc); auto. cbn in *.
    exists (c :: u). repeat split; auto.
    + cbn. now rewrite E.
    + rewrite Hp. now rewrite last_or_cons.
Qed.
Lemma mat_plus_cls p s s' : mat (RPlus (RCls p)) s s' ->
  exists u, s_rest s = u ++ s_rest s' /\ u <> [] /\ Forall (fun c => p c = true) u /\
            s_prev s' = last_or (s_prev s) u /\ s_caps s' = s_caps s.
Proof.
  intros H. unfold RPlus in H. inversion H; subst; clear H.
  match goal with H : mat (RCls _) _ _ |- _ => inversion H; subst; clear H end.
  match goal with H : mat (RStar _) _ _ |- _ =>
    apply mat_star_cls in H as (u & E & Hu & Hp & Hc) end.
  cbn in *. exists (c :: u). repeat split; auto.
  - cbn. now rewrite E.
  - discriminate.
  - rewrite Hp. now rewrite last_or_cons.
Qed.
Lemma mat_lit l s s' : mat (RLit l) s s' ->
  s_rest s = l ++ s_rest s' /\ s_prev s' = last_or (s_prev s) l /\ s_caps s' = s_caps s.
Proof.
  revert s. induction l as [|c l IH]; intros s H.
  - inversion H; subst. auto.
  - destruct l as [|d l].
    + change (RLit [c]) with (RCls (is_ch c)) in H. inversion H; subst; clear H.
      match goal with H : is_ch _ _ = true |- _ => apply is_ch_eq in H; subst end. auto.
    + change (RLit (c :: d :: l)) with (RSeq (RCls (is_ch c)) (RLit (d :: l))) in H.
      inversion H; subst; clear H.
      match goal with H : mat (RCls _) _ _ |- _ => inversion H; subst; clear H end.
      match goal with H : is_ch _ _ = true |- _ => apply is_ch_eq in H; subst end.
      match goal with H : mat _ _ s' |- _ => apply IH in H as (E & Hp & Hc) end.
      cbn [s_rest s_prev s_caps] in *. rewrite E. repeat split; auto.
      rewrite Hp. now rewrite (last_or_cons pv).
Qed.
