(** A trace as an object: attributes, added events, normalisation. *)
From Coq Require Import List Ascii String Bool Arith Lia.
From Verif Require Import Lib.PyStr Lib.PyStrFacts Lib.Regex Lib.RegexFacts Lib.SearchFacts Model.Bare Spec.Bare.
Import ListNotations.
Local Open Scope list_scope.

Lemma mem_In a l : mem a l = true <-> In a l.
Proof.
  unfold mem. rewrite existsb_exists. split.
  - intros (x & Hx & E). apply eqs_eq in E as ->. exact Hx.
  - intros H. exists a. split; auto. apply eqs_refl.
Qed.

Lemma rev_repeat {A} (x : A) n : rev (repeat x n) = repeat x n.
Proof. induction n as [|n IH]; [reflexivity|]. cbn [repeat rev]. now rewrite IH, <- repeat_cons. Qed.
Lemma rstrip_colon_iff a w : rstrip_colon w = a <-> Colons a w.
Proof.
  unfold rstrip_colon, Colons. split.
  - intros <-. split.
    + exists (List.length (take_while (is_ch ":") (rev w))).
      rewrite <- (rev_involutive w) at 1. rewrite <- (take_drop_while (is_ch ":") (rev w)) at 1.
      rewrite rev_app_distr. f_equal.
      assert (H : Forall (fun c => c = ":"%char) (take_while (is_ch ":") (rev w))).
      { generalize (rev w). intros l. induction l as [|c l IH]; [constructor|]. cbn [take_while].
        destruct (is_ch ":" c) eqn:E; constructor; auto. now apply is_ch_eq in E. }
      revert H. generalize (take_while (is_ch ":") (rev w)). intros l H.
      assert (El : l = repeat ":"%char (List.length l)) by (induction H; cbn; congruence).
      rewrite El at 1. apply rev_repeat.
    + intros (b & E). assert (E' : drop_while (is_ch ":") (rev w) = ":"%char :: rev b).
      { rewrite <- (rev_involutive (drop_while _ _)), E, rev_app_distr. reflexivity. }
      apply drop_while_hd in E'. now vm_compute in E'.
  - intros ((n & ->) & H). rewrite rev_app_distr.
    rewrite rev_repeat, drop_while_app.
    2:{ apply Forall_forall. intros c Hc. apply repeat_spec in Hc as ->. reflexivity. }
    destruct (rev a) as [|c r] eqn:Er.
    + rewrite <- (rev_involutive a), Er. reflexivity.
    + rewrite drop_while_head.
      * now rewrite <- Er, rev_involutive.
      * destruct (is_ch ":" c) eqn:Ec; auto. apply is_ch_eq in Ec. subst c. exfalso. apply H.
        exists (rev r). rewrite <- (rev_involutive a), Er. reflexivity.
Qed.

Lemma deprecated_iff a n : forall defs, deprecated a defs = Some n <->
  n <> a /\ exists l w r, defs = l ++ (n, w) :: r /\ Colons a w /\ (forall m v, In (m, v) l -> ~ Colons a v).
Proof.
  induction defs as [|(m, v) r IH]; cbn [deprecated].
  - split; [discriminate|]. intros (_ & l & w & r & E & _). destruct l; discriminate.
  - destruct (eqs a (rstrip_colon v)) eqn:E.
    + apply eqs_eq in E. assert (C : Colons a v) by now apply rstrip_colon_iff.
      destruct (eqs m (rstrip_colon v)) eqn:E2.
      * apply eqs_eq in E2. split; [discriminate|]. intros (Hn & l & w & r' & El & Cw & Hl).
        destruct l as [|x l]; injection El as E3 E4.
        { subst. congruence. }
        subst x. exfalso. apply (Hl m v); auto. now left.
      * apply eqs_neq in E2. split.
        { intros H. injection H as <-. split; [congruence|]. exists [], v, r. repeat split; auto. apply C. apply C. }
        { intros (Hn & l & w & r' & El & Cw & Hl). destruct l as [|x l]; injection El as E3 E4.
          - now subst.
          - subst x. exfalso. apply (Hl m v); auto. now left. }
    + apply eqs_neq in E. assert (C : ~ Colons a v) by (rewrite <- rstrip_colon_iff; congruence).
      rewrite IH. split.
      * intros (Hn & l & w & r' & -> & Cw & Hl). split; auto. exists ((m, v) :: l), w, r'. repeat split; auto; try apply Cw.
        intros m' v' [Hi|Hi]; [|eauto]. injection Hi as <- <-. exact C.
      * intros (Hn & l & w & r' & El & Cw & Hl). split; auto. destruct l as [|x l]; injection El as E3 E4.
        { subst. contradiction. }
        subst. exists l, w, r'. repeat split; auto; try apply Cw. intros m' v' Hi. apply (Hl m'). now right.
Qed.

Lemma NoDup_app_snoc {A} (l : list A) x : NoDup l -> ~ In x l -> NoDup (l ++ [x]).
Proof.
  intros H Hx. apply NoDup_rev in H. rewrite <- (rev_involutive (l ++ [x])). apply NoDup_rev. rewrite rev_app_distr. cbn.
  constructor; auto. now rewrite <- in_rev.
Qed.

Section Bare.
  Context {T : Type} (tsub : T -> T -> T) (tfalse : T -> bool) (methods : list str).
  Implicit Types (tr : trace T) (os : list (op T)).

  Lemma getattr_hint tr a n : getattr methods tr a = Hint n <->
    ~ In a (map fst (tr_dict tr)) /\ ~ In a methods /\ ~ ((exists r, a = $"__" ++ r) /\ (exists r, a = r ++ $"__")) /\
    n <> a /\ exists l w r, tr_defs tr = l ++ (n, w) :: r /\ Colons a w /\ (forall m v, In (m, v) l -> ~ Colons a v).
  Proof.
    rewrite <- deprecated_iff. unfold getattr, getattr_hook, dunder.
    destruct (dget eqs a (tr_dict tr)) as [x|] eqn:E.
    - split; [discriminate|]. intros (H & _). apply (dget_None eqs eqs_eq) in H. congruence.
    - apply (dget_None eqs eqs_eq) in E. destruct (mem a methods) eqn:M.
      + apply mem_In in M. split; [discriminate|]. intros (_ & H & _). contradiction.
      + assert (M' : ~ In a methods) by (rewrite <- mem_In; congruence).
        destruct (is_prefix $"__" a && is_suffix $"__" a) eqn:D.
        * apply andb_prop in D as [D1 D2]. apply is_prefix_spec in D1. apply is_suffix_spec in D2.
          split; [discriminate|]. intros (_ & _ & H & _). exfalso. auto.
        * assert (D' : ~ ((exists r, a = $"__" ++ r) /\ (exists r, a = r ++ $"__"))).
          { intros (D1 & D2). apply is_prefix_spec in D1. apply is_suffix_spec in D2. rewrite D1, D2 in D. discriminate. }
          destruct (deprecated a (tr_defs tr)) as [m|].
          { split; intros H; [|destruct H as (_ & _ & _ & H)]; injection H as <-; auto. }
          { split; [discriminate|]. intros (_ & _ & _ & H). discriminate. }
  Qed.

  Lemma hasattr_iff tr a : hasattr methods tr a = true <-> In a (map fst (tr_dict tr)) \/ In a methods.
  Proof.
    unfold hasattr, getattr. destruct (dget eqs a (tr_dict tr)) as [x|] eqn:E.
    - apply (dget_In eqs eqs_eq) in E. split; auto. intros _. left. now apply (in_map fst) in E.
    - apply (dget_None eqs eqs_eq) in E. destruct (mem a methods) eqn:M.
      + apply mem_In in M. tauto.
      + assert (M' : ~ In a methods) by (rewrite <- mem_In; congruence).
        split; [|tauto]. unfold getattr_hook. destruct (dunder a); [discriminate|]. destruct (deprecated a (tr_defs tr)); discriminate.
  Qed.

  Lemma add_rejects tr n f p : add_parsed_event methods tr n f p = Err EValue <-> In n (map fst (tr_dict tr)) \/ In n methods.
  Proof. rewrite <- hasattr_iff. unfold add_parsed_event. destruct (hasattr methods tr n); split; congruence. Qed.

  Definition pivot_of (p : option str) : option str := match p with Some (c :: q) => Some (c :: q) | _ => None end.

  (** Invariant of a history of a [BareTrace]. *)
  Record Inv (zero : T) os tr : Prop := {
    inv_own : forall n, In n own_attrs -> dget eqs n (tr_dict tr) = Some AOther;
    inv_at : forall i e, nth_error (tr_events tr) i = Some e -> dget eqs (ev_name e) (tr_dict tr) = Some (AEvent i) /\ ~ Builtin methods (ev_name e);
    inv_only : forall n x, dget eqs n (tr_dict tr) = Some x -> In n own_attrs \/ exists e, In e (tr_events tr) /\ ev_name e = n;
    inv_defs : tr_defs tr = map (fun e => (ev_name e, ev_name e ++ $":")) (tr_events tr);
    inv_all : forall n, ~ Builtin methods n -> Adds os n -> exists e, In e (tr_events tr) /\ ev_name e = n;
    inv_first : forall e, In e (tr_events tr) -> exists p after, FirstAdd os (ev_name e) (ev_frame e) p after /\
      e = Ev (ev_name e) (ev_name e ++ $":") (ev_frame e) (pivot_of p);
    inv_base : tr_base tr = in_force zero os;
    inv_nodup : NoDup (map ev_name (tr_events tr)) }.

  Lemma offsets_app (zero : T) a b : offsets zero (a ++ b) = offsets zero a ++ offsets (in_force zero a) b.
  Proof. revert zero. induction a as [|o a IH]; intros zero; [reflexivity|]. destruct o as [n f p|[c|]]; cbn; now rewrite IH. Qed.
  Lemma in_force_app (zero : T) a b : in_force zero (a ++ b) = in_force (in_force zero a) b.
  Proof. revert zero. induction a as [|o a IH]; intros zero; [reflexivity|]. destruct o as [n f p|[c|]]; cbn; now rewrite IH. Qed.

  Lemma first_snoc os o n f p after : FirstAdd os n f p after -> FirstAdd (os ++ [o]) n f p (after ++ [o]).
  Proof. intros (b & -> & H). exists b. split; auto. now rewrite <- app_assoc. Qed.
  Lemma first_new os n f p : ~ Adds os n -> FirstAdd (os ++ [Add n f p]) n f p [].
  Proof. intros H. exists os. split; auto. intros g q Hi. apply H. now exists g, q. Qed.
  Lemma first_unique os n f p a f' p' a' : FirstAdd os n f p a -> FirstAdd os n f' p' a' -> f = f' /\ p = p' /\ a = a'.
  Proof.
    intros (b & E & H) (b' & E' & H'). subst os. revert b' E' H'. induction b as [|o b IH]; intros b' E' H'.
    - destruct b' as [|o' b']; injection E' as E1 E2; subst; auto. exfalso. apply (H' f p). now left.
    - destruct b' as [|o' b']; injection E' as E1 E2; subst.
      + exfalso. apply (H f' p'). now left.
      + apply (IH (fun g q Hi => H g q (or_intror Hi)) b'); auto. intros g q Hi. apply (H' g q). now right.
  Qed.
  Lemma adds_app os1 os2 n : Adds (os1 ++ os2) n <-> Adds os1 n \/ Adds os2 n.
  Proof.
    unfold Adds. setoid_rewrite in_app_iff. split.
    - intros (f & p & [H|H]); [left|right]; now exists f, p.
    - intros [(f & p & H)|(f & p & H)]; exists f, p; auto.
  Qed.
  Lemma first_adds os n f p a : FirstAdd os n f p a -> Adds os n.
  Proof. intros (b & -> & _). exists f, p. apply in_or_app. right. now left. Qed.
  Lemma adds_first os n : Adds os n -> exists f p a, FirstAdd os n f p a.
  Proof.
    induction os as [|o os IH] using rev_ind.
    - intros (f & p & Hi). destruct Hi.
    - intros H. apply adds_app in H as [H|H].
      + apply IH in H as (f & p & a & H). exists f, p, (a ++ [o]). now apply first_snoc.
      + destruct H as (f & p & [Hi|Hi]); [|destruct Hi]. subst o.
        assert (D : Adds os n \/ ~ Adds os n).
        { clear. induction os as [|o os IH].
          - right. intros (f & p & Hi). destruct Hi.
          - destruct IH as [(f & p & Hi)|Hn]; [left; exists f, p; now right|].
            destruct o as [m f p|b].
            + destruct (str_dec m n) as [->|Hm]; [left; exists f, p; now left|].
              right. intros (g & q & [Hi|Hi]); [congruence|]. apply Hn. now exists g, q.
            + right. intros (g & q & [Hi|Hi]); [congruence|]. apply Hn. now exists g, q. }
        destruct D as [D|D].
        { apply IH in D as (f' & p' & a & D). exists f', p', (a ++ [Add n f p]). now apply first_snoc. }
        { exists f, p, []. now apply first_new. }
  Qed.

  Lemma run_app s a b : run tsub tfalse methods s (a ++ b) = (do s' <- run tsub tfalse methods s a ;; run tsub tfalse methods s' b).
  Proof.
    revert s. induction a as [|o a IH]; intros s; [reflexivity|]. cbn [app run].
    destruct (step tsub tfalse methods s o) as [s'|e]; cbn; auto.
  Qed.

  Lemma inv_new zero : Inv zero [] (bare_new zero).
  Proof.
    constructor; cbn [bare_new tr_dict tr_defs tr_events tr_base].
    - intros n H. cbn in H. repeat (destruct H as [<-|H]; [vm_compute; reflexivity|]). destruct H.
    - intros i e H. destruct i; discriminate.
    - intros n x H. left. apply (dget_In eqs eqs_eq) in H. apply in_map_iff in H as (m & E & Hm). injection E as <- <-. exact Hm.
    - reflexivity.
    - intros n _ (f & p & Hi). destruct Hi.
    - intros e Hi. destruct Hi.
    - reflexivity.
    - constructor.
  Qed.

  Lemma inv_dict_iff zero os tr : Inv zero os tr -> forall n, In n (map fst (tr_dict tr)) <-> In n own_attrs \/ exists e, In e (tr_events tr) /\ ev_name e = n.
  Proof.
    intros I n. split.
    - intros H. destruct (dget eqs n (tr_dict tr)) as [x|] eqn:E.
      + now apply (inv_only _ _ _ I) in E.
      + now apply (dget_None eqs eqs_eq) in E.
    - intros H. destruct (dget eqs n (tr_dict tr)) as [x|] eqn:E.
      + apply (dget_In eqs eqs_eq) in E. now apply (in_map fst) in E.
      + exfalso. destruct H as [H|(e & H & <-)].
        * apply (inv_own _ _ _ I) in H. congruence.
        * apply In_nth_error in H as (i & H). apply (inv_at _ _ _ I) in H as (H & _). congruence.
  Qed.

  Lemma inv_step zero os tr h o tr' h' : Inv zero os tr -> step tsub tfalse methods (tr, h) o = Ok (tr', h') -> Inv zero (os ++ [o]) tr'.
  Proof.
    intros I. destruct o as [n f p|b]; cbn [step].
    - destruct (add_parsed_event methods tr n f p) as [t|e] eqn:E.
      + intros H. injection H as <- <-. unfold add_parsed_event in E.
        destruct (hasattr methods tr n) eqn:Hh; [discriminate|]. injection E as <-.
        assert (Hn : ~ (In n (map fst (tr_dict tr)) \/ In n methods)) by (rewrite <- hasattr_iff; congruence).
        assert (Hd : dget eqs n (tr_dict tr) = None) by (apply (dget_None eqs eqs_eq); tauto).
        rewrite (inv_dict_iff _ _ _ I) in Hn.
        assert (Hb : ~ Builtin methods n) by (unfold Builtin; tauto).
        assert (Ha : ~ Adds os n) by (intros Ha; apply (inv_all _ _ _ I) in Ha; tauto).
        constructor; cbn [tr_dict tr_defs tr_events tr_base].
        * intros m Hm. rewrite (dget_dset eqs eqs_eq). destruct (eqs m n) eqn:Em.
          { apply eqs_eq in Em as ->. tauto. }
          { now apply (inv_own _ _ _ I). }
        * intros i e Hi. destruct (Nat.lt_ge_cases i (List.length (tr_events tr))) as [Hl|Hl].
          { rewrite nth_error_app1 in Hi by auto. destruct (inv_at _ _ _ I _ _ Hi) as (H1 & H2). split; auto.
            rewrite (dget_dset eqs eqs_eq). destruct (eqs (ev_name e) n) eqn:Em; auto. apply eqs_eq in Em. rewrite Em in H1. congruence. }
          { rewrite nth_error_app2 in Hi by auto. destruct (i - List.length (tr_events tr)) as [|k] eqn:Ek.
            - injection Hi as <-. cbn [ev_name]. split; auto. rewrite (dget_dset eqs eqs_eq), eqs_refl. do 2 f_equal. lia.
            - destruct k; discriminate. }
        * intros m x. rewrite (dget_dset eqs eqs_eq). destruct (eqs m n) eqn:Em.
          { apply eqs_eq in Em as ->. intros _. right. eexists. split; [apply in_or_app; right; now left|reflexivity]. }
          { intros H. apply (inv_only _ _ _ I) in H as [H|(e & H & <-)]; auto. right. exists e. split; auto. apply in_or_app. now left. }
        * rewrite (dset_new eqs).
          { rewrite (inv_defs _ _ _ I), map_app. reflexivity. }
          { apply (dget_None eqs eqs_eq). rewrite (inv_defs _ _ _ I), map_map. cbn [fst]. intros H. apply in_map_iff in H as (e & H1 & H2).
            apply Hn. left. right. now exists e. }
        * intros m Hm H. apply adds_app in H as [H|(g & q & [H|H])]; [|injection H as -> _ _|destruct H].
          { apply (inv_all _ _ _ I) in H as (e & H & <-); auto. exists e. split; auto. apply in_or_app. now left. }
          { eexists. split; [apply in_or_app; right; now left|reflexivity]. }
        * intros e H. apply in_app_or in H as [H|[H|H]]; [|subst e|destruct H].
          { apply (inv_first _ _ _ I) in H as (q & a & H & He). exists q, (a ++ [Add n f p]). split; auto. now apply first_snoc. }
          { exists p, []. split; [now apply first_new|reflexivity]. }
        * rewrite in_force_app. cbn. apply (inv_base _ _ _ I).
        * rewrite map_app. cbn [map ev_name]. apply NoDup_app_snoc. apply (inv_nodup _ _ _ I).
          intros H. apply in_map_iff in H as (e & H1 & H2). apply Hn. left. right. now exists e.
      + assert (Ev' : e = EValue) by (unfold add_parsed_event in E; destruct (hasattr methods tr n); congruence). subst e.
        intros H. injection H as <- <-. apply add_rejects in E. rewrite (inv_dict_iff _ _ _ I) in E.
        constructor; try apply I.
        * intros m Hm H. apply adds_app in H as [H|(g & q & [H|H])]; [|injection H as -> _ _|destruct H].
          { now apply (inv_all _ _ _ I). }
          { unfold Builtin in Hm. tauto. }
        * intros e H. apply (inv_first _ _ _ I) in H as (q & a & H & He). exists q, (a ++ [Add n f p]). split; auto. now apply first_snoc.
        * rewrite in_force_app. cbn. apply (inv_base _ _ _ I).
    - unfold normalize_time. destruct (normalize_events _ _ _ _ _) as [h1|] eqn:E; [|discriminate]. cbn. intros H. injection H as <- <-.
      constructor; cbn [tr_dict tr_defs tr_events tr_base]; try apply I.
      + intros m Hm H. apply adds_app in H as [H|(g & q & [H|H])]; [|discriminate|destruct H]. now apply (inv_all _ _ _ I).
      + intros e H. apply (inv_first _ _ _ I) in H as (q & a & H & He). exists q, (a ++ [Normalize b]). split; auto. now apply first_snoc.
      + rewrite in_force_app. rewrite <- (inv_base _ _ _ I). destruct b; reflexivity.
  Qed.
End Bare.
