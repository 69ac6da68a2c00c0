(** Residency intervals. *)
From Coq Require Import List Ascii String ZArith NArith Bool Lia Sorted.
From Verif Require Import Lib.PyStr Lib.PyStrFacts Model.Base Model.Residency Spec.Residency Spec.Lines Proofs.PayloadP Proofs.FrameP Proofs.CsvP.
Import ListNotations.
Local Open Scope list_scope.

(** ** Names *)
Lemma cut_unique {A} (x : A) a a' b b' : ~ In x a -> ~ In x a' -> a ++ x :: b = a' ++ x :: b' -> a = a' /\ b = b'.
Proof.
  revert a'. induction a as [|y a IH]; intros [|y' a'] Ha Ha' E; cbn in *.
  - injection E as ->. auto.
  - injection E as <- _. tauto.
  - injection E as -> _. tauto.
  - injection E as -> E. destruct (IH a' ltac:(tauto) ltac:(tauto) E) as [-> ->]. auto.
Qed.
Lemma dash_digits p : (0 <= p)%Z -> ~ In "-"%char (str_of_Z p).
Proof.
  intros Hp Hi. assert (E : str_of_Z p = str_of_N (Z.to_N p)) by (destruct p; [reflexivity|reflexivity|lia]). rewrite E in Hi.
  pose proof (digits_all (Z.to_N p)) as H. rewrite forallb_forall in H. apply H in Hi. discriminate.
Qed.
Lemma name_pid c c' p q : (0 <= p)%Z -> (0 <= q)%Z -> c ++ $"-" ++ str_of_Z p = c' ++ $"-" ++ str_of_Z q -> p = q.
Proof.
  intros Hp Hq E. apply (f_equal (@rev ascii)) in E. rewrite !rev_app_distr in E. change (rev $"-") with ["-"%char] in E. rewrite <- !app_assoc in E. cbn [app] in E.
  apply cut_unique in E as [E _]; [|rewrite <- in_rev; now apply dash_digits..]. apply (f_equal (@rev ascii)) in E. rewrite !rev_involutive in E.
  assert (Some p = Some q) by (rewrite <- (py_int0_dec p), <- (py_int0_dec q); now f_equal). congruence.
Qed.

Section R.
  Context {T : Type} (execnames : list str) (pids : list Z) (E : T).
  Notation iv := (T * T * Z)%type.
  Notation sw := (switch T).
  Definition wantedb (r : sw) : bool :=
    negb (Z.eqb (s_next r) 0) && match s_comm r with
      | CStr comm => negb (is_prefix $"migration" comm) && negb match execnames with [] => false | _ => negb (existsb (eqs comm) execnames) end &&
                     negb match pids with [] => false | _ => negb (existsb (Z.eqb (s_next r)) pids) end
      | _ => false end.
  Lemma in_filter {A} (eqb : A -> A -> bool) (Heq : forall a b, eqb a b = true <-> a = b) l x :
    match l with [] => false | _ => negb (existsb (eqb x) l) end = false <-> l = [] \/ In x l.
  Proof.
    destruct l as [|a l]; [tauto|]. rewrite negb_false_iff, existsb_exists. split.
    - intros (y & Hy & Hx). apply Heq in Hx. subst. auto.
    - intros [H|H]; [discriminate|]. exists x. split; auto. now apply Heq.
  Qed.
  Lemma wantedb_ok r : wantedb r = true <-> Wanted execnames pids r.
  Proof.
    unfold wantedb, Wanted. rewrite andb_true_iff, negb_true_iff, Z.eqb_neq. destruct (s_comm r) as [z|comm|].
    - split; [intros [_ H]; discriminate|intros (_ & c & H & _); discriminate].
    - rewrite !andb_true_iff, !negb_true_iff. rewrite (in_filter eqs eqs_eq), (in_filter Z.eqb Z.eqb_eq). split.
      + intros (H1 & (H2 & H3) & H4). split; auto. exists comm. split; auto. split; [|auto]. intros Hr. apply is_prefix_spec in Hr. congruence.
      + intros (H1 & c & [= <-] & H2 & H3 & H4). split; auto. split; auto. split; auto. destruct (is_prefix _ comm) eqn:Ep; auto.
        apply is_prefix_spec in Ep. tauto.
    - split; [intros [_ H]; discriminate|intros (_ & c & H & _); discriminate].
  Qed.

  (** ** What becomes of an interval *)
  Inductive end_of := Closed (t : T) | Dropped | Running.
  Fixpoint fate (p : Z) (suf : list sw) : end_of :=
    match suf with
    | [] => Running
    | r :: rest => if Z.eqb (s_prev r) p then Closed (s_time r) else if Z.eqb (s_next r) p then Dropped else fate p rest
    end.
  Definition settle (s : T) (c : Z) (f : end_of) : list iv :=
    match f with Closed t => [(s, t, c)] | Dropped => [] | Running => [(s, E, c)] end.
  Fixpoint gen (n : str) (suf : list sw) : list iv :=
    match suf with
    | [] => []
    | r :: rest => (if wantedb r && eqs (task_name r) n then settle (s_time r) (s_cpu r) (fate (s_next r) rest) else []) ++ gen n rest
    end.

  Notation pm st := (fun p => dget Z.eqb p (r_pmap st)).
  Definition View (st : rstate T) (n : str) (suf : list sw) (out : list iv) : Prop :=
    (exists p l s c, dget Z.eqb p (r_pmap st) = Some n /\ dat (r_data st) n = l ++ [(s, E, c)] /\ out = l ++ settle s c (fate p suf) ++ gen n suf) \/
    ((forall p, dget Z.eqb p (r_pmap st) <> Some n) /\ out = dat (r_data st) n ++ gen n suf).
  (** Names of open intervals. *)
  Definition Pid (n : str) (p : Z) : Prop := (0 <= p)%Z /\ exists c, n = c ++ $"-" ++ str_of_Z p.
  Lemma Pid_inj n p q : Pid n p -> Pid n q -> p = q.
  Proof. intros [Hp [c ->]] [Hq [c' Ec]]. exact (name_pid _ _ _ _ Hp Hq Ec). Qed.
  Definition Named (p : Z) (n : str) (suf : list sw) : Prop := forall mid r' rest, suf = mid ++ r' :: rest ->
    (forall x, In x (mid ++ [r']) -> s_prev x <> p) -> s_next r' = p -> task_name r' = n.
  Definition Inv (st : rstate T) (suf : list sw) : Prop := forall p n, dget Z.eqb p (r_pmap st) = Some n ->
    Pid n p /\ (exists l s c, dat (r_data st) n = l ++ [(s, E, c)]) /\ Named p n suf.

  Lemma dat_dset (d : list (str * list iv)) n l m : dat (dset eqs n l d) m = if eqs m n then l else dat d m.
  Proof. unfold dat. rewrite (dget_dset eqs eqs_eq). destruct (eqs m n); reflexivity. Qed.
  Lemma pm_del d p q : dget Z.eqb q (ddel Z.eqb p d) = if Z.eqb p q then None else dget (V:=str) Z.eqb q d.
  Proof. apply dget_ddel. exact Z.eqb_eq. Qed.
  Lemma pm_set d p n q : dget Z.eqb q (dset Z.eqb p n d) = if Z.eqb q p then Some n else dget (V:=str) Z.eqb q d.
  Proof. apply dget_dset. exact Z.eqb_eq. Qed.

  Definition step (r : sw) (st : rstate T) : res (rstate T) :=
    do st1 <- switch_out r st ;; do st2 <- switch_lost r st1 ;; switch_in execnames pids E r st2.

  (** The three stages. *)
  Lemma out_ok r st suf : Inv st (r :: suf) -> exists st1, switch_out r st = Ok st1 /\ r_procs st1 = r_procs st /\
    (forall q, dget Z.eqb q (r_pmap st1) = if Z.eqb (s_prev r) q then None else dget Z.eqb q (r_pmap st)) /\
    (forall n, (dget Z.eqb (s_prev r) (r_pmap st) <> Some n -> dat (r_data st1) n = dat (r_data st) n) /\
               (dget Z.eqb (s_prev r) (r_pmap st) = Some n -> forall l s c, dat (r_data st) n = l ++ [(s, E, c)] -> dat (r_data st1) n = l ++ [(s, s_time r, c)])).
  Proof.
    intros HI. unfold switch_out. destruct (dget Z.eqb (s_prev r) (r_pmap st)) as [n0|] eqn:Ep.
    - destruct (HI _ _ Ep) as (_ & (l0 & s0 & c0 & E0) & _). rewrite E0, rev_unit. eexists. split; [reflexivity|]. cbn [r_pmap r_data r_procs]. split; auto. split.
      + intros q. apply pm_del.
      + intros n. rewrite dat_dset. cbn [rev]. rewrite rev_involutive. split.
        * intros Hn. destruct (eqs n n0) eqn:En; auto. apply eqs_eq in En. congruence.
        * intros [= <-] l s c Hd. rewrite eqs_refl. rewrite E0 in Hd. apply app_inj_tail in Hd as [-> [= -> ->]]. reflexivity.
    - exists st. split; [reflexivity|]. split; auto. split.
      + intros q. destruct (Z.eqb_spec (s_prev r) q) as [<-|]; auto.
      + intros n. split; [auto|discriminate].
  Qed.
  Lemma lost_ok (r : sw) (st1 : rstate T) : (forall n, dget Z.eqb (s_next r) (r_pmap st1) = Some n -> n = task_name r /\ exists l x, dat (r_data st1) n = l ++ [x]) ->
    exists st2, switch_lost r st1 = Ok st2 /\ r_procs st2 = r_procs st1 /\
    (forall q, dget Z.eqb q (r_pmap st2) = if Z.eqb (s_next r) q then None else dget Z.eqb q (r_pmap st1)) /\
    (forall n, (dget Z.eqb (s_next r) (r_pmap st1) <> Some n -> dat (r_data st2) n = dat (r_data st1) n) /\
               (dget Z.eqb (s_next r) (r_pmap st1) = Some n -> forall l x, dat (r_data st1) n = l ++ [x] -> dat (r_data st2) n = l)).
  Proof.
    intros HI. unfold switch_lost. destruct (dget Z.eqb (s_next r) (r_pmap st1)) as [n0|] eqn:Ep.
    - destruct (HI _ eq_refl) as (-> & (l0 & x0 & E0)). rewrite E0, rev_unit. eexists. split; [reflexivity|]. cbn [r_pmap r_data r_procs]. split; auto. split.
      + intros q. apply pm_del.
      + intros n. rewrite dat_dset, rev_involutive. split.
        * intros Hn. destruct (eqs n (task_name r)) eqn:En; auto. apply eqs_eq in En. congruence.
        * intros [= <-] l x Hd. rewrite eqs_refl. rewrite E0 in Hd. apply app_inj_tail in Hd as [-> _]. reflexivity.
    - exists st1. split; [reflexivity|]. split; auto. split.
      + intros q. destruct (Z.eqb_spec (s_next r) q) as [<-|]; auto.
      + intros n. split; [auto|discriminate].
  Qed.
  Lemma in_ok (r : sw) (st2 : rstate T) : (exists comm, s_comm r = CStr comm) -> exists st3, switch_in execnames pids E r st2 = Ok st3 /\
    (forall q, dget Z.eqb q (r_pmap st3) = if wantedb r && Z.eqb q (s_next r) then Some (task_name r) else dget Z.eqb q (r_pmap st2)) /\
    (forall n, dat (r_data st3) n = if wantedb r && eqs (task_name r) n then dat (r_data st2) n ++ [(s_time r, E, s_cpu r)] else dat (r_data st2) n) /\
    (forall n, In n (r_procs st3) <-> In n (r_procs st2) \/ (wantedb r = true /\ n = task_name r)) /\ (NoDup (r_procs st2) -> NoDup (r_procs st3)).
  Proof.
    intros [comm Ec]. assert (Hno : forall b, b = false -> exists st3, Ok st2 = Ok st3 /\
      (forall q, dget Z.eqb q (r_pmap st3) = if b && Z.eqb q (s_next r) then Some (task_name r) else dget Z.eqb q (r_pmap st2)) /\
      (forall n, dat (r_data st3) n = if b && eqs (task_name r) n then dat (r_data st2) n ++ [(s_time r, E, s_cpu r)] else dat (r_data st2) n) /\
      (forall n, In n (r_procs st3) <-> In n (r_procs st2) \/ (b = true /\ n = task_name r)) /\ (NoDup (r_procs st2) -> NoDup (r_procs st3))).
    { intros b ->. exists st2. cbn [andb]. split; auto. split; auto. split; auto. split; auto. intros n. split; [auto|]. intros [H|[[=] _]]; auto. }
    unfold switch_in, wantedb. rewrite Ec. destruct (Z.eqb (s_next r) 0); [now apply Hno|]. cbn [negb andb].
    destruct (is_prefix _ comm); [now apply Hno|]. cbn [negb andb]. destruct (match execnames with [] => false | _ => _ end); [now apply Hno|]. cbn [negb andb].
    destruct (match pids with [] => false | _ => _ end); [now apply Hno|]. cbn [negb andb]. eexists. split; [reflexivity|]. cbn [r_pmap r_data r_procs].
    split; [intros q; apply pm_set|]. split.
    - intros n. rewrite dat_dset, (eqs_sym (task_name r) n). destruct (eqs n (task_name r)) eqn:En; auto. apply eqs_eq in En. now subst.
    - destruct (existsb (eqs (task_name r)) (r_procs st2)) eqn:Ex.
      + split; [|auto]. intros n. split; [auto|]. intros [H|[_ ->]]; auto. apply existsb_exists in Ex as (x & Hx & Hxe). apply eqs_eq in Hxe. now subst.
      + split.
        * intros n. rewrite in_app_iff. cbn [In]. intuition auto.
        * intros Hd.
          assert (Hn : ~ In (task_name r) (r_procs st2)).
          { intros Hi. assert (existsb (eqs (task_name r)) (r_procs st2) = true) by (apply existsb_exists; exists (task_name r); split; auto; apply eqs_refl). congruence. }
          rewrite <- (rev_involutive (r_procs st2 ++ [task_name r])), rev_unit. apply NoDup_rev. constructor; [now rewrite <- in_rev|now apply NoDup_rev].
  Qed.

  Lemma Named_cons p n r suf : Named p n (r :: suf) -> s_prev r <> p -> Named p n suf.
  Proof.
    intros H Hp mid r' rest -> Hm Hr. apply (H (r :: mid) r' rest); auto. intros x [<-|Hx]; auto.
  Qed.
  Lemma Named_here p n r suf : Named p n (r :: suf) -> s_prev r <> p -> s_next r = p -> task_name r = n.
  Proof. intros H Hp Hn. apply (H [] r suf); auto. intros x [<-|[]]. exact Hp. Qed.

  Lemma step_ok r suf st : Inv st (r :: suf) -> (exists comm, s_comm r = CStr comm) -> (0 <= s_next r)%Z ->
    (wantedb r = true -> Named (s_next r) (task_name r) suf) -> exists st3, step r st = Ok st3 /\ Inv st3 suf /\
    (forall n out, View st n (r :: suf) out -> View st3 n suf out) /\
    (forall n, In n (r_procs st3) <-> In n (r_procs st) \/ (wantedb r = true /\ n = task_name r)) /\ (NoDup (r_procs st) -> NoDup (r_procs st3)).
  Proof.
    intros HI Hc Hp Hname. unfold step. destruct (out_ok r st suf HI) as (st1 & -> & P1 & M1 & D1). cbn [bind].
    assert (I1 : forall q n, dget Z.eqb q (r_pmap st1) = Some n -> s_prev r <> q /\ Pid n q /\ (exists l s c, dat (r_data st1) n = l ++ [(s, E, c)]) /\ Named q n (r :: suf)).
    { intros q n Hq. rewrite M1 in Hq. destruct (Z.eqb_spec (s_prev r) q) as [|Hne]; [discriminate|]. destruct (HI _ _ Hq) as (H1 & H2 & H3). split; auto. split; auto.
      split; auto. rewrite (proj1 (D1 n)); auto. intros Hn. destruct (HI _ _ Hn) as (H4 & _). apply Hne. exact (Pid_inj _ _ _ H4 H1). }
    assert (L1 : forall n, dget Z.eqb (s_next r) (r_pmap st1) = Some n -> n = task_name r /\ exists l x, dat (r_data st1) n = l ++ [x]).
    { intros n Hn. destruct (I1 _ _ Hn) as (H1 & H2 & (l & s & c & H3) & H4). split; [symmetry; eapply Named_here; eauto|eauto]. }
    destruct (lost_ok r st1 L1) as (st2 & -> & P2 & M2 & D2). cbn [bind]. destruct (in_ok r st2 Hc) as (st3 & -> & M3 & D3 & P3 & P3').
    assert (Hpid : wantedb r = true -> Pid (task_name r) (s_next r)). { intros _. split; auto. unfold task_name. eauto. }
    (* the map after the row *)
    assert (M : forall q n, dget Z.eqb q (r_pmap st3) = Some n -> (wantedb r = true /\ q = s_next r /\ n = task_name r) \/
                  (s_next r <> q /\ dget Z.eqb q (r_pmap st1) = Some n)).
    { intros q n Hq. rewrite M3 in Hq. destruct (wantedb r) eqn:Ew; cbn [andb] in Hq.
      - destruct (Z.eqb_spec q (s_next r)) as [->|Hne]; [left; injection Hq as <-; auto|]. rewrite M2 in Hq. destruct (Z.eqb_spec (s_next r) q); [discriminate|auto].
      - rewrite M2 in Hq. destruct (Z.eqb_spec (s_next r) q); [discriminate|auto]. }
    assert (Keep : forall q n, s_next r <> q -> dget Z.eqb q (r_pmap st1) = Some n -> dat (r_data st3) n = dat (r_data st1) n /\ dget Z.eqb q (r_pmap st3) = Some n).
    { intros q n Hne Hq. destruct (I1 _ _ Hq) as (H1 & H2 & _ & H4). split.
      - rewrite D3. destruct (wantedb r) eqn:Ew; cbn [andb].
        + destruct (eqs (task_name r) n) eqn:En.
          * apply eqs_eq in En. subst n. exfalso. apply Hne. exact (Pid_inj _ _ _ (Hpid eq_refl) H2).
          * apply (proj1 (D2 n)). intros Hn. destruct (L1 _ Hn) as [-> _]. rewrite eqs_refl in En. discriminate.
        + apply (proj1 (D2 n)). intros Hn. destruct (I1 _ _ Hn) as (_ & H5 & _). apply Hne. exact (Pid_inj _ _ _ H5 H2).
      - rewrite M3. destruct (Z.eqb_spec q (s_next r)); [congruence|]. rewrite andb_false_r, M2. destruct (Z.eqb_spec (s_next r) q); [congruence|auto]. }
    exists st3. split; [reflexivity|]. split; [|split; [|split]].
    - intros q n Hq. destruct (M _ _ Hq) as [(Ew & -> & ->)|(Hne & Hq1)].
      + split; [now apply Hpid|]. split; [|now apply Hname]. rewrite D3, Ew, eqs_refl. cbn [andb]. eauto.
      + destruct (I1 _ _ Hq1) as (H1 & H2 & H3 & H4). split; auto. split; [|eapply Named_cons; eauto]. now rewrite (proj1 (Keep _ _ Hne Hq1)).
    - (* views *)
      assert (B : forall n, (forall q, dget Z.eqb q (r_pmap st1) <> Some n) -> View st3 n suf (dat (r_data st1) n ++ gen n (r :: suf))).
      { intros n Hn. assert (E2 : dat (r_data st2) n = dat (r_data st1) n) by (apply (proj1 (D2 n)), Hn). cbn [gen].
        destruct (wantedb r && eqs (task_name r) n) eqn:Ew.
        - pose proof (andb_prop _ _ Ew) as [Ew1 Ew2]. apply eqs_eq in Ew2. left. exists (s_next r), (dat (r_data st1) n), (s_time r), (s_cpu r). split; [|split; auto].
          + rewrite M3, Ew1, Z.eqb_refl. cbn [andb]. now rewrite Ew2.
          + now rewrite D3, Ew, E2.
        - right. split; [|now rewrite D3, Ew, E2]. intros q Hq. destruct (M _ _ Hq) as [(Ew1 & _ & ->)|(_ & Hq1)]; [|now apply (Hn q)].
          rewrite Ew1, eqs_refl in Ew. discriminate. }
      intros n out [(p & l & s & c & Hpm & Hd & ->)|(Hno & ->)].
      + destruct (HI _ _ Hpm) as (Hn & _ & Hnm). cbn [fate]. destruct (Z.eqb_spec (s_prev r) p) as [Epp|Hpp].
        * cbn [settle]. assert (Ed : dat (r_data st1) n = l ++ [(s, s_time r, c)]) by (apply (proj2 (D1 n)); [now rewrite Epp|exact Hd]).
          rewrite app_assoc, <- Ed. apply B. intros q Hq. rewrite M1 in Hq. destruct (Z.eqb_spec (s_prev r) q) as [|Hne]; [discriminate|].
          destruct (HI _ _ Hq) as (Hq' & _). apply Hne. rewrite Epp. exact (Pid_inj _ _ _ Hn Hq').
        * assert (Hpm1 : dget Z.eqb p (r_pmap st1) = Some n) by (rewrite M1; destruct (Z.eqb_spec (s_prev r) p); [congruence|auto]).
          assert (Ed : dat (r_data st1) n = l ++ [(s, E, c)]).
          { rewrite (proj1 (D1 n)); auto. intros Hs. destruct (HI _ _ Hs) as (Hs' & _). apply Hpp. exact (Pid_inj _ _ _ Hs' Hn). }
          destruct (Z.eqb_spec (s_next r) p) as [Enp|Hnp].
          -- cbn [settle app]. assert (Et : task_name r = n) by (eapply Named_here; eauto). rewrite <- Enp in Hpm1. assert (E2 : dat (r_data st2) n = l) by exact (proj2 (D2 n) Hpm1 _ _ Ed).
             cbn [gen]. rewrite Et, eqs_refl, andb_true_r. destruct (wantedb r) eqn:Ew.
             ++ left. exists (s_next r), l, (s_time r), (s_cpu r). split; [|split; auto].
                ** rewrite M3, Z.eqb_refl. cbn [andb]. now rewrite Et.
                ** rewrite D3, Et, eqs_refl. cbn [andb]. now rewrite E2.
             ++ cbn [app]. right. split.
                ** intros q Hq. destruct (M _ _ Hq) as [([=] & _)|(Hne & Hq1)]. apply Hne. destruct (I1 _ _ Hq1) as (_ & H2 & _). rewrite Enp. exact (Pid_inj _ _ _ Hn H2).
                ** rewrite D3. cbn [andb]. now rewrite E2.
          -- destruct (Keep _ _ Hnp Hpm1) as [K1 K2]. left. exists p, l, s, c. split; auto. split; [now rewrite K1|]. cbn [gen].
             destruct (wantedb r) eqn:Ew; cbn [andb app]; auto. destruct (eqs (task_name r) n) eqn:En; auto. apply eqs_eq in En. subst n. exfalso. apply Hnp.
             exact (Pid_inj _ _ _ (Hpid eq_refl) Hn).
      + rewrite <- (proj1 (D1 n)) by apply Hno. apply B. intros q Hq. rewrite M1 in Hq. destruct (Z.eqb_spec (s_prev r) q); [discriminate|]. now apply (Hno q).
    - intros n. rewrite P3, P2, P1. tauto.
    - intros Hnd. apply P3'. now rewrite P2, P1.
  Qed.

  Lemma walk_ok rows : forall st, Inv st rows -> (forall r, In r rows -> (0 <= s_next r)%Z /\ exists comm, s_comm r = CStr comm) ->
    (forall before r after, rows = before ++ r :: after -> wantedb r = true -> Named (s_next r) (task_name r) after) ->
    exists st', walk execnames pids E rows st = Ok st' /\ (forall n out, View st n rows out -> dat (r_data st') n = out) /\
    (forall n, In n (r_procs st') <-> In n (r_procs st) \/ exists r, In r rows /\ wantedb r = true /\ n = task_name r) /\ (NoDup (r_procs st) -> NoDup (r_procs st')).
  Proof.
    induction rows as [|r rows IH]; intros st HI Htxt Hnm.
    - exists st. split; [reflexivity|]. split; [|split; auto].
      + intros n out [(p & l & s & c & _ & Hd & ->)|(_ & ->)]; cbn [fate settle gen]; now rewrite ?app_nil_r.
      + intros n. split; [auto|]. intros [H|(r & [] & _)]; auto.
    - destruct (Htxt r (or_introl eq_refl)) as [H0 Hc]. destruct (step_ok r rows st HI Hc H0 (Hnm [] r rows eq_refl)) as (st3 & E3 & I3 & V3 & P3 & N3).
      cbn [walk]. unfold step in E3. destruct (switch_out r st) as [st1|]; [|discriminate]. cbn [bind] in *. destruct (switch_lost r st1) as [st2|]; [|discriminate].
      cbn [bind] in *. rewrite E3. cbn [bind]. destruct (IH st3 I3) as (st' & Ew & V & P & N).
      + intros x Hx. apply Htxt. now right.
      + intros before x after -> Hw. apply (Hnm (r :: before) x after); auto.
      + exists st'. split; [exact Ew|]. split; [|split; [|auto]].
        * intros n out Hv. apply V, V3, Hv.
        * intros n. rewrite P, P3. split.
          -- intros [[H|[Hw ->]]|(x & Hx & Hw & ->)]; [auto|right; exists r; cbn; auto|right; exists x; cbn; auto].
          -- intros [H|(x & [<-|Hx] & Hw & ->)]; [auto|auto|right; eauto].
  Qed.
End R.

(** ** In terms of the rows *)
Section Q.
  Context {T : Type} (execnames : list str) (pids : list Z).
  Notation iv := (T * T * Z)%type.
  Notation sw := (switch T).
  Lemma fate_closed p (suf : list sw) t : fate p suf = Closed t <-> exists mid r' rest, suf = mid ++ r' :: rest /\
    (forall x, In x mid -> ~ Mentions p x) /\ s_prev r' = p /\ t = s_time r'.
  Proof.
    induction suf as [|r suf IH]; cbn [fate].
    - split; [discriminate|]. intros (mid & r' & rest & E & _). destruct mid; discriminate.
    - destruct (Z.eqb_spec (s_prev r) p) as [Ep|Hp].
      + split.
        * intros [= <-]. exists [], r, suf. repeat split; auto; try (intros x []).
        * intros (mid & r' & rest & E & Hm & Hr & ->). destruct mid as [|x mid]; [injection E as -> ->; auto|]. injection E as -> ->. exfalso.
          apply (Hm x); [now left|now left].
      + destruct (Z.eqb_spec (s_next r) p) as [En|Hn].
        * split; [discriminate|]. intros (mid & r' & rest & E & Hm & Hr & ->). destruct mid as [|x mid]; [injection E as -> ->; congruence|]. injection E as -> ->. exfalso.
          apply (Hm x); [now left|now right].
        * rewrite IH. split.
          -- intros (mid & r' & rest & -> & Hm & Hr & ->). exists (r :: mid), r', rest. split; auto. split; auto. intros x [<-|Hx]; auto. intros [H|H]; auto.
          -- intros (mid & r' & rest & E & Hm & Hr & ->). destruct mid as [|x mid]; [injection E as -> ->; congruence|]. injection E as -> ->.
             exists mid, r', rest. split; auto. split; auto. intros y Hy. apply Hm. now right.
  Qed.
  Lemma fate_running p (suf : list sw) : fate p suf = Running <-> forall x, In x suf -> ~ Mentions p x.
  Proof.
    induction suf as [|r suf IH]; cbn [fate]; [split; [intros _ x []|auto]|].
    destruct (Z.eqb_spec (s_prev r) p) as [Ep|Hp]; [split; [discriminate|]; intros H; exfalso; apply (H r); [now left|now left]|].
    destruct (Z.eqb_spec (s_next r) p) as [En|Hn]; [split; [discriminate|]; intros H; exfalso; apply (H r); [now left|now right]|].
    rewrite IH. split.
    - intros H x [<-|Hx]; [intros [H1|H1]; auto|auto].
    - intros H x Hx. apply H. now right.
  Qed.
  Context (E : T).
  Fixpoint genp (k : nat) (n : str) (suf : list sw) : list (nat * iv) :=
    match suf with
    | [] => []
    | r :: rest => (if wantedb execnames pids r && eqs (task_name r) n then map (pair k) (settle E (s_time r) (s_cpu r) (fate (s_next r) rest)) else []) ++ genp (S k) n rest
    end.
  Lemma genp_snd n suf : forall k, map snd (genp k n suf) = gen execnames pids E n suf.
  Proof.
    induction suf as [|r suf IH]; intros k; cbn [genp gen]; auto. rewrite map_app, IH. f_equal. destruct (_ && _); auto. rewrite map_map. cbn [snd]. apply map_id.
  Qed.
  Lemma genp_le n suf : forall k i v, In (i, v) (genp k n suf) -> k <= i.
  Proof.
    induction suf as [|r suf IH]; intros k i v Hi; cbn [genp] in Hi; [destruct Hi|]. apply in_app_iff in Hi as [Hi|Hi]; [|apply IH in Hi; lia].
    destruct (_ && _); [|destruct Hi]. apply in_map_iff in Hi as (x & [= -> ->] & _). lia.
  Qed.
  Lemma genp_sorted n suf : forall k, StronglySorted lt (map fst (genp k n suf)).
  Proof.
    induction suf as [|r suf IH]; intros k; cbn [genp map]; [constructor|]. rewrite map_app.
    assert (H : map fst (if wantedb execnames pids r && eqs (task_name r) n then map (pair k) (settle E (s_time r) (s_cpu r) (fate (s_next r) suf)) else []) = []
                \/ map fst (if wantedb execnames pids r && eqs (task_name r) n then map (pair k) (settle E (s_time r) (s_cpu r) (fate (s_next r) suf)) else []) = [k]).
    { destruct (_ && _); auto. destruct (fate _ suf); cbn; auto. }
    destruct H as [-> | ->]; cbn [app]; auto. constructor; auto. apply Forall_forall. intros i Hi. apply in_map_iff in Hi as ([i' v] & <- & Hi). apply genp_le in Hi. cbn. lia.
  Qed.
  Lemma settle_In s c f (v : iv) : In v (settle E s c f) <-> fst (fst v) = s /\ snd v = c /\ ((exists t, f = Closed t /\ snd (fst v) = t) \/ (f = Running /\ snd (fst v) = E)).
  Proof.
    destruct v as [[s' e'] c']. cbn [fst snd]. destruct f as [t| |]; cbn [settle In].
    - split.
      + intros [[= <- <- <-]|[]]. split; auto. split; auto. left. eauto.
      + intros (-> & -> & [(t' & [= ->] & ->)|([=] & _)]). auto.
    - split; [intros []|]. intros (_ & _ & [(t' & [=] & _)|([=] & _)]).
    - split.
      + intros [[= <- <- <-]|[]]. split; auto.
      + intros (-> & -> & [(t' & [=] & _)|(_ & ->)]). auto.
  Qed.
  Lemma genp_In n suf : forall k i v, In (i, v) (genp k n suf) <-> exists before r after, suf = before ++ r :: after /\ i = k + List.length before /\
    wantedb execnames pids r = true /\ task_name r = n /\ In v (settle E (s_time r) (s_cpu r) (fate (s_next r) after)).
  Proof.
    induction suf as [|r suf IH]; intros k i v; cbn [genp].
    - split; [intros []|]. intros (before & r & after & Es & _). destruct before; discriminate.
    - rewrite in_app_iff, IH. split.
      + intros [H|(before & r0 & after & -> & -> & H)].
        * destruct (wantedb execnames pids r) eqn:Ew; cbn [andb] in H; [|destruct H]. destruct (eqs (task_name r) n) eqn:En; [|destruct H]. apply eqs_eq in En.
          apply in_map_iff in H as (v' & [= <- ->] & Hv). exists [], r, suf. cbn [List.length]. repeat split; auto.
        * exists (r :: before), r0, after. cbn [List.length app]. split; auto. split; [lia|auto].
      + intros (before & r0 & after & Es & -> & Hw & Hn & Hv). destruct before as [|x before].
        * injection Es as -> ->. left. rewrite Hw, Hn, eqs_refl. cbn [andb]. apply in_map_iff. exists v. split; auto. f_equal. cbn. lia.
        * injection Es as -> ->. right. exists before, r0, after. cbn [List.length]. split; auto. split; [lia|auto].
  Qed.
End Q.

Lemma Called_name {T} n (r : switch T) comm : s_comm r = CStr comm -> (Called n r <-> task_name r = n).
Proof.
  intros Hc. unfold Called, task_name. rewrite Hc. cbn [show_cell]. split; [intros (c & [= <-] & ->); reflexivity|]. intros <-. eauto.
Qed.

Theorem event_data_ok {T} execnames pids (r0 : switch T) rows rn init : r0 :: rows = init ++ [rn] -> Regular execnames pids (r0 :: rows) ->
  exists data procs, event_data execnames pids (r0 :: rows) = Ok (data, procs, (s_time r0, s_time rn)) /\
  (forall n, exists L, match dget eqs n data with Some l => l | None => [] end = map snd L /\ StronglySorted lt (map fst L) /\
     forall i v, In (i, v) L <-> Resides execnames pids (r0 :: rows) n i v) /\
  NoDup procs /\ (forall n, In n procs <-> exists r, In r (r0 :: rows) /\ Wanted execnames pids r /\ Called n r).
Proof.
  intros El [Htxt Hnm]. set (all := r0 :: rows) in *.
  destruct (walk_ok execnames pids (s_time rn) all (RState [] [] [])) as (st & Ew & V & P & N).
  - intros p n. discriminate.
  - exact Htxt.
  - intros before r after Es Hw mid r' rest -> Hm Hn. apply wantedb_ok in Hw.
    pose proof (Hnm before r mid r' rest Es Hw Hm Hn) as Ec. unfold task_name. now rewrite Ec, Hn.
  - exists (r_data st), (r_procs st). split; [|split; [|split]].
    + assert (Er : rev (r0 :: rows) = rn :: rev init) by (fold all; rewrite El; apply rev_unit). unfold event_data, all. rewrite Er. fold all. rewrite Ew. reflexivity.
    + intros n. exists (genp execnames pids (s_time rn) 0 n all). split; [|split].
      * fold (dat (r_data st) n). rewrite genp_snd. apply V. right. split; [discriminate|reflexivity].
      * apply genp_sorted.
      * intros i v. rewrite genp_In. cbn [Nat.add]. unfold Resides. split.
        -- intros (before & r & after & Es & -> & Hw & Hn & Hv). apply settle_In in Hv as (Hs & Hc & He). exists before, r, after.
           split; auto. split; auto. split; [now apply wantedb_ok|]. destruct (Htxt r) as [_ [comm Hcm]]; [rewrite Es; apply in_elt|].
           split; [now apply (Called_name n r comm)|]. split; auto. split; auto. destruct He as [(t & Hf & Ht)|(Hf & Ht)].
           ++ left. apply fate_closed in Hf as (mid & r' & rest & -> & Hm & Hr & ->). exists mid, r', rest. auto.
           ++ right. pose proof (proj1 (fate_running _ _) Hf) as Hm. split; auto. exists init, rn. auto.
        -- intros (before & r & after & Es & <- & Hw & Hn & Hs & Hc & He). exists before, r, after. split; auto. split; auto. split; [now apply wantedb_ok|].
           destruct (Htxt r) as [_ [comm Hcm]]; [rewrite Es; apply in_elt|]. split; [now apply (Called_name n r comm)|]. apply settle_In. split; auto. split; auto.
           destruct He as [(mid & r' & rest & -> & Hm & Hr & Ht)|(Hm & init' & rn' & Ei & Ht)].
           ++ left. exists (snd (fst v)). split; auto. apply fate_closed. exists mid, r', rest. auto.
           ++ right. split; [now apply fate_running|]. rewrite Ht. f_equal. rewrite El in Ei. apply app_inj_tail in Ei as [_ ->]. reflexivity.
    + apply N. constructor.
    + intros n. rewrite P. cbn [r_procs]. split.
      * intros [[]|(r & Hr & Hw & ->)]. exists r. split; auto. split; [now apply wantedb_ok|]. destruct (Htxt r Hr) as [_ [comm Hcm]]. now apply (Called_name _ r comm).
      * intros (r & Hr & Hw & Hn). right. exists r. split; auto. split; [now apply wantedb_ok|]. destruct (Htxt r Hr) as [_ [comm Hcm]].
        symmetry. now apply (Called_name _ r comm).
Qed.
Theorem event_data_empty {T} execnames pids : event_data execnames pids (@nil (switch T)) = Err EIndex.
Proof. reflexivity. Qed.

(** ** Order *)
Section Order.
  Context {T : Type} (leb : T -> T -> bool) (execnames : list str) (pids : list Z).
  Hypothesis leb_refl : forall t, leb t t = true.
  Notation le := (fun a b => leb a b = true).
  Lemma sorted_split (a b c : list (switch T)) x y : StronglySorted le (map s_time (a ++ x :: b ++ y :: c)) -> le (s_time x) (s_time y).
  Proof.
    rewrite map_app. cbn [map]. induction (map s_time a) as [|t ts IH]; cbn [app]; intros H; inversion H as [|t' ts' Hs Hf]; subst; auto.
    rewrite Forall_forall in Hf. apply Hf. rewrite map_app. apply in_app_iff. right. now left.
  Qed.
  Lemma resides_le rows n i v : StronglySorted le (map s_time rows) -> Resides execnames pids rows n i v -> le (fst (fst v)) (snd (fst v)).
  Proof.
    intros Hs (before & r & after & -> & _ & _ & _ & -> & _ & He). destruct He as [(mid & r' & rest & -> & _ & _ & ->)|(_ & init & rn & Ei & ->)].
    - eapply sorted_split; eassumption.
    - destruct (exists_last (l := r :: after) ltac:(discriminate)) as (mid & x & Ex). rewrite Ex in Ei, Hs. rewrite app_assoc in Ei. apply app_inj_tail in Ei as [_ ->].
      destruct mid as [|y mid]; [injection Ex as -> _; apply leb_refl|]. injection Ex as <- _. cbn [app] in Hs. apply (sorted_split before mid [] _ _ Hs).
  Qed.
  Lemma split_after (rows : list (switch T)) : forall a r b a' r' b', rows = a ++ r :: b -> rows = a' ++ r' :: b' -> List.length a < List.length a' ->
    exists m, a' = a ++ r :: m /\ b = m ++ r' :: b'.
  Proof.
    intros a. revert rows. induction a as [|x a IH]; intros rows r b a' r' b' E1 E2 Hl.
    - destruct a' as [|y a']; [cbn in Hl; lia|]. rewrite E1 in E2. injection E2 as -> ->. exists a'. auto.
    - destruct a' as [|y a']; [cbn in Hl; lia|]. rewrite E1 in E2. injection E2 as -> E2. destruct (IH _ r b a' r' b' eq_refl E2) as (m & -> & ->); [cbn in Hl; lia|].
      exists m. auto.
  Qed.
  Lemma resides_order rows n i v j v' : StronglySorted le (map s_time rows) -> (forall r, In r rows -> (0 <= s_next r)%Z) ->
    Resides execnames pids rows n i v -> Resides execnames pids rows n j v' -> i < j -> le (snd (fst v)) (fst (fst v')).
  Proof.
    intros Hs Hp (a & r & b & E & <- & _ & (c & _ & Hn) & _ & _ & He) (a' & r' & b' & E' & <- & _ & (c' & _ & Hn') & -> & _) Hl.
    assert (Ep : s_next r' = s_next r).
    { rewrite Hn in Hn'. symmetry. eapply name_pid; [| |exact Hn']; apply Hp; [rewrite E|rewrite E']; apply in_elt. }
    destruct (split_after rows a r b a' r' b' E E' Hl) as (m & -> & ->).
    destruct He as [(mid & rk & rest & Eb & Hm & Hk & ->)|(Hm & _)].
    - assert (Hlen : List.length mid <= List.length m).
      { destruct (Nat.le_gt_cases (List.length mid) (List.length m)) as [|Hgt]; auto. exfalso.
        destruct (split_after _ m r' b' mid rk rest eq_refl Eb Hgt) as (m' & -> & _). apply (Hm r'); [apply in_elt|now right]. }
      apply Nat.lt_eq_cases in Hlen as [Hlt|Heq].
      + destruct (split_after _ mid rk rest m r' b' Eb eq_refl Hlt) as (m' & -> & ->). rewrite E in Hs.
        replace (a ++ r :: (mid ++ rk :: m') ++ r' :: b') with ((a ++ r :: mid) ++ rk :: m' ++ r' :: b') in Hs by (repeat (rewrite <- app_assoc; cbn [app]); reflexivity).
        eapply sorted_split; eassumption.
      + assert (mid = m /\ rk :: rest = r' :: b') as [_ [= -> _]]; [|apply leb_refl]. clear - Eb Heq. symmetry in Eb. revert mid Eb Heq.
        induction m as [|x m IH]; intros [|y mid] Eb' Hl; cbn in *; try lia; auto.
        injection Eb' as -> Eb'. destruct (IH mid Eb' ltac:(lia)) as [-> Et]. auto.
    - exfalso. apply (Hm r'); [apply in_elt|now right].
  Qed.
End Order.
Lemma pairs_sorted {A} (R : A -> A -> Prop) (L : list (nat * A)) : StronglySorted lt (map fst L) ->
  (forall i v j w, In (i, v) L -> In (j, w) L -> i < j -> R v w) -> StronglySorted R (map snd L).
Proof.
  induction L as [|[i v] L IH]; intros HS H; cbn [map]; [constructor|]. cbn [map] in HS. inversion HS as [|i' is' HS' HF]. subst. constructor.
  - apply IH; auto. intros i1 v1 j1 w1 H1 H2. apply H; now right.
  - apply Forall_forall. intros w Hw. apply in_map_iff in Hw as ([j w'] & <- & Hj). apply (H i v j w'); [now left|now right|].
    rewrite Forall_forall in HF. apply HF. apply in_map_iff. exists (j, w'). auto.
Qed.
Theorem event_data_order {T} (leb : T -> T -> bool) (leb_refl : forall t, leb t t = true) execnames pids (rows : list (switch T)) data procs span :
  StronglySorted (fun a b => leb a b = true) (map s_time rows) -> Regular execnames pids rows -> event_data execnames pids rows = Ok (data, procs, span) ->
  forall n l, dget eqs n data = Some l -> Forall (fun v => leb (fst (fst v)) (snd (fst v)) = true) l /\
    StronglySorted (fun v v' => leb (snd (fst v)) (fst (fst v')) = true) l.
Proof.
  intros Hs HR HE n l Hl. destruct rows as [|r0 rows]; [discriminate|]. destruct (exists_last (l := r0 :: rows) ltac:(discriminate)) as (init & rn & El).
  destruct (event_data_ok execnames pids r0 rows rn init El HR) as (data' & procs' & E' & HD & _). assert (data' = data) by congruence. subst data'.
  destruct (HD n) as (L & EL & HS & HI). rewrite Hl in EL. subst l. destruct HR as [Htxt _]. split.
  - apply Forall_forall. intros v Hv. apply in_map_iff in Hv as ([i v'] & <- & Hi). apply HI in Hi. exact (resides_le leb execnames pids leb_refl _ _ _ _ Hs Hi).
  - apply pairs_sorted; auto. intros i v j w Hi Hj Hlt. apply HI in Hi, Hj.
    refine (resides_order leb execnames pids leb_refl (r0 :: rows) n i v j w Hs _ Hi Hj Hlt). intros r Hr. apply (Htxt r Hr).
Qed.
