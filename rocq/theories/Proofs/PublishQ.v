(** Installing the scripts of a plot. *)
From Coq Require Import List Ascii String ZArith Bool Lia.
From Verif Require Import Lib.PyStr Lib.PyStrFacts Model.Publish Spec.Publish Proofs.PublishP.
Import ListNotations.
Local Open Scope list_scope.

Lemma basename_tail d n : ~ In "/"%char n -> basename (d ++ "/"%char :: n) = n.
Proof.
  intros Hn. unfold basename. induction d as [|c d IH].
  - cbn [app split_ch]. rewrite Ascii.eqb_refl, split_ch_nosep by auto. reflexivity.
  - cbn [app split_ch]. destruct (Ascii.eqb c "/"%char) eqn:E.
    + destruct (split_ch "/" (d ++ "/"%char :: n)) eqn:E2; [exfalso; eapply split_ch_nonnil; eauto|]. rewrite <- IH. reflexivity.
    + destruct (split_ch "/" (d ++ "/"%char :: n)) as [|w [|w2 ws]] eqn:E2; [exfalso; eapply split_ch_nonnil; eauto| |].
      * exfalso. clear IH. revert w E2. induction d as [|x d IHd]; intros w E2; cbn [app split_ch] in E2.
        -- rewrite Ascii.eqb_refl, split_ch_nosep in E2 by auto. discriminate.
        -- destruct (Ascii.eqb x "/"%char); [destruct (split_ch "/" (d ++ "/"%char :: n)) eqn:E3; [eapply split_ch_nonnil; eauto|discriminate]|].
           destruct (split_ch "/" (d ++ "/"%char :: n)) as [|w' [|]] eqn:E3; [eapply split_ch_nonnil; eauto|eapply IHd; eauto|discriminate].
      * rewrite <- IH. reflexivity.
Qed.
Lemma basename_last p n : LastPart p n <-> basename p = n.
Proof.
  split.
  - intros [Hn [-> |[d ->]]]; [unfold basename; rewrite split_ch_nosep by auto; reflexivity|]. now apply basename_tail.
  - intros <-. unfold LastPart, basename. pose proof (split_ch_pieces "/"%char p) as Hf. pose proof (join_split_ch "/"%char p) as Hj.
    pose proof (split_ch_nonnil "/"%char p) as Hne. revert p Hj Hf Hne. generalize (split_ch "/"%char) as f. intros f p. generalize (f p) as l.
    intros l. clear f. intros Hj Hf Hne. destruct (exists_last Hne) as [l' [x ->]]. rewrite last_last.
    apply Forall_app in Hf as [_ Hx]. split; [now inversion Hx|]. destruct l' as [|y l']; [left; now rewrite <- Hj|]. right.
    rewrite <- Hj. clear Hj Hne Hx. revert y. induction l' as [|z l' IH]; intros y; [exists y; reflexivity|].
    destruct (IH z) as [d E]. exists (y ++ $"/" ++ d). change ((y :: z :: l') ++ [x]) with (y :: (z :: l') ++ [x]).
    change (join [ "/"%char ] (y :: (z :: l') ++ [x])) with (y ++ ["/"%char] ++ join ["/"%char] ((z :: l') ++ [x])).
    rewrite E. change ($"/") with ["/"%char]. now rewrite <- !app_assoc.
Qed.
Lemma basename_no p : ~ In "/"%char (basename p).
Proof. destruct (proj2 (basename_last p (basename p)) eq_refl) as [H _]. exact H. Qed.
Lemma http_remote r : is_prefix $"http" r = true <-> Remote r.
Proof. apply is_prefix_spec. Qed.

Lemma pjoin_len a b : List.length (pjoin a b) = List.length a + S (List.length b).
Proof. unfold pjoin. rewrite !app_length. reflexivity. Qed.
Lemma pjoin_ne a b : pjoin a b <> a.
Proof. intros E. apply (f_equal (@List.length ascii)) in E. rewrite pjoin_len in E. lia. Qed.
Lemma pjoin2_ne a b c : pjoin (pjoin a b) c <> a.
Proof. intros E. apply (f_equal (@List.length ascii)) in E. rewrite !pjoin_len in E. lia. Qed.
Lemma pjoin_inj a b c : pjoin a b = pjoin a c -> b = c.
Proof. unfold pjoin. intros E. apply app_inv_head in E. cbn in E. congruence. Qed.

Notation get := (dget eqs).
Lemma get_set (p : str) (n : node) q s : get q (dset eqs p n s) = if eqs q p then Some n else get q s.
Proof. apply dget_dset. apply eqs_eq. Qed.
Lemma get_set_ne (p : str) (n : node) q s : q <> p -> get q (dset eqs p n s) = get q s.
Proof. intros H. rewrite get_set. apply eqs_neq in H. now rewrite H. Qed.
Lemma get_set_eq (p : str) (n : node) s : get p (dset eqs p n s) = Some n.
Proof. rewrite get_set, eqs_refl. auto. Qed.

Lemma ensure_done s p s' : ensure_dir s p = (s', Done) -> get p s' = Some Dir /\ (get p s = Some Dir \/ get p s = None) /\ forall q, q <> p -> get q s' = get q s.
Proof.
  unfold ensure_dir, isdir, mkdir. destruct (get p s) as [[|c]|] eqn:E; try discriminate; intros [= <-].
  - auto.
  - split; [apply get_set_eq|]. split; auto. intros q Hq. now apply get_set_ne.
Qed.
Lemma ensure_fail s p s' o : ensure_dir s p = (s', o) -> o <> Done -> s' = s /\ o = OsErr /\ exists c, get p s = Some (File c).
Proof.
  unfold ensure_dir, isdir, mkdir. destruct (get p s) as [[|c]|] eqn:E; intros [= <- <-] H; try congruence. eauto.
Qed.
Lemma ensure_ok s p : (forall c, get p s <> Some (File c)) -> exists s', ensure_dir s p = (s', Done).
Proof. intros H. unfold ensure_dir, isdir, mkdir. destruct (get p s) as [[|c]|] eqn:E; eauto. now destruct (H c). Qed.

Section Install.
  Variables (web package : str -> option str) (home module : str).
  Notation S0 := (pjoin home PLOTTER_SCRIPTS).
  Notation D := (pjoin S0 module).
  Notation at_ r := (pjoin D (basename r)).
  Notation one := (install_one web package home module).
  Notation all := (install_all web package home module).
  (** what stands at the place of a resource afterwards *)
  Definition Placed (s s' : fs) (r : str) : Prop :=
    exists c, get (at_ r) s' = Some (File c) /\
      (Remote r -> get (at_ r) s = Some (File c) \/ ((forall c0, get (at_ r) s <> Some (File c0)) /\ web r = Some c)) /\
      (~ Remote r -> package r = Some c).
  Lemma remote_dec r : Remote r \/ ~ Remote r.
  Proof. destruct (is_prefix $"http" r) eqn:E; [left; now apply http_remote|right]. intros H%http_remote. congruence. Qed.

  Lemma resource_done s r p s' : install_resource web package s r p = (s', Done) -> get p s <> Some Dir ->
    (exists c, get p s' = Some (File c) /\
      (Remote r -> get p s = Some (File c) \/ ((forall c0, get p s <> Some (File c0)) /\ web r = Some c)) /\ (~ Remote r -> package r = Some c)) /\
    (forall q, q <> p -> get q s' = get q s).
  Proof.
    intros H Hd. unfold install_resource, isfile, install_http, install_local, isdir in H.
    destruct (is_prefix $"http" r) eqn:E.
    - assert (Hr : Remote r) by now apply http_remote. destruct (get p s) as [[|c]|] eqn:Ep; [congruence| |].
      + injection H as <-. split; auto. exists c. repeat split; auto. intros []; auto.
      + destruct (web r) as [c|] eqn:Ew; [|discriminate]. injection H as <-.
        split; [|intros q Hq; now apply get_set_ne]. exists c. rewrite get_set_eq. repeat split; auto; [|intros []; auto].
        intros _. right. split; auto. congruence.
    - assert (Hr : ~ Remote r) by (intros Hr%http_remote; congruence). destruct (package r) as [c|]; [|discriminate].
      destruct (get p s) as [[|c0]|] eqn:Ep; [congruence| |]; rewrite Ep in H; injection H as <-;
        (split; [exists c; rewrite get_set_eq; repeat split; auto; intros Hr'; now destruct Hr|intros q Hq; now apply get_set_ne]).
  Qed.
  Lemma at_ne r : at_ r <> S0 /\ at_ r <> D.
  Proof. split; [apply pjoin2_ne|apply pjoin_ne]. Qed.
  Lemma D_ne : D <> S0.
  Proof. apply pjoin_ne. Qed.
  Lemma one_done s r s' : one s r = (s', Done) -> get (at_ r) s <> Some Dir ->
    get S0 s' = Some Dir /\ get D s' = Some Dir /\ Placed s s' r /\ forall q, q <> S0 -> q <> D -> q <> at_ r -> get q s' = get q s.
  Proof.
    intros H Hd. unfold install_one in H. destruct (at_ne r) as [N1 N2]. pose proof D_ne as N3.
    destruct (ensure_dir s S0) as [s1 o1] eqn:E1. destruct o1; try discriminate. apply ensure_done in E1 as (A1 & _ & A2).
    destruct (ensure_dir s1 D) as [s2 o2] eqn:E2. destruct o2; try discriminate. apply ensure_done in E2 as (B1 & _ & B2).
    assert (G : get (at_ r) s2 = get (at_ r) s) by (rewrite B2, A2 by auto; auto).
    apply resource_done in H as [Hp Hq]; [|now rewrite G]. rewrite G in Hp. repeat split.
    - rewrite Hq, B2 by auto. auto.
    - rewrite Hq by auto. auto.
    - exact Hp.
    - intros q Q1 Q2 Q3. now rewrite Hq, B2, A2 by auto.
  Qed.
  (** Nothing disappears, and directories stay directories. *)
  Definition Grown (s s' : fs) : Prop :=
    forall p, (get p s = Some Dir -> get p s' = Some Dir) /\ (forall c, get p s = Some (File c) -> exists c', get p s' = Some (File c')).
  Lemma grown_refl s : Grown s s.
  Proof. intros p. split; eauto. Qed.
  Lemma grown_trans s1 s2 s3 : Grown s1 s2 -> Grown s2 s3 -> Grown s1 s3.
  Proof. intros H1 H2 p. destruct (H1 p) as [A B], (H2 p) as [C E]. split; auto. intros c Hc. destruct (B c Hc) as [c' Hc']. eauto. Qed.
  Lemma grown_file s p c : get p s <> Some Dir -> Grown s (dset eqs p (File c) s).
  Proof.
    intros H q. rewrite get_set. destruct (eqs q p) eqn:E; [apply eqs_eq in E as ->|]; split; eauto. congruence.
  Qed.
  Lemma grown_dir s p : get p s = None -> Grown s (dset eqs p Dir s).
  Proof.
    intros H q. rewrite get_set. destruct (eqs q p) eqn:E; [apply eqs_eq in E as ->|]; split; eauto. congruence.
  Qed.
  Lemma not_dir s p : isdir s p = false -> get p s <> Some Dir.
  Proof. unfold isdir. intros H E. now rewrite E in H. Qed.
  Lemma ensure_grown s p : Grown s (fst (ensure_dir s p)).
  Proof.
    unfold ensure_dir, isdir, mkdir. destruct (get p s) as [[|c]|] eqn:E; try apply grown_refl. now apply grown_dir.
  Qed.
  Lemma resource_grown s r p : Grown s (fst (install_resource web package s r p)).
  Proof.
    unfold install_resource, install_http, install_local.
    destruct (is_prefix _ _); [destruct (isfile s p); [apply grown_refl|destruct (web r) as [c|]; [|apply grown_refl]]|
      destruct (package r) as [c|]; [|apply grown_refl]].
    - destruct (isdir s p) eqn:E; [apply grown_refl|]. now apply grown_file, not_dir.
    - cbv zeta. set (q := if isdir s p then _ else _). destruct (isdir s q) eqn:E; [apply grown_refl|]. now apply grown_file, not_dir.
  Qed.
  Lemma one_grown s r : Grown s (fst (one s r)).
  Proof.
    unfold install_one. cbv zeta. pose proof (ensure_grown s S0) as H1. destruct (ensure_dir s S0) as [s1 o1]. cbn [fst] in H1. destruct o1; auto.
    pose proof (ensure_grown s1 D) as H2. destruct (ensure_dir s1 D) as [s2 o2]. cbn [fst] in H2.
    destruct o2; try (eapply grown_trans; eauto; fail). eapply grown_trans; [exact H1|]. eapply grown_trans; [exact H2|]. apply resource_grown.
  Qed.
  Lemma all_grown : forall l s, Grown s (fst (all s l)).
  Proof.
    induction l as [|r l IH]; intros s; [apply grown_refl|]. cbn [install_all]. pose proof (one_grown s r) as H.
    destruct (one s r) as [s1 o]. cbn [fst] in H. destruct o; auto. eapply grown_trans; eauto.
  Qed.
  (** Nothing else changes. *)
  Definition Touched (l : list str) (q : str) : Prop :=
    q = S0 \/ q = D \/ exists r, In r l /\ (q = at_ r \/ (~ Remote r /\ q = pjoin (at_ r) (basename r))).
  Lemma ensure_frame s p q : q <> p -> get q (fst (ensure_dir s p)) = get q s.
  Proof.
    intros H. unfold ensure_dir, isdir, mkdir. destruct (get p s) as [[|c]|] eqn:E; auto. now apply get_set_ne.
  Qed.
  Lemma resource_frame s r p q : q <> p -> (~ Remote r -> q <> pjoin p (basename r)) -> get q (fst (install_resource web package s r p)) = get q s.
  Proof.
    intros H1 H2. unfold install_resource, install_http, install_local.
    destruct (is_prefix _ _) eqn:Er; [destruct (isfile s p); auto; destruct (web r) as [c|]; auto|destruct (package r) as [c|]; auto].
    - destruct (isdir s p); auto. now apply get_set_ne.
    - assert (Hr : ~ Remote r) by (intros Hr%http_remote; congruence).
      cbv zeta. destruct (isdir s p) eqn:E; [destruct (isdir s (pjoin p (basename r))); auto|rewrite E]; apply get_set_ne; auto.
  Qed.
  Lemma one_frame s r q : ~ Touched [r] q -> get q (fst (one s r)) = get q s.
  Proof.
    intros H. unfold Touched in H. unfold install_one. cbv zeta.
    assert (N1 : q <> S0) by tauto. assert (N2 : q <> D) by tauto.
    pose proof (ensure_frame s S0 q N1) as H1. destruct (ensure_dir s S0) as [s1 o1]. cbn [fst] in H1. destruct o1; auto.
    pose proof (ensure_frame s1 D q N2) as H2. destruct (ensure_dir s1 D) as [s2 o2]. cbn [fst] in H2.
    destruct o2; cbn [fst]; try congruence. rewrite resource_frame; try congruence.
    - intros E. apply H. right. right. exists r. cbn. auto.
    - intros Hr E. apply H. right. right. exists r. cbn. auto.
  Qed.
  Lemma all_frame : forall l s q, ~ Touched l q -> get q (fst (all s l)) = get q s.
  Proof.
    induction l as [|r l IH]; intros s q H; auto. cbn [install_all].
    assert (N1 : ~ Touched [r] q). { intros [E|[E|(r2 & [<- |[]] & E)]]; apply H; unfold Touched; [auto|auto|]. right. right. exists r. cbn. auto. }
    assert (N2 : ~ Touched l q). { intros [E|[E|(r2 & Hi & E)]]; apply H; unfold Touched; [auto|auto|]. right. right. exists r2. cbn. auto. }
    pose proof (one_frame s r q N1) as H1. destruct (one s r) as [s1 o]. cbn [fst] in H1. destruct o; auto. rewrite IH; auto.
  Qed.
  Lemma all_done : forall l s s', NoDup (map basename l) -> all s l = (s', Done) -> (forall r, In r l -> get (at_ r) s <> Some Dir) ->
    (forall r, In r l -> Placed s s' r) /\ forall q, q <> S0 -> q <> D -> (forall r, In r l -> q <> at_ r) -> get q s' = get q s.
  Proof.
    induction l as [|r l IH]; intros s s' Hnd H Hd.
    - cbn in H. injection H as <-. split; auto. easy.
    - cbn [install_all] in H. destruct (one s r) as [s1 o1] eqn:E1. destruct o1; try discriminate.
      apply one_done in E1 as (A1 & A2 & A3 & A4); [|apply Hd; now left]. cbn [map] in Hnd. inversion Hnd as [|? ? Hni Hnd']; subst.
      assert (Hne : forall r2, In r2 l -> at_ r2 <> at_ r).
      { intros r2 Hi E. apply pjoin_inj in E. apply Hni. rewrite <- E. now apply in_map. }
      assert (Hsame : forall r2, In r2 l -> get (at_ r2) s1 = get (at_ r2) s).
      { intros r2 Hi. destruct (at_ne r2). apply A4; auto. }
      apply IH in H as (B2 & B3); auto; [|intros r2 Hi; rewrite Hsame by auto; apply Hd; now right].
      assert (Hr1 : get (at_ r) s' = get (at_ r) s1).
      { destruct (at_ne r). apply B3; auto. intros r2 Hi E. now apply (Hne r2 Hi). }
      split.
      + intros r2 [<- |Hi].
        * destruct A3 as (c & C1 & C2 & C3). exists c. rewrite Hr1. auto.
        * destruct (B2 r2 Hi) as (c & C1 & C2 & C3). exists c. rewrite Hsame in C2 by auto. auto.
      + intros q Q1 Q2 Q3. rewrite B3, A4; auto; intros; apply Q3; cbn; auto.
  Qed.
  Lemma all_dirs l s s' : l <> [] -> all s l = (s', Done) -> get S0 s' = Some Dir /\ get D s' = Some Dir.
  Proof.
    destruct l as [|r l]; [congruence|]. intros _ H. cbn [install_all] in H. destruct (one s r) as [s1 o1] eqn:E1. destruct o1; try discriminate.
    pose proof (all_grown l s1) as G. rewrite H in G. cbn [fst] in G. enough (get S0 s1 = Some Dir /\ get D s1 = Some Dir) as [A B] by (split; now apply G).
    clear H G. unfold install_one in E1. cbv zeta in E1. 
    destruct (ensure_dir s S0) as [s2 o2] eqn:E2. destruct o2; try discriminate. apply ensure_done in E2 as (A1 & _ & A2).
    destruct (ensure_dir s2 D) as [s3 o3] eqn:E3. destruct o3; try discriminate. apply ensure_done in E3 as (B1 & _ & B2).
    pose proof (resource_grown s3 r (at_ r)) as G. rewrite E1 in G. cbn [fst] in G. split; apply G; auto. rewrite B2; auto. apply not_eq_sym, D_ne.
  Qed.
  (** ** How it ends *)
  Lemma resource_fail s r p s' o : install_resource web package s r p = (s', o) -> o <> Done -> s' = s /\
    ((o = NoResource p /\ Remote r /\ (forall c, get p s <> Some (File c)) /\ (web r = None \/ get p s = Some Dir)) \/
     (o = OsErr /\ ~ Remote r /\ (package r = None \/ (get p s = Some Dir /\ get (pjoin p (basename r)) s = Some Dir)))).
  Proof.
    intros H Ho. unfold install_resource, isfile, install_http, install_local, isdir in H.
    destruct (is_prefix $"http" r) eqn:E.
    - assert (Hr : Remote r) by now apply http_remote.
      destruct (get p s) as [[|c]|] eqn:Ep; destruct (web r) as [c'|] eqn:Ew; injection H as <- <-; try congruence;
        (split; [auto|left; repeat split; auto; congruence]).
    - assert (Hr : ~ Remote r) by (intros Hr%http_remote; congruence). destruct (package r) as [c|] eqn:Ek.
      + destruct (get p s) as [[|c0]|] eqn:Ep; try (rewrite Ep in H; injection H as <- <-; congruence).
        destruct (get (pjoin p (basename r)) s) as [[|c0]|] eqn:Eq; injection H as <- <-; try congruence. split; auto. right. auto.
      + injection H as <- <-. split; auto.
  Qed.
  Lemma resource_ok s r p : (Remote r -> (exists c, get p s = Some (File c)) \/ (web r <> None /\ get p s <> Some Dir)) ->
    (~ Remote r -> package r <> None /\ get p s <> Some Dir) -> exists s', install_resource web package s r p = (s', Done).
  Proof.
    intros H1 H2. destruct (install_resource web package s r p) as [s' o] eqn:E.
    assert (Hd : o = Done \/ o <> Done) by (destruct o; auto; right; discriminate). destruct Hd as [-> |Ho]; [eauto|]. exfalso.
    apply resource_fail in E as [_ [(_ & Hr & Hf & Hw)|(_ & Hr & Hp)]]; auto.
    - destruct (H1 Hr) as [[c Hc]|[Hw' Hd]]; [now apply (Hf c)|]. destruct Hw; auto.
    - destruct (H2 Hr) as [Hp' Hd]. destruct Hp as [|[]]; auto.
  Qed.
  Definition Available (s : fs) (r : str) : Prop :=
    (Remote r -> (exists c, get (at_ r) s = Some (File c)) \/ (web r <> None /\ get (at_ r) s <> Some Dir)) /\
    (~ Remote r -> package r <> None /\ get (at_ r) s <> Some Dir).
  Lemma one_ok s r : (forall c, get S0 s <> Some (File c)) -> (forall c, get D s <> Some (File c)) -> Available s r -> exists s', one s r = (s', Done).
  Proof.
    intros HS HD [H1 H2]. unfold install_one. cbv zeta. destruct (at_ne r) as [N1 N2].
    destruct (ensure_ok s S0 HS) as [s1 E1]. rewrite E1. apply ensure_done in E1 as (_ & _ & A).
    destruct (ensure_ok s1 D) as [s2 E2]; [intros c; rewrite A by apply D_ne; auto|]. rewrite E2. apply ensure_done in E2 as (_ & _ & B).
    assert (G : get (at_ r) s2 = get (at_ r) s) by (rewrite B, A by auto; auto).
    apply resource_ok; rewrite G; auto.
  Qed.
  Lemma all_ok : forall l s, NoDup (map basename l) -> (forall c, get S0 s <> Some (File c)) -> (forall c, get D s <> Some (File c)) ->
    (forall r, In r l -> Available s r) -> exists s', all s l = (s', Done).
  Proof.
    induction l as [|r l IH]; intros s Hnd HS HD Ha; [eexists; reflexivity|]. cbn [install_all]. cbn [map] in Hnd. inversion Hnd as [|? ? Hni Hnd']; subst.
    destruct (one_ok s r HS HD (Ha r (or_introl eq_refl))) as [s1 E1]. rewrite E1.
    assert (Hd : get (at_ r) s <> Some Dir).
    { destruct (Ha r (or_introl eq_refl)) as [H1 H2]. destruct (remote_dec r) as [Hr|Hr]; [destruct (H1 Hr) as [[c Hc]|[_ Hc]]; congruence|now apply H2]. }
    apply one_done in E1 as (A1 & A2 & A3 & A4); auto. apply IH; auto; [congruence|congruence|].
    intros r2 Hi. unfold Available. destruct (at_ne r2) as [N1 N2]. rewrite A4; auto; [apply Ha; now right|].
    intros E. apply pjoin_inj in E. apply Hni. rewrite <- E. now apply in_map.
  Qed.
  (** a failure for a web resource *)
  Lemma all_noresource : forall l s s' p, NoDup (map basename l) -> all s l = (s', NoResource p) -> (forall r, In r l -> get (at_ r) s <> Some Dir) ->
    exists r, In r l /\ Remote r /\ p = at_ r /\ (forall c, get p s <> Some (File c)) /\ web r = None.
  Proof.
    induction l as [|r l IH]; intros s s' p Hnd H Hd; [discriminate|]. cbn [install_all] in H. cbn [map] in Hnd. inversion Hnd as [|? ? Hni Hnd']; subst.
    destruct (one s r) as [s1 o1] eqn:E1. destruct (at_ne r) as [N1 N2]. assert (Hdr := Hd r (or_introl eq_refl)). destruct o1; try discriminate.
    - apply one_done in E1 as (A1 & A2 & A3 & A4); auto.
      assert (Hsame : forall r2, In r2 l -> get (at_ r2) s1 = get (at_ r2) s).
      { intros r2 Hi. destruct (at_ne r2). apply A4; auto. intros E. apply pjoin_inj in E. apply Hni. rewrite <- E. now apply in_map. }
      apply IH in H; auto; [|intros r2 Hi; rewrite Hsame by auto; apply Hd; now right].
      destruct H as (r2 & Hi & Hr & -> & Hf & Hw). exists r2. rewrite Hsame in Hf by auto. cbn. auto.
    - injection H as -> ->. exists r. unfold install_one in E1. cbv zeta in E1.
      destruct (ensure_dir s S0) as [s2 o2] eqn:E2. destruct o2; try discriminate; [|apply ensure_fail in E2 as (_ & E2 & _); discriminate].
      apply ensure_done in E2 as (A1 & _ & A2).
      destruct (ensure_dir s2 D) as [s3 o3] eqn:E3. destruct o3; try discriminate; [|apply ensure_fail in E3 as (_ & E3 & _); discriminate].
      apply ensure_done in E3 as (B1 & _ & B2).
      assert (G : get (at_ r) s3 = get (at_ r) s) by (rewrite B2, A2 by auto; auto).
      apply resource_fail in E1 as [_ [(Ep & Hr & Hf & Hw)|(E & _)]]; try discriminate. injection Ep as ->. rewrite G in *.
      repeat split; auto; [now left|]. destruct Hw; auto. congruence.
  Qed.
End Install.

Lemma resources_in module l : In (module, l) IPLOT_RESOURCES <-> dget eqs module IPLOT_RESOURCES = Some l.
Proof.
  split.
  - intros [E|[E|[]]]; injection E as <- <-; vm_compute; reflexivity.
  - intros H. now apply (dget_In eqs eqs_eq) in H.
Qed.
Lemma resources_nodup module l : In (module, l) IPLOT_RESOURCES -> NoDup (map basename l).
Proof.
  intros [E|[E|[]]]; injection E as <- <-; vm_compute; repeat constructor; cbn; intuition discriminate.
Qed.
Lemma resources_ne module l : In (module, l) IPLOT_RESOURCES -> l <> [].
Proof. intros [E|[E|[]]]; injection E as <- <-; discriminate. Qed.
Section Plot.
  Variables (web package : str -> option str) (home module : str) (l : list str).
  Hypothesis (Hl : In (module, l) IPLOT_RESOURCES).
  Variables (s s' : fs).
  Notation run := (iplot_install web package home module s).
  Lemma run_eq : run = install_all web package home module s l.
  Proof. unfold iplot_install. apply resources_in in Hl. now rewrite Hl. Qed.
  Notation NoDirs := (NoDirs home module l s).
  Lemma installed_ok : run = (s', Done) -> NoDirs -> forall r n, In r l -> LastPart r n ->
    exists c, dget eqs (place home module n) s' = Some (File c) /\
      (Remote r -> dget eqs (place home module n) s = Some (File c) \/
        (forall c0, dget eqs (place home module n) s <> Some (File c0)) /\ web r = Some c) /\
      (~ Remote r -> package r = Some c).
  Proof.
    rewrite run_eq. intros H Hd r n Hi Hn. apply basename_last in Hn as <-.
    destruct (all_done web package home module l s s' (resources_nodup _ _ Hl) H) as [Hp _].
    - intros r2 Hi2. apply (Hd r2); auto. now apply basename_last.
    - apply (Hp r Hi).
  Qed.
  Lemma ends_ok : (forall c, dget eqs (scripts_dir home) s <> Some (File c)) ->
    (forall c, dget eqs (plot_dir home module) s <> Some (File c)) -> NoDirs ->
    (forall r n, In r l -> LastPart r n -> Remote r -> web r = None -> exists c, dget eqs (place home module n) s = Some (File c)) ->
    (forall r, In r l -> ~ Remote r -> package r <> None) -> exists s2, run = (s2, Done).
  Proof.
    rewrite run_eq. intros HS HD Hd Hw Hp. apply all_ok; auto; [eapply resources_nodup; eauto|].
    intros r Hi. assert (Hn : LastPart r (basename r)) by now apply basename_last. split.
    - intros Hr. destruct (web r) eqn:E; [right; split; [discriminate|]|left]; [now apply (Hd r)|now apply (Hw r)].
    - intros Hr. split; [auto|]. now apply (Hd r).
  Qed.
  Lemma noresource_ok p : run = (s', NoResource p) -> NoDirs ->
    exists r n, In r l /\ LastPart r n /\ Remote r /\ web r = None /\ p = place home module n /\ dget eqs p s = None.
  Proof.
    rewrite run_eq. intros H Hd. apply all_noresource in H as (r & Hi & Hr & -> & Hf & Hw).
    - assert (Hn : LastPart r (basename r)) by now apply basename_last. exists r, (basename r). repeat split; auto; try apply Hn.
      specialize (Hd r _ Hi Hn). unfold place, plot_dir, scripts_dir in Hd; change (_ ++ $"/" ++ basename r) with (pjoin (pjoin (pjoin home PLOTTER_SCRIPTS) module) (basename r)) in Hd. destruct (dget eqs _ s) as [[|c]|]; auto; [congruence|]. now destruct (Hf c).
    - eapply resources_nodup; eauto.
    - intros r2 Hi2. apply (Hd r2); auto. now apply basename_last.
  Qed.
  Lemma grown_ok p : (dget eqs p s = Some Dir -> dget eqs p (fst run) = Some Dir) /\
    (forall c, dget eqs p s = Some (File c) -> exists c', dget eqs p (fst run) = Some (File c')).
  Proof. rewrite run_eq. apply all_grown. Qed.
  Lemma frame_ok q : q <> scripts_dir home -> q <> plot_dir home module ->
    (forall r n, In r l -> LastPart r n -> q <> place home module n /\ q <> place home module n ++ $"/" ++ n) ->
    dget eqs q (fst run) = dget eqs q s.
  Proof.
    rewrite run_eq. intros Q1 Q2 Q3. apply all_frame. intros [E|[E|(r & Hi & E)]]; auto.
    destruct (Q3 r (basename r) Hi) as [A B]; [now apply basename_last|]. destruct E as [|[]]; auto.
  Qed.
End Plot.
Lemma page_module module script : In script (page_scripts module) -> exists l r n, In (module, l) IPLOT_RESOURCES /\ In r l /\ LastPart r n /\
  forall home, script_file home script = place home module n.
Proof.
  unfold page_scripts. intros H. destruct (eqs module $"EventPlot") eqn:E1; [apply eqs_eq in E1 as ->|
    destruct (eqs module $"ILinePlot") eqn:E2; [apply eqs_eq in E2 as ->|destruct H]].
  - exists [D3_PLOTTER_URL; D3_TIP_URL; $"js/EventPlot.js"; $"css/EventPlot_help.jpg"].
    destruct H as [<- |[<- |[<- |[]]]]; [exists $"js/EventPlot.js"|exists D3_TIP_URL|exists D3_PLOTTER_URL]; eexists;
      (split; [cbn; auto|split; [cbn; auto|split; [apply basename_last; vm_compute; reflexivity|]]]);
      intros; unfold script_file, place, plot_dir, scripts_dir; rewrite <- !app_assoc; reflexivity.
  - exists [DYGRAPH_COMBINED_URL; $"js/ILinePlot.js"; DYGRAPH_SYNC_URL; UNDERSCORE_URL].
    destruct H as [<- |[<- |[<- |[<- |[]]]]]; [exists DYGRAPH_SYNC_URL|exists DYGRAPH_COMBINED_URL|exists $"js/ILinePlot.js"|exists UNDERSCORE_URL];
      eexists; (split; [cbn; auto|split; [cbn; auto|split; [apply basename_last; vm_compute; reflexivity|]]]);
      intros; unfold script_file, place, plot_dir, scripts_dir; rewrite <- !app_assoc; reflexivity.
Qed.
Lemma scripts_ok web package home module s s' l : In (module, l) IPLOT_RESOURCES -> iplot_install web package home module s = (s', Done) ->
  NoDirs home module l s -> forall script, In script (page_scripts module) -> exists c, dget eqs (script_file home script) s' = Some (File c).
Proof.
  intros Hl H Hd script Hi. apply page_module in Hi as (l2 & r & n & Hl2 & Hi & Hn & E).
  assert (l2 = l) as -> by (apply resources_in in Hl, Hl2; congruence).
  rewrite E. destruct (installed_ok web package home module l Hl s s' H Hd r n Hi Hn) as (c & Hc & _). eauto.
Qed.
Lemma dirs_ok web package home module s s' : iplot_install web package home module s = (s', Done) ->
  dget eqs (scripts_dir home) s' = Some Dir /\ dget eqs (plot_dir home module) s' = Some Dir.
Proof.
  intros H. unfold iplot_install in H. destruct (dget eqs module IPLOT_RESOURCES) as [l|] eqn:E; [|discriminate].
  apply resources_in in E. eapply all_dirs; eauto. eapply resources_ne; eauto.
Qed.
(** Installing again needs no web and changes nothing. *)
Lemma again_ok web web2 package home module s s' l : In (module, l) IPLOT_RESOURCES -> iplot_install web package home module s = (s', Done) ->
  NoDirs home module l s -> exists s2, iplot_install web2 package home module s' = (s2, Done) /\ forall p, dget eqs p s2 = dget eqs p s'.
Proof.
  intros Hl H Hd. pose proof (installed_ok web package home module l Hl s s' H Hd) as Hi. pose proof (dirs_ok _ _ _ _ _ _ H) as [HS HD].
  assert (Hd' : NoDirs home module l s') by (intros r n Hr Hn; destruct (Hi r n Hr Hn) as (c & Hc & _); congruence).
  destruct (ends_ok web2 package home module l Hl s') as [s2 H2]; auto; try congruence.
  - intros r n Hr Hn _ _. destruct (Hi r n Hr Hn) as (c & Hc & _). eauto.
  - intros r Hr Hnr. destruct (Hi r (basename r) Hr) as (c & _ & _ & Hc); [now apply basename_last|]. now rewrite Hc.
  - exists s2. split; auto. intros p. pose proof (dirs_ok _ _ _ _ _ _ H2) as [HS2 HD2].
    destruct (list_eq_dec ascii_dec p (scripts_dir home)) as [-> |N1]; [congruence|].
    destruct (list_eq_dec ascii_dec p (plot_dir home module)) as [-> |N2]; [congruence|].
    destruct (in_dec (list_eq_dec ascii_dec) p (map (fun r => place home module (basename r)) l)) as [Hin|Hni].
    + apply in_map_iff in Hin as (r & <- & Hr). assert (Hn : LastPart r (basename r)) by now apply basename_last.
      destruct (Hi r _ Hr Hn) as (c & Hc & _ & Hc2). destruct (installed_ok web2 package home module l Hl s' s2 H2 Hd' r _ Hr Hn) as (c' & Hc' & Hr' & Hc2').
      rewrite Hc, Hc'. destruct (remote_dec r) as [Hrm|Hrm].
      * destruct (Hr' Hrm) as [E|[E _]]; [congruence|]. exfalso. now apply (E c).
      * rewrite Hc2' in Hc2 by auto. specialize (Hc2 Hrm). congruence.
    + rewrite (run_eq web2 package home module l Hl s') in H2.
      destruct (all_done web2 package home module l s' s2 (resources_nodup _ _ Hl) H2) as [_ Hf].
      * intros r Hr. apply (Hd' r); auto. now apply basename_last.
      * apply Hf; auto. intros r Hr E. apply Hni. apply in_map_iff. exists r. auto.
Qed.
Lemma unknown_ok web package home module s : (forall l, ~ In (module, l) IPLOT_RESOURCES) -> iplot_install web package home module s = (s, NoModule).
Proof.
  intros H. unfold iplot_install. destruct (dget eqs module IPLOT_RESOURCES) as [l|] eqn:E; auto. apply resources_in in E. now destruct (H l).
Qed.

Lemma served_ok web package v4 root module s s' l : In (module, l) IPLOT_RESOURCES ->
  iplot_install web package (get_ipython_dir v4 root) module s = (s', Done) -> NoDirs (get_ipython_dir v4 root) module l s ->
  forall path, In path (page_paths v4 module) ->
  (exists script, path = (if v4 then $"/nbextensions/" else $"/static/") ++ script) /\
  exists c, dget eqs (root ++ path ++ $".js") s' = Some (File c).
Proof.
  intros Hl H Hd path Hp. unfold page_paths in Hp. apply in_map_iff in Hp as (script & <- & Hs). split.
  - exists script. destruct v4; reflexivity.
  - destruct (scripts_ok _ _ _ _ _ _ _ Hl H Hd script Hs) as (c & Hc). exists c. rewrite <- Hc. f_equal.
    unfold script_file. destruct v4; cbn [get_ipython_dir]; unfold pjoin, add_web_base, pjoin;
      [change (strip_slash IPYTHON_V4_BASE) with $"nbextensions"; change IPYTHON_V4_BASE with ($"/" ++ $"nbextensions")|
       change (strip_slash IPYTHON_V3_BASE) with $"static"; change IPYTHON_V3_BASE with ($"/" ++ $"static")]; now rewrite <- !app_assoc.
Qed.

(** ** The tables *)
Lemma refs_replaced v4 : refs v4 = replaced v4.
Proof. destruct v4; vm_compute; reflexivity. Qed.
Lemma replaced_iff v4 txt out : change_resource_paths v4 txt = out <-> Published (replaced v4) txt out.
Proof. rewrite <- refs_replaced. apply publish_iff. Qed.
Lemma replaced_clean v4 txt k u : In (k, u) (replaced v4) -> ~ Occurs k (change_resource_paths v4 txt).
Proof. rewrite <- refs_replaced. apply publish_clean. Qed.
Lemma replaced_keeps v4 txt : (forall k u, In (k, u) (replaced v4) -> ~ Occurs k txt) -> change_resource_paths v4 txt = txt.
Proof. rewrite <- refs_replaced. apply publish_keeps. Qed.
Lemma page_asks v4 module scripts : In (module, scripts) asks -> page_paths v4 module = map (fun s => base v4 ++ s) scripts.
Proof. intros [E|[E|[]]]; injection E as <- <-; destruct v4; vm_compute; reflexivity. Qed.
Lemma page_unknown v4 module : (forall scripts, ~ In (module, scripts) asks) -> page_paths v4 module = [].
Proof.
  intros H. unfold page_paths, page_scripts. destruct (eqs module $"EventPlot") eqn:E.
  - apply eqs_eq in E. subst. exfalso. eapply H. left. reflexivity.
  - destruct (eqs module $"ILinePlot") eqn:E2; [|reflexivity]. apply eqs_eq in E2. subst. exfalso. eapply H. right. left. reflexivity.
Qed.
