(** How aggregation, indexes and grids fail. *)
From Coq Require Import List Ascii String ZArith QArith Bool.
From Verif Require Import Lib.PyStr Model.Stats.
Import ListNotations.
Local Open Scope list_scope.

Section Fails.
  Context {N S R : Type} (neq : N -> N -> bool) (f : S -> R) (add : R -> R -> R) (st : list (N * S)).
  Lemma get_stored_err n e : get_stored neq st n = Err e -> dget neq n st = None /\ e = EKey.
  Proof. unfold get_stored. destruct (dget neq n st); [discriminate|]. intros [= <-]. auto. Qed.
  Lemma get_stored_ok n s : get_stored neq st n = Ok s -> dget neq n st <> None.
  Proof. unfold get_stored. destruct (dget neq n st); [intros _|]; discriminate. Qed.
  Lemma members_err ms e : mapM (fun m => do x <- get_stored neq st m ;; Ok (f x)) ms = Err e -> (exists m, In m ms /\ dget neq m st = None) /\ e = EKey.
  Proof.
    induction ms as [|m ms IH]; cbn [mapM]; [discriminate|]. destruct (get_stored neq st m) as [s|e'] eqn:G; cbn [bind].
    - destruct (mapM _ ms) as [rs|e'] eqn:E; cbn [bind]; [discriminate|]. intros [= <-]. destruct (IH eq_refl) as [(x & Hx & Hn) ->].
      split; auto. exists x. split; auto. now right.
    - intros [= <-]. apply get_stored_err in G as [G ->]. split; auto. exists m. split; auto. now left.
  Qed.
  Lemma members_ok ms rs : mapM (fun m => do x <- get_stored neq st m ;; Ok (f x)) ms = Ok rs -> forall m, In m ms -> dget neq m st <> None.
  Proof.
    revert rs. induction ms as [|m ms IH]; cbn [mapM]; intros rs E x Hx; [destruct Hx|]. destruct (get_stored neq st m) as [s|e'] eqn:G; cbn [bind] in E; [|discriminate].
    destruct (mapM _ ms) as [rs'|] eqn:E'; cbn [bind] in E; [|discriminate]. destruct Hx as [<-|Hx]; [now apply get_stored_ok in G|]. eapply IH; eauto.
  Qed.
  Lemma group_err g e : group_fun neq f add st g = Err e -> g = [] /\ e = EIndex \/ (exists m, In m g /\ dget neq m st = None) /\ e = EKey.
  Proof.
    destruct g as [|n rest]; cbn [group_fun]; [intros [= <-]; auto|]. destruct (get_stored neq st n) as [s|e'] eqn:G; cbn [bind].
    - destruct (mapM _ rest) as [rs|e'] eqn:E; cbn [bind]; [discriminate|]. intros [= <-]. apply members_err in E as [(m & Hm & Hn) ->].
      right. split; auto. exists m. split; auto. now right.
    - intros [= <-]. apply get_stored_err in G as [G ->]. right. split; auto. exists n. split; auto. now left.
  Qed.
  Lemma group_ok g r : group_fun neq f add st g = Ok r -> g <> [] /\ forall m, In m g -> dget neq m st <> None.
  Proof.
    destruct g as [|n rest]; cbn [group_fun]; [discriminate|]. destruct (get_stored neq st n) as [s|e'] eqn:G; cbn [bind]; [|discriminate].
    destruct (mapM _ rest) as [rs|e'] eqn:E; cbn [bind]; [|discriminate]. intros _. split; [discriminate|].
    intros m [<-|Hm]; [now apply get_stored_ok in G|]. eapply members_ok; eauto.
  Qed.
  Theorem aggregate_fails groups e : fst (aggregate_fun neq f add groups st) = Err e ->
    exists a g b, groups = a ++ g :: b /\ (forall g', In g' a -> g' <> [] /\ forall m, In m g' -> dget neq m st <> None) /\
      (g = [] /\ e = EIndex \/ (exists m, In m g /\ dget neq m st = None) /\ e = EKey).
  Proof.
    unfold aggregate_fun. cbn [fst]. induction groups as [|g gs IH]; cbn [mapM]; [discriminate|].
    destruct (group_fun neq f add st g) as [r|e'] eqn:G; cbn [bind].
    - destruct (mapM _ gs) as [rs|e'] eqn:E; cbn [bind]; [discriminate|]. intros [= <-]. destruct (IH eq_refl) as (a & x & b & -> & Ha & Hx).
      exists (g :: a), x, b. split; auto. split; auto. intros g' [<-|Hg]; auto. eapply group_ok; eauto.
    - intros [= <-]. exists [], g, gs. split; auto. split; [intros _ []|]. now apply group_err.
  Qed.
End Fails.
Theorem unified_fails {T} (leb : T -> T -> bool) l e : unified_indexer leb l = Err e <-> l = [] /\ e = EIndex.
Proof. destruct l; cbn; split; try discriminate; [intros [= <-]; auto|intros [_ ->]; auto|intros [? _]; discriminate]. Qed.
Theorem uniform_fails delta index e : get_uniform delta index = Err e <-> index = [] /\ e = EIndex.
Proof. destruct index; cbn; split; try discriminate; [intros [= <-]; auto|intros [_ ->]; auto|intros [? _]; discriminate]. Qed.
