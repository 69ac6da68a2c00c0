(** The cache: what holds for arbitrary cache contents. *)
From Coq Require Import List Ascii String ZArith NArith Bool Lia.
From Verif Require Import Lib.PyStr Lib.PyStrFacts Lib.F64 Lib.F64Facts Model.Base Model.Line Model.Registry Model.Populate Model.Window
  Model.Cache Spec.Trace Spec.Select Spec.History Proofs.LineTotalP Proofs.PopulateP Proofs.RegistryP Proofs.CacheP.
Import ListNotations.
Local Open Scope list_scope.

Section Any.
  Context {content digest header csv : Type}.
  Variables (deq : digest -> digest -> bool) (md5 : content -> digest)
            (body : content -> list str) (head : content -> header)
            (enc : frame -> csv) (dec : csv -> option frame)
            (mk : klass -> list event -> res frame).
  Notation fsys := (@fsys content digest header csv).
  Notation cdir := (@cdir digest header csv).
  Notation op := (@op digest header csv).
  Notation meta := (@meta digest header).
  Notation do_parse := (do_parse deq md5 body head enc dec mk).
  Notation construct := (construct deq md5 body head enc dec mk).
  Notation load := (load deq md5).

  Lemma stale_load (s : fsys) : stale deq md5 s -> load s = Ok (None, [ORmTree]).
  Proof.
    intros (d & Hd & Hm). unfold Cache.load. rewrite Hd. destruct Hm as [->|(m & -> & ->)]; reflexivity.
  Qed.
  Theorem disabled cf (s : fsys) d :
    fst (construct (uncached cf) s) = fst (construct (uncached cf) (Fs (f_trace s) d)) /\ snd (construct (uncached cf) s) = s.
  Proof.
    unfold Cache.construct. rewrite (surjective_pairing (do_parse (uncached cf) s)).
    rewrite (surjective_pairing (do_parse (uncached cf) (Fs (f_trace s) d))). cbn [fst snd].
    unfold Cache.do_parse. cbn [c_nocache uncached negb andb f_trace c_defs]. destruct (do ws <- _ ;; _) as [[st fs]|e]; auto.
  Qed.
  Lemma none_cached (defs : classes) : defs <> [] ->
    forallb (fun d => is_cached dec (None : option (meta * cdir)) (snd d)) defs = false.
  Proof. destruct defs; [congruence|reflexivity]. Qed.
  Lemma none_any (defs : classes) : existsb (fun d => is_cached dec (None : option (meta * cdir)) (snd d)) defs = false.
  Proof. induction defs; auto. Qed.
  Theorem stale_fresh cf (s : fsys) : c_defs cf <> [] -> stale deq md5 s ->
    fst (construct cf s) = fst (construct (uncached cf) s).
  Proof.
    intros Hne Hs. unfold Cache.construct. rewrite (surjective_pairing (do_parse cf s)), (surjective_pairing (do_parse (uncached cf) s)).
    cbn [fst]. unfold Cache.do_parse. cbn [c_nocache uncached]. rewrite (stale_load s Hs). destruct (c_nocache cf) eqn:En.
    - cbn [negb andb c_defs]. destruct (do ws <- _ ;; _) as [[st fs]|e]; reflexivity.
    - cbn [negb andb c_defs]. rewrite none_cached by exact Hne. destruct (do ws <- _ ;; _) as [[st fs]|e]; reflexivity.
  Qed.

  (** Executing the steps of a fresh cache. *)
  Lemma exec_tables ts : forall tr m tb,
    exec (Fs tr (Some (CDir m tb))) (map (fun t : str * csv => OTable (fst t) (snd t)) ts) =
    (Fs tr (Some (CDir m (fold_left (fun acc t => dset eqs (fst t) (snd t) acc) ts tb))) : fsys).
  Proof. unfold exec. induction ts as [|t ts IH]; intros tr m tb; auto. cbn [map fold_left]. rewrite <- IH. reflexivity. Qed.
  Lemma exec_start (s : fsys) m ts :
    exec s ([ORmTree; OMkDir; OOpenMeta; OWriteMeta m] ++ map (fun t : str * csv => OTable (fst t) (snd t)) ts) =
    Fs (f_trace s) (Some (CDir (Some (MOk m)) (fold_left (fun acc t => dset eqs (fst t) (snd t) acc) ts []))).
  Proof. rewrite <- exec_tables. reflexivity. Qed.
  Lemma fold_dset_In {V} (ts : list (str * V)) : forall tb n t, In (n, t) (fold_left (fun acc t => dset eqs (fst t) (snd t) acc) ts tb) ->
    In (n, t) ts \/ In (n, t) tb.
  Proof.
    induction ts as [|[a b] ts IH]; intros tb n t H; auto. cbn [fold_left fst snd] in H. apply IH in H as [H|H].
    - left. now right.
    - assert (G : In (n, t) (dset eqs a b tb) -> (n, t) = (a, b) \/ In (n, t) tb).
      { clear. induction tb as [|[x y] tb IH]; cbn [dset In].
        - intros [H|[]]. left. congruence.
        - destruct (eqs a x) eqn:E; cbn [map In fst].
          + apply eqs_eq in E as <-. intros [H|H]; auto.
          + intros [H|H]; auto. apply IH in H as [H|H]; auto. }
      apply G in H as [H|H]; auto. left. left. congruence.
  Qed.
  Lemma fold_dset_keep {V} (ts : list (str * V)) : forall tb n, In n (map fst tb) ->
    In n (map fst (fold_left (fun acc t => dset eqs (fst t) (snd t) acc) ts tb)).
  Proof.
    induction ts as [|[a b] ts IH]; intros tb n H; auto. cbn [fold_left fst snd]. apply IH.
    clear - H. induction tb as [|[x y] tb IH]; [destruct H|]. cbn. destruct (eqs a x) eqn:E; cbn [map In fst].
    - exact H.
    - destruct H as [H|H]; auto.
  Qed.
  Lemma fold_dset_has {V} (ts : list (str * V)) : forall tb n, In n (map fst ts) ->
    In n (map fst (fold_left (fun acc t => dset eqs (fst t) (snd t) acc) ts tb)).
  Proof.
    induction ts as [|[a b] ts IH]; intros tb n H; [destruct H|]. cbn [map fst] in H. cbn [fold_left fst snd]. destruct H as [H|H]; auto.
    subst n. apply fold_dset_keep. clear. induction tb as [|[x y] tb IH]; cbn; auto. destruct (eqs a x) eqn:E; cbn; auto. apply eqs_eq in E as ->. now left.
  Qed.

  Lemma mapM_len {A B} (f : A -> res B) l : forall r, mapM f l = Ok r -> List.length r = List.length l.
  Proof.
    induction l as [|a l IH]; intros r H; cbn [mapM] in H; [injection H as <-; reflexivity|].
    destruct (f a); [|discriminate]. cbn [bind] in H. destruct (mapM f l); [|discriminate]. injection H as <-. cbn. f_equal. now apply IH.
  Qed.
  Lemma mapM_F2 {A B} (f : A -> res B) l : forall r, mapM f l = Ok r -> Forall2 (fun a b => f a = Ok b) l r.
  Proof.
    induction l as [|a l IH]; intros r H; cbn [mapM] in H; [injection H as <-; constructor|].
    destruct (f a) eqn:E; [|discriminate]. cbn [bind] in H. destruct (mapM f l) eqn:Em; [|discriminate]. injection H as <-. constructor; auto.
  Qed.
  Lemma F2_combine {A B} (P : A -> B -> Prop) l r : Forall2 P l r -> forall a b, In (a, b) (combine l r) -> P a b /\ In a l.
  Proof.
    induction 1 as [|x y l r Hxy _ IH]; intros a b Hi; [destruct Hi|]. cbn [combine] in Hi. destruct Hi as [Hi|Hi].
    - injection Hi as <- <-. split; auto. now left.
    - destruct (IH a b Hi). split; auto. now right.
  Qed.

  Lemma word_table_ext c1 c2 defs : (forall a, c1 a = c2 a) -> forall acc, word_table c1 acc defs = word_table c2 acc defs.
  Proof.
    intros G. induction defs as [|[a k] ds IH]; intros acc; auto. cbn [word_table]. rewrite G.
    destruct (c2 a); auto. destruct (dget _ _ _); auto.
  Qed.
  (** After a construction over a stale cache: nothing is left of it. *)
  Theorem stale_replaced cf (s : fsys) : c_defs cf <> [] -> stale deq md5 s -> c_nocache cf = false ->
    f_trace (snd (construct cf s)) = f_trace s /\
    match fst (construct cf s) with
    | Err _ => f_cache (snd (construct cf s)) = None
    | Ok tr => exists d, f_cache (snd (construct cf s)) = Some d /\
        d_meta d = Some (MOk (Meta (md5 (f_trace s)) (t_base tr) (t_end tr) (Some (head (f_trace s))))) /\
        (forall n t, In (n, t) (d_tables d) -> exists attr k ws st f, In (attr, k) (c_defs cf) /\ n = k_pyname k /\
           word_table (fun _ => false) [] (c_defs cf) = Ok ws /\ populate ws fzero (body (f_trace s)) = Ok st /\
           mk k (arr attr st) = Ok f /\ t = enc f) /\
        (forall attr k, In (attr, k) (c_defs cf) -> In (k_pyname k) (map fst (d_tables d)))
    end.
  Proof.
    intros Hne Hs Hn. unfold Cache.construct. rewrite (surjective_pairing (do_parse cf s)). cbn [fst snd].
    unfold Cache.do_parse. rewrite Hn, (stale_load s Hs). cbn [negb andb]. rewrite none_cached by exact Hne.
    destruct (do ws <- _ ;; _) as [[st fs]|e] eqn:Er; cbn [fst snd].
    2: { split; reflexivity. }
    destruct (word_table _ _ _) as [ws|] eqn:Ew in Er; [|discriminate]. cbn [bind] in Er.
    destruct (populate ws fzero (body (f_trace s))) as [st'|] eqn:Ep; [|discriminate]. cbn [bind] in Er.
    destruct (mapM _ (c_defs cf)) as [fs'|] eqn:Em; [|discriminate]. cbn [bind] in Er. injection Er as -> ->.
    rewrite none_any. cbn [t_base t_end].
    set (ts := map _ (filter _ _)).
    change ([ORmTree] ++ update_ops false false (Meta (md5 (f_trace s)) (p_base st) (p_end st) (Some (head (f_trace s)))) ts)
      with ([ORmTree; OMkDir; OOpenMeta; OWriteMeta (Meta (md5 (f_trace s)) (p_base st) (p_end st) (Some (head (f_trace s))))]
            ++ map (fun t => OTable (fst t) (snd t)) ts).
    rewrite exec_start. cbn [f_trace f_cache]. split; auto.
    eexists. split; [reflexivity|]. cbn [d_meta d_tables]. split; [reflexivity|].
    assert (Wt : word_table (fun _ => false) [] (c_defs cf) = Ok ws).
    { rewrite <- Ew. apply word_table_ext. intros a. now destruct (dget eqs a (c_defs cf)). }
    split.
    - intros n t Hi. apply fold_dset_In in Hi as [Hi|[]]. unfold ts in Hi. apply in_map_iff in Hi as ([[a k] x] & Hx & Hi).
      cbn [fst snd] in Hx. injection Hx as <- <-. apply filter_In in Hi as [Hi _].
      destruct (F2_combine _ _ _ (mapM_F2 _ _ _ Em) _ _ Hi) as [HF Hin]. cbn [cached_frame fst snd] in HF.
      destruct (mk k _) as [f|] eqn:Emk in HF; [|discriminate]. cbn [bind] in HF. injection HF as <-. cbn [snd].
      exists a, k, ws, st, f. repeat split; auto.
    - intros attr k Hin. apply fold_dset_has. unfold ts. rewrite map_map. cbn [fst].
      assert (L := mapM_len _ _ _ Em). clear - Hin L. revert fs L. induction (c_defs cf) as [|d ds IH]; intros [|x fs] L; try discriminate; [destruct Hin|].
      cbn [combine filter fst is_cached cached_frame negb map]. destruct Hin as [->|Hin]; [now left|]. right. apply IH; auto.
  Qed.

  Lemma all_from_cache (l : option (meta * cdir)) (P : str * klass -> str * frame -> Prop) ds :
    forallb (fun e => is_cached dec l (snd e)) ds = true ->
    Forall2 (fun e x => match cached_frame dec l (snd e) with Some f => snd x = f | None => P e x end) ds
      (map (fun e => (fst e, match cached_frame dec l (snd e) with Some f => f | None => [] end)) ds).
  Proof.
    induction ds as [|e ds IH]; intros Ef; constructor; cbn [forallb] in Ef; apply andb_true_iff in Ef as [E1 E2]; auto.
    unfold is_cached in E1. cbn [snd]. destruct (cached_frame dec l (snd e)); [reflexivity|discriminate].
  Qed.
  (** The classes read from the cache take no part in the parse. *)
  Theorem partial_dispatch cf (s : fsys) m d rm tr os : c_nocache cf = false -> load s = Ok (Some (m, d), rm) ->
    NoDup (map fst (c_defs cf)) -> NoDup (map (fun e => k_word (snd e)) (c_defs cf)) ->
    do_parse cf s = (Ok tr, os) ->
    exists fs us w, t_frames tr = finish cf (t_base tr) w fs /\ map fst fs = map fst (c_defs cf) /\
      Assigned fzero (map (fun p => f_time (snd p)) (parsed 0 (body (f_trace s)))) us /\
      Forall2 (fun e x => match cached_frame dec (Some (m, d)) (snd e) with
        | Some f => snd x = f
        | None => exists es, mk (snd e) es = Ok (snd x) /\
            Recorded (map (fun e => (k_word (snd e), e)) (filter (fun e => negb (is_cached dec (Some (m, d)) (snd e))) (c_defs cf)))
              (fst e) (parsed 0 (body (f_trace s))) us es
        end) (c_defs cf) fs.
  Proof.
    intros Hn Hl Ha Hw. unfold Cache.do_parse. rewrite Hn, Hl. cbn [negb andb].
    destruct (forallb _ (c_defs cf)) eqn:Ef.
    - intros H. injection H as <- <-. cbn [t_frames t_base].
      destruct (populate_total [] fzero (body (f_trace s))) as (st & Hst).
      destruct (populate_spec _ _ _ _ Hst) as (us & HA & _).
      eexists _, us, _. split; [reflexivity|]. split; [now rewrite map_map|]. split; [exact HA|].
      exact (all_from_cache _ _ _ Ef).
    - set (cd := fun attr => match dget eqs attr (c_defs cf) with Some k => is_cached dec (Some (m, d)) k | None => false end).
      rewrite (word_table_ok cd (c_defs cf) []) by (cbn; now rewrite map_map). cbn [app bind].
      set (ws := map entry _).
      assert (Hws : ws = map (fun e => (k_word (snd e), e)) (filter (fun e => negb (is_cached dec (Some (m, d)) (snd e))) (c_defs cf))).
      { unfold ws. replace (filter (fun e => negb (cd (fst e))) (c_defs cf)) with (filter (fun e => negb (is_cached dec (Some (m, d)) (snd e))) (c_defs cf)).
        - apply map_ext. now intros [a k].
        - apply filter_ext_in. intros [a k] Hi. cbn [fst snd]. unfold cd. now rewrite (In_dget eqs eqs_eq a k). }
      rewrite <- Hws. clear Hws. clearbody ws. clear cd.
      destruct (populate ws (m_base m) (body (f_trace s))) as [st|] eqn:Ep; [|discriminate]. cbn [bind].
      destruct (populate_spec _ _ _ _ Ep) as (us & HA & _ & _ & _ & _ & HR).
      destruct (mapM _ (c_defs cf)) as [fs|] eqn:Em; [|discriminate]. cbn [bind]. intros H. injection H as <- <-.
      cbn [t_frames t_base]. apply mapM_F2 in Em. eexists fs, us, _. split; [reflexivity|]. split; [|split; [exact HA|]].
      + clear - Em. induction Em as [|e x ds fs H _ IH]; auto. cbn [map]. f_equal; auto.
        destruct (cached_frame _ _ _); [now injection H as <-|]. destruct (mk _ _); [|discriminate]. now injection H as <-.
      + clear - Em HR. induction Em as [|e x ds fs H _ IH]; constructor; auto. destruct (cached_frame _ _ _); [now injection H as <-|].
        destruct (mk _ _) as [f|] eqn:Emk; [|discriminate]. cbn [bind] in H. injection H as <-. cbn [snd]. eexists. split; [exact Emk|]. apply HR.
  Qed.
End Any.
