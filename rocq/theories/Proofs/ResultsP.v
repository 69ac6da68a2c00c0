From Coq Require Import List Ascii String ZArith NArith Bool Lia.
From Verif Require Import Lib.PyStr Lib.PyStrFacts Lib.Regex Lib.RegexFacts Lib.SearchFacts Spec.Lines Proofs.LineP Model.Results Spec.Results.
Import ListNotations.
Local Open Scope list_scope.

Lemma is_sep_spec c : is_sep c = true <-> c = " "%char \/ c = "_"%char.
Proof.
  unfold is_sep, is_ch. rewrite orb_true_iff, !Ascii.eqb_eq. intuition congruence.
Qed.
Lemma not_nl_spec s : ~ In nl s -> Forall (fun c => not_nl c = true) s.
Proof.
  intros H. apply Forall_forall. intros c Hc. unfold not_nl. destruct (Ascii.eqb c (ascii_of_nat 10)) eqn:E; auto.
  apply Ascii.eqb_eq in E. subst. exfalso. apply H. exact Hc.
Qed.

Lemma firstn_exact (a b : str) : firstn (List.length (a ++ b) - List.length b) (a ++ b) = a.
Proof.
  rewrite app_length. replace (List.length a + List.length b - List.length b) with (List.length a) by lia.
  rewrite firstn_app, Nat.sub_diag, firstn_all. cbn. apply app_nil_r.
Qed.
(** A separator at a place. *)
Definition sep_at (s : str) (k : nat) : bool :=
  match skipn k s with c :: d :: _ => is_sep c && is_digit d | _ => false end.
Lemma take_digits s : exists ds rest, s = ds ++ rest /\ Forall (fun c => is_digit c = true) ds /\
  match rest with d :: _ => is_digit d = false | [] => True end.
Proof.
  induction s as [|c s (ds & rest & -> & H1 & H2)].
  - now exists [], [].
  - destruct (is_digit c) eqn:E.
    + exists (c :: ds), rest. auto.
    + exists [], (c :: ds ++ rest). auto.
Qed.
Lemma digits_app_inj ds rest ds' rest' : Forall (fun c => is_digit c = true) ds -> Forall (fun c => is_digit c = true) ds' ->
  match rest with d :: _ => is_digit d = false | [] => True end ->
  match rest' with d :: _ => is_digit d = false | [] => True end ->
  ds ++ rest = ds' ++ rest' -> ds = ds' /\ rest = rest'.
Proof.
  revert ds'. induction ds as [|c ds IH]; intros [|c' ds'] H H' Hr Hr' E; cbn in E.
  - auto.
  - subst rest. inversion H'; subst. congruence.
  - subst rest'. inversion H; subst. congruence.
  - injection E as -> E. inversion H; inversion H'; subst. destruct (IH ds') as [-> ->]; auto.
Qed.
Lemma sep_at_spec s k : sep_at s k = true -> k <> 0 -> exists a c ds rest, Sep s a c ds rest /\ List.length a = k.
Proof.
  unfold sep_at. intros H Hk. destruct (skipn k s) as [|c [|d r]] eqn:E; try discriminate.
  apply andb_true_iff in H as [Hc Hd]. apply is_sep_spec in Hc.
  destruct (take_digits r) as (ds & rest & -> & H1 & H2).
  assert (L : k < List.length s).
  { destruct (Nat.lt_ge_cases k (List.length s)) as [L|L]; auto. rewrite skipn_all2 in E by lia. discriminate. }
  exists (firstn k s), c, (d :: ds), rest. split.
  - split; [|split; [|split; [exact Hc|split]]].
    + rewrite <- (firstn_skipn k s) at 1. now rewrite E.
    + destruct k; [congruence|]. destruct s; cbn; [cbn in L; lia|discriminate].
    + split; [discriminate|]. constructor; auto.
    + exact H2.
  - apply firstn_length_le. lia.
Qed.
Lemma Sep_at s a c ds rest : Sep s a c ds rest -> sep_at s (List.length a) = true /\ List.length a <> 0.
Proof.
  intros (-> & Ha & Hc & [Hne Hd] & Hr). split.
  - unfold sep_at. rewrite skipn_app, skipn_all, Nat.sub_diag. cbn. destruct ds as [|d ds]; [congruence|]. cbn.
    inversion Hd; subst. apply andb_true_iff. split; auto. now apply is_sep_spec.
  - destruct a; cbn; congruence.
Qed.
Lemma last_sep s : (exists a c ds rest, Sep s a c ds rest /\ forall a' c' ds' rest', Sep s a' c' ds' rest' -> List.length a' <= List.length a) \/
  (forall a c ds rest, ~ Sep s a c ds rest).
Proof.
  assert (G : forall n, (forall a c ds rest, Sep s a c ds rest -> List.length a <= n) ->
    (exists a c ds rest, Sep s a c ds rest /\ forall a' c' ds' rest', Sep s a' c' ds' rest' -> List.length a' <= List.length a) \/
    (forall a c ds rest, ~ Sep s a c ds rest)).
  { induction n as [|n IH]; intros H.
    - right. intros a c ds rest Hs. pose proof (H _ _ _ _ Hs). apply Sep_at in Hs. lia.
    - destruct (sep_at s (S n)) eqn:E.
      + left. apply sep_at_spec in E as (a & c & ds & rest & Hs & L); [|discriminate].
        exists a, c, ds, rest. split; auto. rewrite L. exact H.
      + apply IH. intros a c ds rest Hs. pose proof (H _ _ _ _ Hs). apply Sep_at in Hs as [Hs _].
        assert (List.length a <> S n) by (intros L; rewrite L in Hs; congruence). lia. }
  apply (G (List.length s)). intros a c ds rest (-> & _). rewrite app_length. lia.
Qed.
Lemma Sep_unique s a c ds rest a' c' ds' rest' : Sep s a c ds rest -> Sep s a' c' ds' rest' -> List.length a = List.length a' ->
  a = a' /\ c = c' /\ ds = ds' /\ rest = rest'.
Proof.
  intros (E & _ & _ & [_ Hd] & Hr) (E' & _ & _ & [_ Hd'] & Hr') L. rewrite E in E'.
  assert (A : forall (a a' : str) x y, List.length a = List.length a' -> a ++ x = a' ++ y -> a = a' /\ x = y).
  { clear. induction a as [|h a IH]; intros [|h' a'] x y L E; cbn in *; try discriminate; auto.
    injection E as -> E. injection L as L. destruct (IH a' x y L E) as [-> ->]. auto. }
  destruct (A _ _ _ _ L E') as [-> E2]. injection E2 as -> E2.
  destruct (digits_app_inj _ _ _ _ Hd Hd' Hr Hr' E2) as [-> ->]. auto.
Qed.

Lemma run_tail_None prev a v caps : (forall c d r, v = c :: d :: r -> is_sep c = true -> is_digit d = true -> False) ->
  forall (k : st -> option mres), mt (RSeqs [RCls is_sep; RGrp 2 (RPlus (RCls is_digit))]) (St prev v ((1, a) :: caps)) k = None.
Proof.
  intros H k. cbn [RSeqs mt s_rest]. destruct v as [|c v]; auto. destruct (is_sep c) eqn:Ec; auto.
  unfold RPlus. cbn [mt s_rest]. destruct v as [|d v]; auto. destruct (is_digit d) eqn:Ed; auto. exfalso. eauto.
Qed.

Lemma search_run s : ~ In nl s ->
  match re_search pat_run s with
  | Some m => exists a c ds rest, Sep s a c ds rest /\ (forall a' c' ds' rest', Sep s a' c' ds' rest' -> List.length a' <= List.length a) /\
      group 1 m = Some a /\ group 2 m = Some ds
  | None => forall a c ds rest, ~ Sep s a c ds rest
  end.
Proof.
  intros Hnl. pose proof (not_nl_spec s Hnl) as Hs.
  destruct (last_sep s) as [(a & c & ds & rest & Sp & Mx)|No].
  - pose proof Sp as (E & Ha & Hc & [Hne Hd] & Hr).
    unfold re_search. destruct a as [|a0 a]; [congruence|].
    assert (M : mt pat_run (St None s []) (fun s' => Some (mk_res [] s s')) =
      Some (mk_res [] s (St (last_or (Some c) ds) rest [(2, ds); (1, a0 :: a)]))).
    { unfold pat_run. cbn [RSeqs]. cbn [mt].
      rewrite E in Hs. cbn in Hs. inversion Hs as [|? ? H0 Hs']; subst. apply Forall_app in Hs' as [Hs1 Hs2].
      change (fun s' : st => match s_rest (cap_add 1 (St None ((a0 :: a) ++ c :: ds ++ rest) []) s') with
         | [] => None | _ => _ end) with (fun s' : st => mt (RSeqs [RCls is_sep; RGrp 2 (RPlus (RCls is_digit))])
           (cap_add 1 (St None ((a0 :: a) ++ c :: ds ++ rest) []) s') (fun s' => Some (mk_res [] ((a0 :: a) ++ c :: ds ++ rest) s'))).
      eapply (plus_back not_nl _ a0 a (c :: ds ++ rest)); [reflexivity|exact H0|exact Hs1| |].
      - cbn [RSeqs]. unfold cap_add, adv. cbn [s_rest s_prev s_caps].
        replace (firstn _ _) with (a0 :: a).
        2:{ symmetry. apply firstn_exact. }
        cbn [mt s_rest s_caps]. rewrite (proj2 (is_sep_spec c) Hc).
        eapply (plus_max is_digit _ ds rest); [reflexivity|exact Hne|exact Hd| |].
        + destruct rest; auto.
        + rewrite (cap_add_adv 2 _ _ ds rest) by reflexivity. reflexivity.
      - intros u v Euv Hu Hfu. unfold cap_add, adv. cbn [s_rest s_prev s_caps].
        apply run_tail_None. intros c' d' r' -> Hc' Hd'.
        destruct (take_digits r') as (ds' & rest' & -> & D1 & D2).
        assert (Sp' : Sep ((a0 :: a) ++ c :: ds ++ rest) ((a0 :: a) ++ u) c' (d' :: ds') rest').
        { split; [|split; [|split; [now apply is_sep_spec|split]]].
          - rewrite Euv, <- app_assoc. reflexivity.
          - discriminate.
          - split; [discriminate|]. constructor; auto.
          - exact D2. }
        apply Mx in Sp'. rewrite app_length in Sp'. destruct u; [congruence|]. cbn in Sp'. lia. }
    assert (R : search_from pat_run [] None s = Some (mk_res [] s (St (last_or (Some c) ds) rest [(2, ds); (1, a0 :: a)]))).
    { clear - M. destruct s; cbn [search_from]; rewrite M; reflexivity. }
    rewrite R. exists (a0 :: a), c, ds, rest. repeat split; auto; try apply Sp.
  - destruct (re_search pat_run s) as [m|] eqn:R; auto. exfalso.
    unfold re_search in R. rewrite search_none in R; [discriminate|].
    intros a b Es s' M. unfold pat_run in M. cbn [RSeqs] in M.
    assert (K : mt pat_run (St (last_or None a) b []) (fun s' => Some s') = None).
    { unfold pat_run. cbn [RSeqs mt].
      change (mt (RPlus (RCls not_nl)) (St (last_or None a) b []) (fun s' : st => mt (RSeqs [RCls is_sep; RGrp 2 (RPlus (RCls is_digit))])
           (cap_add 1 (St (last_or None a) b []) s') (fun s' => Some s')) = None).
      apply plus_None. cbn [s_rest]. intros u v Euv Hu _. unfold cap_add, adv. cbn [s_rest s_prev s_caps].
      cbn [RSeqs mt s_rest]. destruct v as [|c v]; auto. destruct (is_sep c) eqn:Ec; auto.
      unfold RPlus. cbn [mt s_rest]. destruct v as [|d v]; auto. destruct (is_digit d) eqn:Ed; auto. exfalso.
      destruct (take_digits v) as (ds & rest & -> & D1 & D2).
      apply (No (a ++ u) c (d :: ds) rest). split; [|split; [|split; [now apply is_sep_spec|split]]].
      - rewrite Es, Euv, <- app_assoc. reflexivity.
      - destruct u; [congruence|]. destruct a; discriminate.
      - split; [discriminate|]. constructor; auto.
      - exact D2. }
    revert K. unfold pat_run. cbn [RSeqs]. eapply mt_complete; [exact M|discriminate].
Qed.

Lemma metric_spec s : re_match pat_metric s <> None <-> IsResult s.
Proof.
  unfold re_match, IsResult. split.
  - intros H. destruct (mt pat_metric (St None s []) (fun s' => Some (mk_res [] s s'))) as [m|] eqn:E; [|congruence].
    apply mt_sound in E as (s' & M & _). unfold pat_metric in M.
    apply mat_alt_inv in M as [M|M]; [|apply mat_alt_inv in M as [M|M]]; apply mat_lit in M as (E & _); cbn [s_rest] in E.
    + exists $"Overall_Score", (s_rest s'). split; [left; reflexivity|exact E].
    + exists $"score", (s_rest s'). split; [right; left; reflexivity|exact E].
    + exists $"FPS", (s_rest s'). split; [right; right; left; reflexivity|exact E].
  - intros (w & r & Hw & ->). unfold pat_metric. cbn [mt].
    set (k := fun s' : st => Some (mk_res [] (w ++ r) s')).
    assert (L : forall w', w' = w -> mt (RLit w') (St None (w ++ r) []) k <> None).
    { intros w' ->. rewrite (lit_step w _ r) by reflexivity. discriminate. }
    destruct (mt (RLit $"Overall_Score") (St None (w ++ r) []) k) eqn:E1; [discriminate|].
    destruct (mt (RLit $"score") (St None (w ++ r) []) k) eqn:E2; [discriminate|].
    destruct Hw as [<-|[<-|[<-|[]]]].
    + exfalso. apply (L _ eq_refl). exact E1.
    + exfalso. apply (L _ eq_refl). exact E2.
    + apply L. reflexivity.
Qed.

Theorem run_number_ok s : ~ In nl s ->
  match get_run_number s with Some n => IsResult s /\ RunOf s n | None => ~ IsResult s end.
Proof.
  intros Hnl. unfold get_run_number. pose proof (metric_spec s) as M.
  destruct (re_match pat_metric s) as [m0|]; [|intros H; apply M in H; congruence].
  pose proof (search_run s Hnl) as R. assert (I : IsResult s) by (apply M; discriminate).
  destruct (re_search pat_run s) as [m|].
  - destruct R as (a & c & ds & rest & Sp & Mx & G1 & G2). rewrite G1, G2.
    split; auto. left. exists a, c, ds, rest. split; auto. split; auto.
    rewrite py_int10_digits by apply Sp. destruct (eqs a $"Overall_Score"); lia.
  - split; auto. right. auto.
Qed.
Theorem run_of_unique s n n' : RunOf s n -> RunOf s n' -> n = n'.
Proof.
  intros [(a & c & ds & rest & Sp & Mx & ->)|[No ->]] [(a' & c' & ds' & rest' & Sp' & Mx' & ->)|[No' ->]]; auto.
  - pose proof (Mx _ _ _ _ Sp'). pose proof (Mx' _ _ _ _ Sp).
    destruct (Sep_unique _ _ _ _ _ _ _ _ _ Sp Sp') as (-> & _ & -> & _); [lia|reflexivity].
  - exfalso. eapply No'; eauto.
  - exfalso. eapply No; eauto.
Qed.

(** * The identifier *)
Lemma search_pre r : forall s p q prev,
  search_from r (p ++ q) prev s = option_map (fun m => MRes (p ++ m_pre m) (m_all m) (m_post m) (m_caps m)) (search_from r q prev s).
Proof.
  intros s p q prev. revert s q prev.
  assert (G : forall s q prev, mt r (St prev s []) (fun s' => Some (mk_res (p ++ q) s s')) =
    option_map (fun m => MRes (p ++ m_pre m) (m_all m) (m_post m) (m_caps m)) (mt r (St prev s []) (fun s' => Some (mk_res q s s')))).
  { intros s q prev. rewrite <- mt_map. reflexivity. }
  induction s as [|c s IH]; intros q prev; cbn [search_from]; rewrite G.
  - destruct (mt r (St prev [] []) _); reflexivity.
  - destruct (mt r (St prev (c :: s) []) _); [reflexivity|]. cbn [option_map]. rewrite <- app_assoc. apply IH.
Qed.
Lemma id_nomatch prev c s : (c <> "_"%char \/ match s with d :: _ => is_digit d = false | [] => True end) -> nomatch pat_id (St prev (c :: s) []).
Proof.
  intros H s' M. unfold pat_id in M. apply mat_seq_inv in M as (s1 & M1 & M2).
  inversion M1; subst. apply mat_plus_cls in M2 as (u & E & Hu & Hf & _). cbn [s_rest] in E.
  destruct H as [H|H].
  - match goal with H : is_ch _ _ = true |- _ => unfold is_ch in H; apply Ascii.eqb_eq in H end. congruence.
  - subst s. destruct u as [|d u]; [congruence|]. inversion Hf; subst. cbn in H. congruence.
Qed.
Lemma sub_keep n prev c s : (c <> "_"%char \/ match s with d :: _ => is_digit d = false | [] => True end) ->
  exists prev', sub_fuel pat_id (fun _ => []) (S n) prev (c :: s) = c :: sub_fuel pat_id (fun _ => []) (S n) prev' s.
Proof.
  intros H. exists (Some c). cbn [sub_fuel].
  assert (E : search_from pat_id [] prev (c :: s) = search_from pat_id [c] (Some c) s).
  { cbn [search_from]. rewrite nomatch_mt by now apply id_nomatch. reflexivity. }
  rewrite E. change [c] with ([c] ++ @nil ascii). rewrite search_pre.
  destruct (search_from pat_id [] (Some c) s) as [m|] eqn:Em; cbn [option_map m_pre m_all m_post m_caps]; [|reflexivity].
  cbn [app]. f_equal. f_equal.
  assert (N : m_all m <> []).
  { apply search_inv in Em as (a & b & s' & -> & M & -> & _). apply mat_seq_inv in M as (s1 & M1 & M2).
    inversion M1; subst. apply mat_plus_cls in M2 as (u & Eu & Hu & _). cbn [s_rest] in Eu. subst.
    destruct u as [|d u]; [congruence|]. unfold mk_res. cbn [m_all].
    match goal with |- firstn ?n ?l <> [] => remember n as k eqn:Ek; destruct k end; [|discriminate].
    cbn [List.length app] in Ek. rewrite app_length in Ek. cbn [s_rest] in Ek. lia. }
  assert (R : forall x : str, x <> [] -> hd_error (rev (c :: x)) = hd_error (rev x)).
  { intros x Hx. cbn [rev]. destruct (rev x) as [|y ys] eqn:Ex; [|reflexivity].
    apply (f_equal (@rev ascii)) in Ex. rewrite rev_involutive in Ex. cbn in Ex. congruence. }
  f_equal. apply (R (m_pre m ++ m_all m)). destruct (m_pre m); [exact N|discriminate].
Qed.
Lemma sub_num n prev ds s : digits ds -> match s with d :: _ => is_digit d = false | [] => True end ->
  exists prev', sub_fuel pat_id (fun _ => []) (S n) prev ("_"%char :: ds ++ s) = sub_fuel pat_id (fun _ => []) n prev' s.
Proof.
  intros [Hne Hd] Hs. cbn [sub_fuel].
  assert (M : forall k : st -> option mres, mt pat_id (St prev ("_"%char :: ds ++ s) []) k = k (St (last_or (Some "_"%char) ds) s []) \/ k (St (last_or (Some "_"%char) ds) s []) = None).
  { intros k. destruct (k (St (last_or (Some "_"%char) ds) s [])) as [m|] eqn:Ek; auto. left.
    change (mt (RPlus (RCls is_digit)) (St (Some "_"%char) (ds ++ s) []) k = Some m).
    eapply (plus_max is_digit _ ds s); [reflexivity|exact Hne|exact Hd|now destruct s|exact Ek]. }
  destruct (M (fun s' => Some (mk_res [] ("_"%char :: ds ++ s) s'))) as [E|E]; [|discriminate].
  erewrite search_hit by exact E. cbn [mk_res m_pre m_all m_post s_rest app]. eexists. reflexivity.
Qed.
Lemma sub_nil n prev : sub_fuel pat_id (fun _ => []) n prev [] = [].
Proof. destruct n; reflexivity. Qed.

Theorem run_id_cut s t : Cut s t -> run_id s = t.
Proof.
  intros H. unfold run_id, re_sub. generalize (None : option ascii) as prev.
  assert (G : forall n prev, List.length s < n -> sub_fuel pat_id (fun _ => []) n prev s = t).
  { induction H as [|ds s t Hd Hs H IH|c s t Hc H IH]; intros n prev L.
    - apply sub_nil.
    - destruct n as [|n]; [lia|]. destruct (sub_num n prev ds s Hd Hs) as [prev' ->]. apply IH.
      cbn in L. rewrite app_length in L. lia.
    - destruct n as [|n]; [lia|]. destruct (sub_keep n prev c s Hc) as [prev' ->]. f_equal. apply IH. cbn in L. lia. }
  intros prev. apply G. lia.
Qed.
Lemma cut_total s : exists t, Cut s t.
Proof.
  remember (List.length s) as n eqn:L. revert s L. induction n as [n IH] using lt_wf_ind. intros [|c s] ->.
  - exists []. constructor.
  - destruct (Ascii.eqb c "_") eqn:Ec.
    + apply Ascii.eqb_eq in Ec. subst. destruct (take_digits s) as (ds & rest & -> & D1 & D2).
      destruct ds as [|d ds].
      * destruct (IH (List.length rest)) with (s := rest) as [t Ht]; [cbn; lia|reflexivity|].
        exists ("_"%char :: t). apply CutKeep; auto.
      * destruct (IH (List.length rest)) with (s := rest) as [t Ht]; [cbn; rewrite app_length; lia|reflexivity|].
        exists t. apply (CutNum (d :: ds) rest t); auto. split; [discriminate|auto].
    + destruct (IH (List.length s)) with (s := s) as [t Ht]; [cbn; lia|reflexivity|].
      exists (c :: t). apply CutKeep; auto. left. intros ->. discriminate.
Qed.
Theorem run_id_spec s t : run_id s = t <-> Cut s t.
Proof.
  split; [|apply run_id_cut]. intros <-. destruct (cut_total s) as [t Ht]. now rewrite (run_id_cut s t Ht).
Qed.
Lemma cut_head s t : Cut s t -> match s with d :: _ => is_digit d = false | [] => True end ->
  match t with d :: _ => is_digit d = false | [] => True end.
Proof. induction 1 as [|ds s t Hd Hs H IH|c s t Hc H IH]; intros H0; [exact I|exact (IH Hs)|exact H0]. Qed.
(** No number after an underscore is left. *)
Theorem run_id_clean s a d b : run_id s = a ++ "_"%char :: d :: b -> is_digit d = false.
Proof.
  intros H. apply run_id_spec in H. remember (a ++ "_"%char :: d :: b) as t eqn:E. revert a E.
  induction H as [|ds s t Hd Hs H IH|c s t Hc H IH]; intros a E.
  - destruct a; discriminate.
  - eauto.
  - destruct a as [|x a]; cbn in E.
    + injection E as -> E. destruct Hc as [Hc|Hc]; [congruence|].
      pose proof (cut_head _ _ H Hc) as Hh. rewrite E in Hh. exact Hh.
    + injection E as -> E. eauto.
Qed.

(** * The table *)
Section Results.
  Context {F : Type} (to_float : str -> option F).
  Notation runs := (list (Z * @score F)).
  Notation table := (list (str * list (str * runs))).

  Lemma cell_add (t : table) bench id n v bench' id' n' :
    cell (add_score t bench id n v) bench' id' n' =
    match cell t bench' id' n' with
    | Some w => Some w
    | None => if eqs bench' bench && eqs id' id && Z.eqb n' n then Some v else None
    end.
  Proof.
    unfold cell, add_score, dmem.
    destruct (eqs bench' bench) eqn:Eb; [apply eqs_eq in Eb; subst bench'|];
    destruct (eqs id' id) eqn:Ei; [apply eqs_eq in Ei; subst id'|idtac|apply eqs_eq in Ei; subst id'|idtac];
    (destruct (Z.eqb n' n) eqn:En; [apply Z.eqb_eq in En; subst n'|]);
    destruct (dget eqs bench t) as [ids|] eqn:Hb; try (destruct (dget eqs id ids) as [rs|] eqn:Hi);
    try (destruct (dget Z.eqb n rs) as [w|] eqn:Hn);
    cbn [andb]; repeat (rewrite ?(dget_dset eqs eqs_eq), ?(dget_dset Z.eqb Z.eqb_eq), ?eqs_refl, ?Z.eqb_refl, ?Eb, ?Ei, ?En, ?Hb, ?Hi, ?Hn; cbn [dget]); auto;
    repeat match goal with |- context [match ?x with Some _ => _ | None => _ end] => destruct x end; auto.
  Qed.

  Lemma read_score_spec text v : read_score to_float text = Ok v <->
    match py_int10 text with Some z => v = SInt z | None => exists f, to_float text = Some f /\ v = SFloat f end.
  Proof.
    unfold read_score. destruct (py_int10 text) as [z|]; [split; [now intros [= <-]|now intros ->]|].
    destruct (to_float text) as [f|]; split; intros H; try discriminate.
    - injection H as <-. eauto.
    - destruct H as (f' & [= <-] & ->). reflexivity.
    - destruct H as (f' & H & _). discriminate.
  Qed.

  (** A row either says something that is added, or nothing, or the reading fails. *)
  Lemma add_row_spec name (t : table) row :
    match add_row to_float name t row with
    | Ok t' => (Silent row /\ t' = t) \/ (exists b i n v, Says to_float name row (b, i, n, v) /\ t' = add_score t b i n v)
    | Err _ => ~ Silent row /\ forall x, ~ Says to_float name row x
    end.
  Proof.
    unfold add_row, field. destruct (nth_error row 3) as [metric|] eqn:E3; cbn [bind].
    2:{ split; [intros (m & H & _); congruence|]. intros [[[b i] n] v] (m & text & H & _). congruence. }
    destruct (get_run_number metric) as [n|] eqn:En; [|left; split; [exists metric|]; auto].
    assert (NS : ~ Silent row) by (intros (m & H & H'); congruence).
    assert (Id : match match name with Some ((_ :: _) as s) => Ok s
         | _ => do s <- (match nth_error row 0 with Some s => Ok s | None => Err EIndex end) ;; Ok (run_id s) end with
       | Ok i => forall i', match name with Some ((_ :: _) as s) => i' = s | _ => exists s, nth_error row 0 = Some s /\ Cut s i' end <-> i' = i
       | Err _ => forall i', ~ match name with Some ((_ :: _) as s) => i' = s | _ => exists s, nth_error row 0 = Some s /\ Cut s i' end
       end).
    { destruct name as [[|c name]|]; try (intros i'; reflexivity);
        (destruct (nth_error row 0) as [s|]; cbn [bind]; [intros i'; split; [intros (s' & [= <-] & H); apply run_id_spec in H; auto|intros ->; exists s; split; auto; now apply run_id_spec]|intros i' (s' & H & _); discriminate]). }
    destruct (match name with Some ((_ :: _) as s) => Ok s | _ => _ end) as [i|e]; cbn [bind].
    2:{ split; auto. intros [[[b i] n'] v] (m & text & _ & _ & _ & _ & H & _). eapply Id; eauto. }
    destruct (nth_error row 1) as [b|] eqn:E1; cbn [bind].
    2:{ split; auto. intros [[[b i'] n'] v] (m & text & _ & H & _). congruence. }
    destruct (nth_error row 4) as [text|] eqn:E4; cbn [bind].
    2:{ split; auto. intros [[[b' i'] n'] v] (m & text & _ & _ & H & _). congruence. }
    destruct (read_score to_float text) as [v|e] eqn:Ev; cbn [bind].
    - right. exists b, i, n, v. split; auto. exists metric, text. repeat (split; auto).
      + now apply Id.
      + now apply read_score_spec.
    - split; auto. intros [[[b' i'] n'] v] (m & text' & _ & _ & H & _ & _ & Hv). assert (text' = text) by congruence. subst.
      apply read_score_spec in Hv. congruence.
  Qed.
  Lemma says_fun name row b i n v b' i' n' v' : Says to_float name row (b, i, n, v) -> Says to_float name row (b', i', n', v') ->
    b = b' /\ i = i' /\ n = n' /\ v = v'.
  Proof.
    intros (m & text & A1 & A2 & A3 & A4 & A5 & A6) (m' & text' & B1 & B2 & B3 & B4 & B5 & B6).
    assert (m' = m) by congruence. assert (text' = text) by congruence. subst. apply read_score_spec in A6, B6.
    repeat split; try congruence.
    destruct name as [[|c name]|]; try congruence; destruct A5 as (s & S1 & S2), B5 as (s' & S1' & S2');
      assert (s' = s) by congruence; subst; apply run_id_spec in S2, S2'; congruence.
  Qed.
  Lemma silent_says name row x : Silent row -> ~ Says to_float name row x.
  Proof. destruct x as [[[b i] n] v]. intros (m & H1 & H2) (m' & text & A1 & _ & _ & A4 & _). congruence. Qed.

  Lemma add_rows_spec name rows : forall (t t' : table), add_rows to_float name t rows = Ok t' ->
    Forall (fun r => Silent r \/ exists x, Says to_float name r x) rows /\
    forall b i n v, cell t' b i n = Some v <-> cell t b i n = Some v \/ (cell t b i n = None /\ FirstScore to_float name rows b i n v).
  Proof.
    induction rows as [|row rows IH]; intros t t' H; cbn [add_rows] in H.
    - injection H as <-. split; [constructor|]. intros b i n v. split; auto. intros [H|[_ (a & r & c & E & _)]]; auto. destruct a; discriminate.
    - pose proof (add_row_spec name t row) as R. destruct (add_row to_float name t row) as [t1|e]; [|discriminate]. cbn [bind] in H.
      apply IH in H as [HF HC]. split.
      + constructor; auto. destruct R as [[R _]|(b & i & n & v & R & _)]; eauto.
      + intros b i n v. rewrite HC. destruct R as [[R ->]|(b1 & i1 & n1 & v1 & R & ->)].
        * assert (K : FirstScore to_float name (row :: rows) b i n v <-> FirstScore to_float name rows b i n v).
          { split.
            - intros (a & r & c & E & Hs & Hn). destruct a as [|r0 a]; cbn in E.
              + injection E as <- <-. exfalso. eapply silent_says; eauto.
              + injection E as <- ->. exists a, r, c. split; auto. split; auto. intros r' v' Hr. apply Hn. now right.
            - intros (a & r & c & -> & Hs & Hn). exists (row :: a), r, c. split; auto. split; auto.
              intros r' v' [<-|Hr]; [now apply silent_says|eauto]. }
          rewrite K. reflexivity.
        * rewrite cell_add. destruct (cell t b i n) as [w|] eqn:Ec.
          { intuition congruence. }
          destruct (eqs b b1 && eqs i i1 && Z.eqb n n1) eqn:Ek.
          -- apply andb_true_iff in Ek as [Ek En]. apply andb_true_iff in Ek as [Eb Ei].
             apply eqs_eq in Eb, Ei. apply Z.eqb_eq in En. subst b1 i1 n1. split.
             ++ intros [[= <-]|[H _]]; [|discriminate]. right. split; auto. exists [], row, rows. split; [auto|split; [auto|intros r' v' []]].
             ++ intros [H|[_ (a & r & c & E & Hs & Hn)]]; [discriminate|]. left. destruct a as [|r0 a]; cbn in E.
                ** injection E as <- <-. destruct (says_fun _ _ _ _ _ _ _ _ _ _ R Hs) as (_ & _ & _ & ->). reflexivity.
                ** injection E as <- _. exfalso. eapply Hn; [now left|exact R].
          -- assert (K : FirstScore to_float name (row :: rows) b i n v <-> FirstScore to_float name rows b i n v).
             { assert (Nr : forall v', ~ Says to_float name row (b, i, n, v')).
               { intros v' Hs. destruct (says_fun _ _ _ _ _ _ _ _ _ _ R Hs) as (-> & -> & -> & _).
                 rewrite !eqs_refl, Z.eqb_refl in Ek. discriminate. }
               split.
               - intros (a & r & c & E & Hs & Hn). destruct a as [|r0 a]; cbn in E.
                 + injection E as <- <-. exfalso. eapply Nr; eauto.
                 + injection E as <- ->. exists a, r, c. split; auto. split; auto. intros r' v' Hr. apply Hn. now right.
               - intros (a & r & c & -> & Hs & Hn). exists (row :: a), r, c. split; auto. split; auto.
                 intros r' v' [<-|Hr]; eauto. }
             rewrite K. reflexivity.
  Qed.
  Lemma add_rows_fails name rows : forall (t : table) e, add_rows to_float name t rows = Err e ->
    exists row, In row rows /\ ~ Silent row /\ forall x, ~ Says to_float name row x.
  Proof.
    induction rows as [|row rows IH]; intros t e H; cbn [add_rows] in H; [discriminate|].
    pose proof (add_row_spec name t row) as R. destruct (add_row to_float name t row) as [t1|e1]; cbn [bind] in H.
    - apply IH in H as (r & Hr & H). exists r. split; [now right|auto].
    - exists row. split; [now left|auto].
  Qed.
  Lemma add_score_ne (t : table) b i n v : add_score t b i n v <> [].
  Proof.
    unfold add_score.
    assert (K : forall x, dset eqs b x t <> []) by (intros x; destruct t as [|[k0 v0] t]; cbn; [discriminate|destruct (eqs b k0); discriminate]).
    destruct (dget eqs b t) as [ids|] eqn:Eb; auto. destruct (dget eqs i ids) as [rs|]; auto. destruct (dmem Z.eqb n rs); auto.
    intros ->. discriminate.
  Qed.
  Lemma add_rows_empty name rows : forall (t t' : table), add_rows to_float name t rows = Ok t' ->
    (t' = [] <-> t = [] /\ forall r x, In r rows -> ~ Says to_float name r x).
  Proof.
    induction rows as [|row rows IH]; intros t t' H; cbn [add_rows] in H.
    - injection H as <-. split; [intros H; split; auto; intros r x []|tauto].
    - pose proof (add_row_spec name t row) as R. destruct (add_row to_float name t row) as [t1|e1]; [|discriminate]. cbn [bind] in H.
      rewrite (IH _ _ H). destruct R as [[R ->]|(b & i & n & v & R & ->)].
      + split; intros [-> Hn]; split; auto.
        * intros r x [<-|Hr]; [now apply silent_says|auto].
        * intros r x Hr. apply Hn. now right.
      + split.
        * intros [H0 _]. now apply add_score_ne in H0.
        * intros [_ Hn]. exfalso. apply (Hn row (b, i, n, v)); [now left|auto].
  Qed.

  (** The results of a file: each cell holds the first score said of it. *)
  Theorem results_ok name rows t : get_results to_float name rows = Ok t ->
    forall b i n v, cell t b i n = Some v <-> FirstScore to_float name rows b i n v.
  Proof.
    unfold get_results. destruct (add_rows to_float name [] rows) as [t0|e] eqn:E; [|discriminate]. cbn [bind].
    destruct t0 as [|p t0]; [discriminate|]. intros [= <-] b i n v.
    apply add_rows_spec in E as [_ HC]. rewrite HC. cbn [cell dget]. intuition discriminate.
  Qed.
  Theorem results_some name rows : (exists t, get_results to_float name rows = Ok t) <->
    Forall (fun r => Silent r \/ exists x, Says to_float name r x) rows /\ exists r x, In r rows /\ Says to_float name r x.
  Proof.
    unfold get_results. destruct (add_rows to_float name [] rows) as [t0|e] eqn:E; cbn [bind].
    - pose proof (add_rows_empty name rows _ _ E) as HE. apply add_rows_spec in E as [HF _].
      destruct t0 as [|p t0].
      + split; [intros [t H]; discriminate|]. intros [_ (r & x & Hr & Hx)]. exfalso. eapply (proj1 HE eq_refl); eauto.
      + split; [|eauto]. intros _. split; auto.
        (* some row said something, as the table is not empty *)
        clear HF. destruct (Exists_dec (fun r => exists x, Says to_float name r x) rows) as [H|H].
        * intros r. pose proof (add_row_spec name [] r) as R. destruct (add_row to_float name [] r) as [t'|e'].
          -- destruct t' as [|q t'].
             ++ right. intros [x Hx]. destruct R as [[R _]|(b & i & n & v & _ & R)]; [now apply silent_says in Hx|]. symmetry in R. now apply add_score_ne in R.
             ++ left. destruct R as [[_ R]|(b & i & n & v & R & _)]; [discriminate|eauto].
          -- right. intros [x Hx]. now apply R in Hx.
        * apply Exists_exists in H as (r & Hr & x & Hx). eauto.
        * exfalso. assert (p :: t0 = []); [|discriminate]. apply HE. split; auto. intros r x Hr Hx. apply H. apply Exists_exists. eauto.
    - split; [intros [t H]; discriminate|]. intros [HF _]. apply add_rows_fails in E as (r & Hr & N1 & N2).
      rewrite Forall_forall in HF. destruct (HF r Hr) as [H|[x H]]; [tauto|]. now apply N2 in H.
  Qed.

  (** * Combined results *)
  Theorem combine_ok (data : list table) t : combine_results data = Ok t <->
    exists d0 ds, data = d0 :: ds /\
      Forall2 (fun b p => fst p = b /\ exists parts, Forall2 (fun d ids => dget eqs b d = Some ids) data parts /\ snd p = List.concat parts) (map fst d0) t.
  Proof.
    unfold combine_results. destruct data as [|d0 ds].
    - split; [discriminate|]. intros (d & l & H & _). discriminate.
    - set (data := d0 :: ds).
      assert (P : forall b parts, mapM (fun d : table => match dget eqs b d with Some ids => Ok ids | None => Err EKey end) data = Ok parts <->
        Forall2 (fun d ids => dget eqs b d = Some ids) data parts).
      { intros b. generalize data. induction data0 as [|d l IH]; intros parts; cbn [mapM].
        - split; [intros [= <-]; constructor|intros H; inversion H; reflexivity].
        - destruct (dget eqs b d) as [ids|] eqn:E; cbn [bind].
          + destruct (mapM _ l) as [ps|e] eqn:Em; cbn [bind].
            * split; [intros [= <-]; constructor; auto; now apply IH|]. intros H. inversion H; subst.
              assert (ids = y) by congruence. subst. apply IH in H4. congruence.
            * split; [discriminate|]. intros H. inversion H; subst. apply IH in H4. congruence.
          + split; [discriminate|]. intros H. inversion H; subst. congruence. }
      assert (Q : forall bs t, mapM (fun b => do parts <- mapM (fun d : table => match dget eqs b d with Some ids => Ok ids | None => Err EKey end) data ;;
                                Ok (b, List.concat parts)) bs = Ok t <->
        Forall2 (fun b p => fst p = b /\ exists parts, Forall2 (fun d ids => dget eqs b d = Some ids) data parts /\ snd p = List.concat parts) bs t).
      { induction bs as [|b bs IH]; intros t'; cbn [mapM].
        - split; [intros [= <-]; constructor|intros H; inversion H; reflexivity].
        - destruct (mapM _ data) as [ps|e] eqn:Em; cbn [bind].
          + apply P in Em. destruct (mapM _ bs) as [l|e] eqn:El; cbn [bind].
            * split.
              -- intros [= <-]. constructor; [|now apply IH]. split; auto. exists ps. auto.
              -- intros H. inversion H as [|? [b' c'] ? ? [E1 (ps' & E2 & E3)] H4]; subst. cbn [fst snd] in *. subst.
                 apply P in Em, E2. assert (ps' = ps) by congruence. subst. apply IH in H4. congruence.
            * split; [discriminate|]. intros H. inversion H as [|? [b' c'] ? ? [E1 (ps' & E2 & E3)] H4]; subst. apply IH in H4. congruence.
          + split; [discriminate|]. intros H. inversion H as [|? [b' c'] ? ? [E1 (ps' & E2 & E3)] H4]; subst. apply P in E2. congruence. }
      rewrite Q. split; [intros H; exists d0, ds; auto|]. intros (d & l & E & H). injection E as <- <-. exact H.
  Qed.
End Results.
