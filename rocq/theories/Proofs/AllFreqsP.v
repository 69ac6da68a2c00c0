From Coq Require Import List Ascii String ZArith NArith Bool Sorted Lia.
From Verif Require Import Lib.PyStr Lib.PyStrFacts Lib.TotalOrder Model.Power Spec.Power Proofs.PivotP Proofs.PowerP Model.AllFreqs Spec.AllFreqs.
Import ListNotations.
Local Open Scope list_scope.

Section AllFreqsP.
  Context {T F : Type} (leb : T -> T -> bool) (div : Z -> Z -> F).
  Hypothesis TOT : total_order leb.
  Notation lt := (lt leb). Notation le := (fun x y => leb x y = true).
  Notation series := (list (T * option F)).
  Definition ueq (a b : unit) : bool := true.
  Lemma ueq_eq a b : ueq a b = true <-> a = b.
  Proof. destruct a, b. unfold ueq. tauto. Qed.

  Lemma select_one (s : series) : select ueq (one_key s) tt = s.
  Proof.
    unfold select, one_key. induction s as [|[t v] s IH]; cbn; [reflexivity|]. now f_equal.
  Qed.
  Lemma one_key_sorted (s : series) : StronglySorted lt (map fst s) -> StronglySorted (before leb) (one_key s).
  Proof.
    intros H. unfold one_key. induction s as [|[t v] s IH]; cbn [map] in *; [constructor|].
    inversion H as [|? ? Hs Hf]; subst. constructor; auto. apply Forall_forall. intros r Hr. apply in_map_iff in Hr as ([t' v'] & <- & Hi).
    rewrite Forall_forall in Hf. assert (Hl : lt t t') by (apply Hf; apply in_map_iff; now exists (t', v')).
    split; cbn; auto. now apply lt_le.
  Qed.
  Lemma one_key_In (s : series) t v : In (t, tt, v) (one_key s) <-> In (t, v) s.
  Proof.
    unfold one_key. rewrite in_map_iff. split.
    - intros ([t' v'] & E & H). cbn in E. now injection E as -> ->.
    - intros H. now exists (t, v).
  Qed.

  (** Two series side by side. *)
  Lemma pair_ok a b (s1 s2 : series) : StronglySorted lt (map fst s1) -> StronglySorted lt (map fst s2) ->
    exists idx c1 c2, pair_frame leb a b s1 s2 = Ok (idx, [(a, c1); (b, c2)]) /\ StronglySorted lt idx /\
      (forall t, In t idx <-> exists v, In (t, v) (s1 ++ s2)) /\
      Forall2 (fun t c => CellOf le (one_key s1) tt t c) idx c1 /\ Forall2 (fun t c => CellOf le (one_key s2) tt t c) idx c2.
  Proof.
    intros H1 H2. unfold pair_frame.
    destruct (frame_ok leb TOT [(a, s1); (b, s2)]) as (idx & E & Hs & Hi); [constructor; [|constructor; [|constructor]]; assumption|].
    rewrite E. cbn [bind fst snd map].
    assert (Hi' : forall t, In t idx <-> exists v, In (t, v) (s1 ++ s2)).
    { intros t. rewrite Hi. split.
      - intros (ls & v & [<-|[<-|[]]] & Hv); exists v; apply in_or_app; auto.
      - intros (v & Hv). apply in_app_or in Hv as [Hv|Hv]; [exists (a, s1), v|exists (b, s2), v]; cbn; auto. }
    assert (C : forall s : series, StronglySorted lt (map fst s) -> incl (map fst s) idx ->
      Forall2 (fun t c => CellOf le (one_key s) tt t c) idx (pad None (map (at_time leb s) idx))).
    { intros s Hss Hin. replace (at_time leb s) with (at_time leb (select ueq (one_key s) tt)) by now rewrite select_one.
      apply (pad_known leb ueq TOT ueq_eq (one_key s) tt (one_key_sorted s Hss) idx (fun _ => False)); auto; try easy.
      intros t v Hv. right. apply Hin. apply one_key_In in Hv. apply in_map_iff. now exists (t, v). }
    exists idx, (pad None (map (at_time leb s1) idx)), (pad None (map (at_time leb s2) idx)).
    split; [reflexivity|]. split; [exact Hs|]. split; [exact Hi'|]. split; apply C; auto; intros t Ht; apply Hi'; apply in_map_iff in Ht as ([t' v] & <- & Hv);
      exists v; apply in_or_app; auto.
  Qed.

  Lemma scaled_In {K} n (rows : list (T * K * option Z)) t k v :
    In (t, k, v) (scaled div n rows) <-> exists w, In (t, k, w) rows /\ v = option_map (fun x => div x n) w.
  Proof.
    unfold scaled. rewrite in_map_iff. split.
    - intros ([[t' k'] w] & E & H). cbn in E. injection E as -> -> <-. eauto.
    - intros (w & H & ->). exists (t, k, w). auto.
  Qed.
  Lemma scaled_cell {K} n (rows : list (T * K * option Z)) k t c :
    CellOf le rows k t c -> CellOf le (scaled div n rows) k t (option_map (fun x => div x n) c).
  Proof.
    destruct c as [v|]; cbn.
    - intros (pre & t' & post & -> & Hl & Hn). exists (scaled div n pre), t', (scaled div n post). split; [|split; auto].
      + unfold scaled. rewrite map_app. reflexivity.
      + intros t'' w Hw. apply scaled_In in Hw as ([w'|] & Hw & E); [|discriminate]. eapply Hn; eauto.
    - intros H t' w Hw. apply scaled_In in Hw as ([w'|] & Hw & E); [|discriminate]. eapply H; eauto.
  Qed.

  (** The last known value of last known values. *)
  Lemma cell_compose {K} (rows : list (T * K * option F)) k idx col t c :
    StronglySorted lt idx -> (forall t v, In (t, k, v) rows -> In t idx) -> Forall2 (fun t c => CellOf le rows k t c) idx col ->
    CellOf le (one_key (combine idx col)) tt t c -> CellOf le rows k t c.
  Proof.
    intros Hs Hin Hc. 
    assert (Hget : forall u, In u idx -> exists x, In (u, x) (combine idx col) /\ CellOf le rows k u x).
    { clear - Hc. induction Hc; intros u Hu; [destruct Hu|]. destruct Hu as [<-|Hu].
      - exists y. split; [now left|auto].
      - destruct (IHHc u Hu) as (x' & Hx & Hcx). exists x'. split; [now right|auto]. }
    assert (Hcell : forall u x, In (u, x) (combine idx col) -> CellOf le rows k u x).
    { clear - Hc. induction Hc; intros u x' Hu; cbn in Hu; [destruct Hu|]. destruct Hu as [[= <- <-]|Hu]; auto. }
    destruct c as [v|]; cbn.
    - intros (pre & t' & post & E & Hl & Hn).
      assert (Ht' : In (t', Some v) (combine idx col)) by (apply one_key_In; rewrite E; apply in_elt).
      pose proof (Hcell _ _ Ht') as Hk. cbn in Hk. destruct Hk as (p & t1 & q & Er & H1 & H2).
      exists p, t1, q. split; auto. split; [apply (to_trans _ TOT) with t'; auto|].
      intros t'' w Hw Hle. apply (H2 t'' w Hw).
      (* otherwise t'' is in the index, later than t', with a value *)
      destruct (leb t'' t') eqn:El; auto. exfalso.
      assert (Hi : In t'' idx) by (apply (Hin t'' (Some w)); rewrite Er; apply in_or_app; right; now right).
      destruct (Hget _ Hi) as ([x|] & Hx & Hcx).
      + apply one_key_In in Hx. rewrite E in Hx. apply in_app_or in Hx as [Hx|[Hx|Hx]].
        * (* earlier entries of the index are earlier *)
          assert (Hlt : lt t'' t').
          { assert (Hm : map fst (combine idx col) = map (fun r => fst (fst r)) pre ++ t' :: map (fun r => fst (fst r)) post).
            { transitivity (map (fun r => fst (fst r)) (one_key (combine idx col))).
              - unfold one_key. rewrite map_map. reflexivity.
              - rewrite E, map_app. reflexivity. }
            assert (Hss : StronglySorted lt (map fst (combine idx col))).
            { clear - Hs Hc. induction Hc; cbn [combine map]; [constructor|]. inversion Hs as [|? ? Hs' Hf]; subst. constructor; auto.
              apply Forall_forall. intros u Hu. rewrite Forall_forall in Hf. apply Hf. apply in_map_iff in Hu as ([u' x'] & <- & Hu). eapply in_combine_l; eauto. }
            rewrite Hm in Hss. clear - Hss Hx TOT.
            assert (Hp : In t'' (map (fun r => fst (fst r)) pre)) by (apply in_map_iff; now exists (t'', tt, Some x)).
            revert Hss Hp. generalize (map (fun r : T * unit * option F => fst (fst r)) pre) as l. clear Hx. induction l as [|y l IH]; cbn; [easy|].
            intros Hss [->|Hi]; inversion Hss as [|? ? Hs' Hf]; subst; auto. rewrite Forall_forall in Hf. apply Hf. apply in_elt. }
          apply lt_le in Hlt; auto. unfold TotalOrder.le in Hlt. congruence.
        * injection Hx as <- _. rewrite (le_refl leb TOT) in El. discriminate.
        * now apply (Hn t'' x).
      + cbn in Hcx. apply (Hcx t'' w); [|apply (le_refl leb TOT)]. rewrite Er. apply in_or_app. right. now right.
    - intros H t' w Hw Hle. assert (Hi : In t' idx) by (eapply Hin; eauto).
      destruct (Hget _ Hi) as ([x|] & Hx & Hcx).
      + apply one_key_In in Hx. now apply (H t' x).
      + cbn in Hcx. apply (Hcx t' w); auto. apply (le_refl leb TOT).
  Qed.

  Definition mhz (n : Z) (tab : list (str * list (option Z))) : list (str * list (option F)) :=
    map (fun lc => (fst lc, map (option_map (fun v => div v n)) (snd lc))) tab.
  Lemma dget_mhz n l tab : dget eqs l (mhz n tab) = option_map (map (option_map (fun v => div v n))) (dget eqs l tab).
  Proof. induction tab as [|[l' c] tab IH]; cbn; [reflexivity|]. destruct (eqs l l'); auto. Qed.
  Lemma dget_In {V} l (d : list (str * V)) v : dget eqs l d = Some v -> In (l, v) d.
  Proof.
    induction d as [|[l' w] d IH]; cbn; [discriminate|]. destruct (eqs l l') eqn:E; auto. intros [= ->]. apply eqs_eq in E. subst. now left.
  Qed.
  Lemma dget_None {V} l (d : list (str * V)) : dget eqs l d = None <-> ~ In l (map fst d).
  Proof.
    induction d as [|[l' w] d IH]; cbn; [tauto|]. destruct (eqs l l') eqn:E.
    - apply eqs_eq in E. subst. split; [discriminate|]. intros H. elim H. now left.
    - apply eqs_neq in E. rewrite IH. split; [intros H [H'|H']; [congruence|auto]|tauto].
  Qed.
  Lemma dget_unique {V} l (d : list (str * V)) v : NoDup (map fst d) -> In (l, v) d -> dget eqs l d = Some v.
  Proof.
    induction d as [|[l' w] d IH]; cbn; [easy|]. intros Hn [H|H]; inversion Hn; subst.
    - injection H as -> ->. now rewrite eqs_refl.
    - destruct (eqs l l') eqn:E; auto. apply eqs_eq in E. subst. elim H2. apply in_map_iff. now exists (l', v).
  Qed.
  Lemma map_label_inj (m : list (str * str)) k k' l : NoDup (map snd m) -> dget eqs k m = Some l -> dget eqs k' m = Some l -> k = k'.
  Proof.
    intros Hn H H'. apply dget_In in H, H'. induction m as [|[a b] m IH]; cbn in *; [easy|]. inversion Hn; subst.
    destruct H as [H|H], H' as [H'|H']; auto.
    - congruence.
    - injection H as -> ->. elim H2. apply in_map_iff. now exists (k', l).
    - injection H' as -> ->. elim H2. apply in_map_iff. now exists (k, l).
  Qed.

  Lemma Forall2_length {A B} (R : A -> B -> Prop) l r : Forall2 R l r -> List.length l = List.length r.
  Proof. induction 1; cbn; congruence. Qed.
  Lemma Forall2_impl {A B} (R R' : A -> B -> Prop) l r : (forall a b, R a b -> R' a b) -> Forall2 R l r -> Forall2 R' l r.
  Proof. intros H. induction 1; constructor; auto. Qed.
  (** What [get_all_freqs] holds of a labelled mask. *)
  Lemma cpu_column cols m (rows : list (T * str * option Z)) : good_rows leb cols m rows -> rows <> [] ->
    NoDup (map fst m) -> NoDup (map snd m) ->
    exists f, cpu_freqs leb div cols (fun k => dget eqs k m) rows = Ok f /\
      (forall l, column l f = Err EKey <-> ~ exists k, In k cols /\ In (k, l) m) /\
      forall k l, In (k, l) m -> In k cols ->
      exists col, column l f = Ok (combine (fst f) col) /\ StronglySorted lt (fst f) /\ List.length col = List.length (fst f) /\
        (forall t, In t (fst f) <-> exists k v, In (t, k, v) rows) /\
        Forall2 (fun t c => CellOf le (scaled div 1000 rows) k t c) (fst f) col.
  Proof.
    intros (Hb & Hk & Hl) Hne Hn1 Hn2.
    destruct (freqs_table leb eqs TOT eqs_eq div cols (fun k => dget eqs k m) rows) as (idx & tab & (Hs & Hi & Hm & Hc) & E); auto.
    { intros k Hik H. apply dget_None in H. apply H. auto. }
    { intros k k' H H' Hd. destruct (dget eqs k m) as [l|] eqn:El; [|apply dget_None in El; elim El; auto].
      apply (map_label_inj m k k' l); auto. }
    unfold cpu_freqs. destruct rows as [|r rows]; [congruence|]. rewrite E. eexists. split; [reflexivity|].
    assert (Hlab : forall l, In l (map fst tab) <-> exists k, In k cols /\ In (k, l) m).
    { intros l. split.
      - intros H. assert (Hx : In (Some l) (map (fun lc => Some (fst lc)) tab)) by (apply in_map_iff in H as (lc & <- & H); apply in_map_iff; eauto).
        rewrite Hm in Hx. apply in_map_iff in Hx as (k & Hd & Hik). exists k. split; auto. now apply dget_In.
      - intros (k & Hik & Hkl). assert (Hx : In (Some l) (map (fun k => dget eqs k m) cols)).
        { apply in_map_iff. exists k. split; auto. now apply dget_unique. }
        rewrite <- Hm in Hx. apply in_map_iff in Hx as (lc & [= <-] & Hx). apply in_map_iff. eauto. }
    fold (mhz 1000 tab). split.
    - intros l. rewrite <- Hlab. unfold column. cbn [fst snd]. rewrite dget_mhz.
      destruct (dget eqs l tab) as [c|] eqn:Ec; cbn [option_map].
      + split; [discriminate|]. intros H. elim H. apply dget_In in Ec. apply in_map_iff. now exists (l, c).
      + apply dget_None in Ec. tauto.
    - intros k l Hkl Hik. cbn [fst snd]. unfold column. cbn [fst snd]. rewrite dget_mhz.
      destruct (dget eqs l tab) as [c|] eqn:Ec; cbn [option_map].
      2:{ apply dget_None in Ec. elim Ec. apply Hlab. eauto. }
      apply dget_In in Ec. specialize (Hc k l c Ec (dget_unique _ _ _ Hn1 Hkl) Hik).
      eexists. split; [reflexivity|]. split; auto. split; [rewrite map_length; symmetry; eapply Forall2_length; eauto|]. split; auto.
      clear - Hc. induction Hc; cbn [map]; constructor; auto. now apply scaled_cell.
  Qed.
  Lemma combine_fst (idx : list T) (col : list (option F)) : List.length col = List.length idx -> map fst (combine idx col) = idx.
  Proof. revert col. induction idx as [|t idx IH]; intros [|c col] H; cbn in *; try discriminate; auto. f_equal. auto. Qed.

  Lemma cpu_pair a b k (rows1 rows2 : list (T * str * option F)) idx1 idx2 col1 col2 :
    StronglySorted lt idx1 -> StronglySorted lt idx2 -> List.length col1 = List.length idx1 -> List.length col2 = List.length idx2 ->
    (forall t, In t idx1 <-> exists k v, In (t, k, v) rows1) -> (forall t, In t idx2 <-> exists k v, In (t, k, v) rows2) ->
    Forall2 (fun t c => CellOf le rows1 k t c) idx1 col1 -> Forall2 (fun t c => CellOf le rows2 k t c) idx2 col2 ->
    exists f, pair_frame leb a b (combine idx1 col1) (combine idx2 col2) = Ok f /\ InOut leb a b k rows1 rows2 f.
  Proof.
    intros S1 S2 L1 L2 I1 I2 C1 C2.
    destruct (pair_ok a b (combine idx1 col1) (combine idx2 col2)) as (idx & c1 & c2 & E & Hs & Hi & F1 & F2); rewrite ?combine_fst; auto.
    eexists. split; [exact E|]. exists idx, c1, c2. split; auto. split; auto. split; [|split].
    - intros t. rewrite Hi. split.
      + intros (v & Hv). apply in_app_or in Hv as [Hv|Hv]; apply in_combine_l in Hv; [apply I1 in Hv|apply I2 in Hv]; destruct Hv as (k' & w & H);
          exists k', w; apply in_or_app; auto.
      + intros (k' & v & Hv). apply in_app_or in Hv as [Hv|Hv].
        * assert (H : In t idx1) by (apply I1; eauto). rewrite <- (combine_fst idx1 col1) in H by auto. apply in_map_iff in H as ([t' x] & <- & H). exists x. apply in_or_app. auto.
        * assert (H : In t idx2) by (apply I2; eauto). rewrite <- (combine_fst idx2 col2) in H by auto. apply in_map_iff in H as ([t' x] & <- & H). exists x. apply in_or_app. auto.
    - eapply Forall2_impl; [|exact F1]. intros t c Hc. apply (cell_compose rows1 k idx1 col1 t c); auto. intros t' v Hv. apply I1. eauto.
    - eapply Forall2_impl; [|exact F2]. intros t c Hc. apply (cell_compose rows2 k idx2 col2 t c); auto. intros t' v Hv. apply I2. eauto.
  Qed.
  Lemma gpu_pair a b (s1 s2 : list (T * option Z)) : StronglySorted lt (map fst s1) -> StronglySorted lt (map fst s2) ->
    exists f, pair_frame leb a b (gpu_freqs div s1) (gpu_freqs div s2) = Ok f /\
      InOut leb a b tt (scaled div 1000000 (one_key s1)) (scaled div 1000000 (one_key s2)) f.
  Proof.
    intros H1 H2. assert (M : forall s : list (T * option Z), map fst (gpu_freqs div s) = map fst s) by (intros s; unfold gpu_freqs; now rewrite map_map).
    assert (K : forall s : list (T * option Z), scaled div 1000000 (one_key s) = one_key (gpu_freqs div s)) by (intros s; unfold scaled, one_key, gpu_freqs; now rewrite !map_map).
    destruct (pair_ok a b (gpu_freqs div s1) (gpu_freqs div s2)) as (idx & c1 & c2 & E & Hs & Hi & F1 & F2); rewrite ?M; auto.
    eexists. split; [exact E|]. rewrite !K. exists idx, c1, c2. split; auto. split; auto. split; auto.
    intros t. rewrite Hi. split.
    - intros (v & Hv). exists tt, v. apply in_app_or in Hv as [Hv|Hv]; apply in_or_app; [left|right]; now apply one_key_In.
    - intros ([] & v & Hv). exists v. apply in_app_or in Hv as [Hv|Hv]; apply in_or_app; [left|right]; now apply one_key_In.
  Qed.

  Notation times_ok d := (match d with Some s => StronglySorted lt (map fst s) | None => True end).
  Theorem all_freqs_ok in_cols out_cols m (in_rows out_rows : list (T * str * option Z)) (dev_in dev_out : option (list (T * option Z))) :
    good_rows leb in_cols m in_rows -> good_rows leb out_cols m out_rows -> in_rows <> [] -> out_rows <> [] ->
    NoDup (map fst m) -> NoDup (map snd m) -> times_ok dev_in -> times_ok dev_out ->
    (forall k, In k (map fst m) -> In k in_cols /\ In k out_cols) ->
    exists cpus gpu, get_all_freqs_data leb div in_cols out_cols m in_rows out_rows dev_in dev_out = Ok (cpus ++ gpu) /\
      Forall2 (fun kl p => fst p = snd kl /\
        InOut leb (snd kl ++ $"_freq_in") (snd kl ++ $"_freq_out") (fst kl) (scaled div 1000 in_rows) (scaled div 1000 out_rows) (snd p)) m cpus /\
      match dev_in, dev_out with
      | Some i, Some o => exists f, gpu = [($"GPU", f)] /\
          InOut leb $"gpu_freq_in" $"gpu_freq_out" tt (scaled div 1000000 (one_key i)) (scaled div 1000000 (one_key o)) f
      | _, _ => gpu = []
      end.
  Proof.
    intros G1 G2 N1 N2 D1 D2 T1 T2 Hall.
    destruct (cpu_column in_cols m in_rows G1 N1 D1 D2) as (fi & Ei & _ & Ci).
    destruct (cpu_column out_cols m out_rows G2 N2 D1 D2) as (fo & Eo & _ & Co).
    unfold get_all_freqs_data. rewrite Ei, Eo. cbn [bind].
    set (step := fun l : str => _).
    assert (Hm : exists cpus, mapM step (map snd m) = Ok cpus /\ Forall2 (fun kl p => fst p = snd kl /\
        InOut leb (snd kl ++ $"_freq_in") (snd kl ++ $"_freq_out") (fst kl) (scaled div 1000 in_rows) (scaled div 1000 out_rows) (snd p)) m cpus).
    { assert (Hsub : forall m', incl m' m -> exists cpus, mapM step (map snd m') = Ok cpus /\ Forall2 (fun kl p => fst p = snd kl /\
        InOut leb (snd kl ++ $"_freq_in") (snd kl ++ $"_freq_out") (fst kl) (scaled div 1000 in_rows) (scaled div 1000 out_rows) (snd p)) m' cpus).
      { induction m' as [|[k l] m' IH]; intros Hin.
        - exists []. split; [reflexivity|constructor].
        - destruct IH as (cpus & E & HF); [intros x Hx; apply Hin; now right|].
          assert (Hkl : In (k, l) m) by (apply Hin; now left).
          destruct (Hall k) as [Hk1 Hk2]; [apply in_map_iff; now exists (k, l)|].
          destruct (Ci k l Hkl Hk1) as (c1 & E1 & S1 & L1 & I1 & F1). destruct (Co k l Hkl Hk2) as (c2 & E2 & S2 & L2 & I2 & F2).
          assert (Sc : forall (rows : list (T * str * option Z)) t, (exists k v, In (t, k, v) rows) <-> exists (k : str) v, In (t, k, v) (scaled div 1000 rows)).
          { intros rows t. split; intros (k' & v & H).
            - exists k', (option_map (fun x => div x 1000) v). apply scaled_In. eauto.
            - apply scaled_In in H as (w & H & _). eauto. }
          destruct (cpu_pair (l ++ $"_freq_in") (l ++ $"_freq_out") k (scaled div 1000 in_rows) (scaled div 1000 out_rows) (fst fi) (fst fo) c1 c2) as (f & Ef & Hf); auto.
          { intros t. rewrite I1. apply Sc. }
          { intros t. rewrite I2. apply Sc. }
          exists ((l, f) :: cpus). split.
          + cbn [map snd mapM]. unfold step at 1. rewrite E1, E2. cbn [bind]. rewrite Ef. cbn [bind]. rewrite E. reflexivity.
          + constructor; auto. }
      apply Hsub. intros x Hx. exact Hx. }
    destruct Hm as (cpus & -> & HF). cbn [bind]. exists cpus.
    destruct dev_in as [i|], dev_out as [o|].
    - destruct (gpu_pair $"gpu_freq_in" $"gpu_freq_out" i o T1 T2) as (f & E & Hf). rewrite E. cbn [bind].
      exists [($"GPU", f)]. split; auto. split; auto. exists f. auto.
    - exists []. rewrite app_nil_r. auto.
    - exists []. rewrite app_nil_r. auto.
    - exists []. rewrite app_nil_r. auto.
  Qed.

  (** A label whose mask is missing in one of the events makes the call fail. *)
  Theorem all_freqs_missing in_cols out_cols m (in_rows out_rows : list (T * str * option Z)) dev_in dev_out k :
    good_rows leb in_cols m in_rows -> good_rows leb out_cols m out_rows ->
    NoDup (map fst m) -> NoDup (map snd m) -> In k (map fst m) -> ~ (In k in_cols /\ In k out_cols) ->
    get_all_freqs_data leb div in_cols out_cols m in_rows out_rows dev_in dev_out = Err EKey.
  Proof.
    intros G1 G2 D1 D2 Hk Hno. unfold get_all_freqs_data.
    destruct in_rows as [|r1 in_rows]; [reflexivity|].
    destruct (cpu_column in_cols m (r1 :: in_rows) G1 ltac:(discriminate) D1 D2) as (fi & Ei & Mi & Ci). rewrite Ei. cbn [bind].
    destruct out_rows as [|r2 out_rows]; [reflexivity|].
    destruct (cpu_column out_cols m (r2 :: out_rows) G2 ltac:(discriminate) D1 D2) as (fo & Eo & Mo & Co). rewrite Eo. cbn [bind].
    set (step := fun l : str => _).
    assert (Hm : mapM step (map snd m) = Err EKey); [|now rewrite Hm].
    assert (Uniq : forall k k' l, In (k, l) m -> In (k', l) m -> k = k').
    { intros k1 k2 l H1 H2. apply (map_label_inj m k1 k2 l); auto; now apply dget_unique. }
    assert (Hcol : forall k0 l, In (k0, l) m -> (column l fi = Err EKey <-> ~ In k0 in_cols) /\ (column l fo = Err EKey <-> ~ In k0 out_cols)).
    { intros k0 l H. rewrite Mi, Mo. split; (split; [intros Hn Hi; apply Hn; eauto|intros Hn (k' & Hi & Hl); rewrite (Uniq _ _ _ H Hl) in Hn; auto]). }
    assert (Hstep : forall k0 l, In (k0, l) m -> (exists p, step l = Ok p) \/ step l = Err EKey).
    { intros k0 l H. destruct (Hcol k0 l H) as [Hc1 Hc2]. unfold step. destruct (in_dec (list_eq_dec ascii_dec) k0 in_cols) as [I1|I1].
      - destruct (in_dec (list_eq_dec ascii_dec) k0 out_cols) as [I2|I2].
        + left. destruct (Ci k0 l H I1) as (c1 & E1 & S1 & L1 & J1 & F1). destruct (Co k0 l H I2) as (c2 & E2 & S2 & L2 & J2 & F2).
          rewrite E1, E2. cbn [bind].
          destruct (pair_ok (l ++ $"_freq_in") (l ++ $"_freq_out") (combine (fst fi) c1) (combine (fst fo) c2)) as (idx & d1 & d2 & E & _); rewrite ?combine_fst; auto.
          rewrite E. cbn [bind]. eauto.
        + right. destruct (Ci k0 l H I1) as (c1 & E1 & _). rewrite E1. cbn [bind]. apply Hc2 in I2. now rewrite I2.
      - right. apply Hc1 in I1. now rewrite I1. }
    apply in_map_iff in Hk as ([k' l] & Ek & Hkl). cbn in Ek. subst k'.
    assert (Hbad : step l = Err EKey).
    { destruct (Hcol k l Hkl) as [Hc1 Hc2]. unfold step. destruct (in_dec (list_eq_dec ascii_dec) k in_cols) as [I1|I1].
      - destruct (Ci k l Hkl I1) as (c1 & E1 & _). rewrite E1. cbn [bind]. assert (I2 : ~ In k out_cols) by tauto. apply Hc2 in I2. now rewrite I2.
      - apply Hc1 in I1. now rewrite I1. }
    assert (Hsub : forall m', incl m' m -> In l (map snd m') -> mapM step (map snd m') = Err EKey).
    { induction m' as [|[k1 l1] m' IH]; intros Hin Hl; cbn in Hl; [easy|]. cbn [map snd mapM].
      destruct (Hstep k1 l1) as [(p & Ep)|Ep]; [apply Hin; now left| |now rewrite Ep]. rewrite Ep. cbn [bind].
      rewrite IH; auto; [intros x Hx; apply Hin; now right|]. destruct Hl as [->|Hl]; auto. congruence. }
    apply Hsub; [intros x Hx; exact Hx|]. apply in_map_iff. now exists (k, l).
  Qed.

  (** Repeated times cannot be put side by side with other times. *)
  Theorem all_freqs_repeat in_cols out_cols m (in_rows out_rows : list (T * str * option Z)) i o ret :
    get_all_freqs_data leb div in_cols out_cols m in_rows out_rows None None = Ok ret ->
    map fst i <> map fst o -> ~ NoDup (map fst i) \/ ~ NoDup (map fst o) ->
    get_all_freqs_data leb div in_cols out_cols m in_rows out_rows (Some i) (Some o) = Err EValue.
  Proof.
    unfold get_all_freqs_data. intros H Hne Hdup.
    destruct (cpu_freqs leb div in_cols _ in_rows) as [fi|e]; [|discriminate]. cbn [bind] in *.
    destruct (cpu_freqs leb div out_cols _ out_rows) as [fo|e]; [|discriminate]. cbn [bind] in *.
    destruct (mapM _ (map snd m)) as [cpus|e]; [|discriminate]. cbn [bind] in *.
    assert (M : forall s : list (T * option Z), map fst (gpu_freqs div s) = map fst s) by (intros s; unfold gpu_freqs; now rewrite map_map).
    unfold pair_frame, frame_of. cbn [forallb snd]. rewrite !M.
    destruct (eq_list leb (map fst o) (map fst i)) eqn:E; [apply eq_list_eq in E; auto; congruence|]. cbn [andb].
    destruct (nodup_b leb (map fst i)) eqn:E1; [|reflexivity]. destruct (nodup_b leb (map fst o)) eqn:E2; [|reflexivity].
    apply nodup_b_spec in E1, E2; auto. tauto.
  Qed.
End AllFreqsP.
