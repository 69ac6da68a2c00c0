(** apply_callbacks. *)
From Coq Require Import List Ascii String ZArith Bool Lia Sorted Permutation.
From Verif Require Import Lib.PyStr Lib.PyStrFacts Lib.F64 Model.Base Model.Line Model.Registry Model.Populate Model.Callbacks
  Spec.Trace Proofs.PopulateP.
Import ListNotations.
Local Open Scope list_scope.

Section P.
  Context {R : Type} (line : R -> Z).
  Notation pending := (@pending R).
  Definition rows_of (e : str * (R * list R)) : list R := fst (snd e) :: snd (snd e).
  Definition size (evs : pending) : nat := fold_right (fun e n => (S (List.length (snd (snd e))) + n)%nat) 0%nat evs.
  Definition pick (name : str) (calls : list (str * R)) : list R := map snd (filter (fun c => eqs name (fst c)) calls).
  Definition pend (name : str) (evs : pending) : list R := flat_map (fun e => if eqs name (fst e) then rows_of e else []) evs.

  Lemma least_spec evs : forall b, In (least line b evs) (b :: evs) /\
    forall e, In e (b :: evs) -> (line (fst (snd (least line b evs))) <= line (fst (snd e)))%Z.
  Proof.
    induction evs as [|x evs IH]; intros b; cbn [least].
    - split; [now left|]. intros e [<-|[]]. lia.
    - destruct (Z.ltb_spec (line (fst (snd x))) (line (fst (snd b)))).
      + destruct (IH x) as [H1 H2]. split; [destruct H1 as [H1|H1]; cbn; auto|]. intros e He.
        destruct He as [<-|He]; [|now apply H2]. specialize (H2 x (or_introl eq_refl)). lia.
      + destruct (IH b) as [H1 H2]. split; [destruct H1 as [H1|H1]; cbn; auto|]. intros e He.
        destruct He as [<-|[<-|He]]; [now apply H2; left| |now apply H2; right]. specialize (H2 b (or_introl eq_refl)). lia.
  Qed.
  Lemma eqs_refl (s : str) : eqs s s = true.
  Proof. now apply eqs_eq. Qed.
  Lemma advance_keys name (evs : pending) x : In x (map fst (advance name evs)) -> In x (map fst evs).
  Proof.
    induction evs as [|[n [r rest]] evs IH]; cbn [advance]; auto. destruct (eqs n name).
    - destruct rest; cbn; auto.
    - cbn. intros [H|H]; auto.
  Qed.
  Lemma advance_NoDup name (evs : pending) : NoDup (map fst evs) -> NoDup (map fst (advance name evs)).
  Proof.
    induction evs as [|[n [r rest]] evs IH]; cbn [advance map fst]; auto. intros H. inversion H as [|? ? H1 H2]; subst.
    destruct (eqs n name); [destruct rest; cbn; auto|]. cbn [map fst]. constructor; auto. intros Hi. now apply advance_keys in Hi.
  Qed.
  Lemma size_cons e (evs : pending) : size (e :: evs) = S (List.length (snd (snd e)) + size evs).
  Proof. reflexivity. Qed.
  Lemma advance_size name r rest (evs : pending) : In (name, (r, rest)) evs -> S (size (advance name evs)) = size evs.
  Proof.
    induction evs as [|[n [r0 rest0]] evs IH]; intros Hi; [destruct Hi|]. cbn [advance]. destruct (eqs n name) eqn:E.
    - destruct rest0; rewrite !size_cons; cbn [snd fst List.length]; lia.
    - destruct Hi as [Hi|Hi]; [injection Hi as -> -> ->; rewrite eqs_refl in E; discriminate|].
      specialize (IH Hi). rewrite !size_cons. cbn [snd fst]. lia.
  Qed.
  Lemma pend_notin name (evs : pending) : ~ In name (map fst evs) -> pend name evs = [].
  Proof.
    induction evs as [|e evs IH]; intros H; auto. cbn [pend flat_map]. fold (pend name evs). cbn in H.
    destruct (eqs name (fst e)) eqn:E; [apply eqs_eq in E; exfalso; apply H; left; congruence|]. apply IH. tauto.
  Qed.
  Lemma pend_advance name r rest (evs : pending) m : NoDup (map fst evs) -> In (name, (r, rest)) evs ->
    pend m evs = (if eqs m name then [r] else []) ++ pend m (advance name evs).
  Proof.
    induction evs as [|[n [r0 rest0]] evs IH]; intros Hn Hi; [destruct Hi|]. cbn [map fst] in Hn. inversion Hn as [|? ? H1 H2]; subst.
    cbn [advance]. destruct (eqs n name) eqn:E.
    - apply eqs_eq in E as ->.
      assert (E0 : (r0, rest0) = (r, rest)).
      { destruct Hi as [Hi|Hi]; [congruence|]. exfalso. apply H1. apply (in_map fst) in Hi. exact Hi. }
      injection E0 as -> ->. cbn [pend flat_map fst snd]. fold (pend m evs).
      destruct (eqs m name) eqn:Em.
      + destruct rest; cbn [pend flat_map fst snd rows_of app]; auto. rewrite Em. reflexivity.
      + destruct rest; cbn [pend flat_map fst snd rows_of app]; auto. now rewrite Em.
    - destruct Hi as [Hi|Hi]; [injection Hi as -> -> ->; rewrite eqs_refl in E; discriminate|].
      cbn [pend flat_map fst snd]. fold (pend m evs) (pend m (advance name evs)). rewrite (IH H2 Hi).
      destruct (eqs m n) eqn:Em; cbn [app]; auto. apply eqs_eq in Em as ->. rewrite E. reflexivity.
  Qed.
  Lemma advance_In name r rest (evs : pending) e : In (name, (r, rest)) evs -> NoDup (map fst evs) -> In e (advance name evs) ->
    In e evs \/ (exists r' rest', rest = r' :: rest' /\ e = (name, (r', rest'))).
  Proof.
    induction evs as [|[n [r0 rest0]] evs IH]; intros Hi Hn He; [destruct Hi|]. cbn [map fst] in Hn. inversion Hn as [|? ? H1 H2]; subst.
    cbn [advance] in He. destruct (eqs n name) eqn:E.
    - apply eqs_eq in E as ->.
      assert (E0 : (r0, rest0) = (r, rest)).
      { destruct Hi as [Hi|Hi]; [congruence|]. exfalso. apply H1. apply (in_map fst) in Hi. exact Hi. }
      injection E0 as -> ->. destruct rest as [|r' rest']; [left; now right|]. destruct He as [<-|He]; [right; eauto|left; now right].
    - destruct Hi as [Hi|Hi]; [injection Hi as -> -> ->; rewrite eqs_refl in E; discriminate|].
      destruct He as [<-|He]; [left; now left|]. destruct (IH Hi H2 He) as [G|G]; auto. left. now right.
  Qed.
  Lemma least_In e rest : In (least line e rest) (e :: rest).
  Proof. apply least_spec. Qed.

  (** The loop makes every pending call, per event in order, and no other. *)
  Lemma loop_ok fuel : forall evs, NoDup (map fst evs) -> (size evs <= fuel)%nat ->
    exists calls, loop line fuel evs = Ok calls /\ (forall m, pick m calls = pend m evs).
  Proof.
    induction fuel as [|fuel IH]; intros evs Hn Hs.
    - destruct evs as [|e evs]; [exists []; auto|]. cbn in Hs. lia.
    - destruct evs as [|e evs]; [exists []; auto|]. cbn [loop].
      destruct (least line e evs) as [name [r rest]] eqn:El. pose proof (least_In e evs) as Hi. rewrite El in Hi.
      cbn [fst snd].
      pose proof (advance_size name r rest _ Hi) as Hz.
      destruct (IH (advance name (e :: evs)) (advance_NoDup _ _ Hn) ltac:(lia)) as (calls & -> & Hc).
      cbn [bind]. eexists. split; [reflexivity|]. intros m. rewrite (pend_advance name r rest _ m Hn Hi). rewrite <- Hc.
      unfold pick. cbn [filter fst]. destruct (eqs m name); reflexivity.
  Qed.
  (** Calls are in ascending line order when each event's rows are. *)
  Definition asc (l : list R) : Prop := StronglySorted (fun a b => (line a <= line b)%Z) l.
  Lemma loop_sorted fuel : forall evs calls, NoDup (map fst evs) -> Forall (fun e => asc (rows_of e)) evs ->
    loop line fuel evs = Ok calls ->
    StronglySorted (fun a b => (line (snd a) <= line (snd b))%Z) calls /\
    (forall c e, In c calls -> (forall x, In x evs -> (line e <= line (fst (snd x)))%Z) -> (line e <= line (snd c))%Z).
  Proof.
    induction fuel as [|fuel IH]; intros evs calls Hn Ha H.
    - destruct evs; [|discriminate]. injection H as <-. split; [constructor|]. intros c e [].
    - destruct evs as [|e0 evs]; [injection H as <-; split; [constructor|intros c e []]|]. cbn [loop] in H.
      destruct (least line e0 evs) as [name [r rest]] eqn:El. destruct (least_spec evs e0) as [Hi Hmin]. rewrite El in Hi, Hmin.
      cbn [fst snd] in *. destruct (loop line fuel (advance name (e0 :: evs))) as [cs|] eqn:Ec; [|discriminate]. cbn [bind] in H. injection H as <-.
      assert (Har : asc (r :: rest)) by (rewrite Forall_forall in Ha; apply (Ha _ Hi)).
      assert (Ha' : Forall (fun e => asc (rows_of e)) (advance name (e0 :: evs))).
      { apply Forall_forall. intros x Hx. destruct (advance_In _ _ _ _ _ Hi Hn Hx) as [Hx'|(r' & rest' & -> & ->)].
        - rewrite Forall_forall in Ha. now apply Ha.
        - inversion Har; subst. assumption. }
      assert (Hge : forall x, In x (advance name (e0 :: evs)) -> (line r <= line (fst (snd x)))%Z).
      { intros x Hx. destruct (advance_In _ _ _ _ _ Hi Hn Hx) as [Hx'|(r' & rest' & -> & ->)].
        - now apply Hmin.
        - inversion Har as [|? ? _ F]; subst. inversion F; subst. assumption. }
      destruct (IH _ _ (advance_NoDup _ _ Hn) Ha' Ec) as [S1 S2]. split.
      + constructor; auto. apply Forall_forall. intros c Hc. cbn [snd]. now apply S2.
      + intros c e [<-|Hc] He; [cbn [snd]; apply (He _ Hi)|]. apply (S2 c e Hc). intros x Hx. specialize (He _ Hi). cbn [fst snd] in He.
        specialize (Hge x Hx). lia.
  Qed.

  Lemma start_keys frames x : In x (map fst (start frames)) -> In x (map fst (frames : list (str * list R))).
  Proof.
    induction frames as [|[n rs] fs IH]; auto. cbn [start flat_map fst snd]. destruct rs; cbn; auto. intros [H|H]; auto.
  Qed.
  Lemma start_NoDup frames : NoDup (map fst frames) -> NoDup (map fst (start (frames : list (str * list R)))).
  Proof.
    induction frames as [|[n rs] fs IH]; cbn [map fst]; intros H; [constructor|]. inversion H as [|? ? H1 H2]; subst.
    cbn [start flat_map fst snd]. fold (start fs). destruct rs; cbn [app]; auto. cbn [map fst]. constructor; auto.
    intros Hi. now apply start_keys in Hi.
  Qed.
  Lemma start_size (frames : list (str * list R)) : size (start frames) = total frames.
  Proof. induction frames as [|[n rs] fs IH]; auto. cbn [start flat_map fst snd total fold_right]. fold (start fs) (total fs). destruct rs; cbn [app]; auto. rewrite size_cons. cbn [fst snd List.length]. lia. Qed.
  Lemma start_pend (frames : list (str * list R)) m : pend m (start frames) = flat_map (fun f => if eqs m (fst f) then snd f else []) frames.
  Proof.
    induction frames as [|[n rs] fs IH]; auto. cbn [start flat_map fst snd]. fold (start fs). rewrite <- IH. clear IH.
    destruct rs; cbn [app]; [now destruct (eqs m n)|]. cbn [pend flat_map fst snd]. reflexivity.
  Qed.
  Lemma find_rows (frames : list (str * list R)) name rs : NoDup (map fst frames) -> In (name, rs) frames ->
    flat_map (fun f => if eqs name (fst f) then snd f else []) frames = rs.
  Proof.
    induction frames as [|[n l] fs IH]; intros Hn Hi; [destruct Hi|]. cbn [map fst] in Hn. inversion Hn as [|? ? H1 H2]; subst.
    cbn [flat_map fst snd]. destruct Hi as [Hi|Hi].
    - injection Hi as -> ->. rewrite eqs_refl. rewrite <- (app_nil_r rs) at 2. f_equal.
      clear - H1. induction fs as [|[m k] fs IH]; auto. cbn [flat_map fst snd]. cbn in H1.
      destruct (eqs name m) eqn:E; [apply eqs_eq in E; exfalso; apply H1; left; congruence|]. apply IH. tauto.
    - destruct (eqs name n) eqn:E; [apply eqs_eq in E as ->; exfalso; apply H1; apply (in_map fst) in Hi; exact Hi|]. now apply IH.
  Qed.
  Lemma no_rows (frames : list (str * list R)) name : ~ In name (map fst frames) ->
    flat_map (fun f => if eqs name (fst f) then snd f else []) frames = [].
  Proof.
    induction frames as [|[m k] fs IH]; intros H1; auto. cbn [flat_map fst snd]. cbn in H1.
    destruct (eqs name m) eqn:E; [apply eqs_eq in E; exfalso; apply H1; left; congruence|]. apply IH. tauto.
  Qed.

  Theorem calls_exact frames : NoDup (map fst frames) -> exists calls, callback_calls line frames = Ok calls /\
    (forall name rs, In (name, rs) frames -> map snd (filter (fun c => eqs name (fst c)) calls) = rs) /\
    (forall c, In c calls -> exists rs, In (fst c, rs) frames /\ In (snd c) rs).
  Proof.
    intros Hn. destruct (loop_ok (total frames) (start frames) (start_NoDup _ Hn)) as (calls & E & Hc); [rewrite start_size; lia|].
    exists calls. split; [exact E|].
    assert (G : forall m, map snd (filter (fun c => eqs m (fst c)) calls) = flat_map (fun f => if eqs m (fst f) then snd f else []) frames).
    { intros m. rewrite <- start_pend. apply Hc. }
    split.
    - intros name rs Hi. rewrite G. now apply find_rows.
    - intros [n r] Hi. cbn [fst snd]. assert (I : In r (map snd (filter (fun c => eqs n (fst c)) calls))).
      { apply in_map_iff. exists (n, r). split; auto. apply filter_In. split; auto. apply eqs_refl. }
      rewrite G in I. apply in_flat_map in I as ([m rs] & H1 & H2). cbn [fst snd] in H2. destruct (eqs n m) eqn:E1; [|destruct H2].
      apply eqs_eq in E1 as ->. eauto.
  Qed.
  Theorem calls_sorted frames calls : NoDup (map fst frames) -> Forall (fun f => asc (snd f)) frames ->
    callback_calls line frames = Ok calls -> StronglySorted (fun a b => (line (snd a) <= line (snd b))%Z) calls.
  Proof.
    intros Hn Ha H. apply (loop_sorted (total frames) (start frames)) in H; [tauto|now apply start_NoDup|].
    clear - Ha. induction Ha as [|[n rs] fs H1 _ IH]; cbn [start flat_map fst snd]; [constructor|]. fold (start fs). destruct rs; cbn [app]; auto.
  Qed.
  (** Lines shared by no two rows: the order is strict, so it is the only one. *)
  Theorem calls_strict frames calls : NoDup (map fst frames) -> Forall (fun f => StronglySorted (fun a b => (line a < line b)%Z) (snd f)) frames ->
    (forall n1 n2 l1 l2 r1 r2, In (n1, l1) frames -> In (n2, l2) frames -> In r1 l1 -> In r2 l2 -> line r1 = line r2 -> n1 = n2) ->
    callback_calls line frames = Ok calls -> StronglySorted (fun a b => (line (snd a) < line (snd b))%Z) calls.
  Proof.
    intros Hn Ha Hd H. destruct (calls_exact frames Hn) as (calls' & E & Hex & Hin). rewrite H in E. injection E as <-.
    assert (S : StronglySorted (fun a b => (line (snd a) <= line (snd b))%Z) calls).
    { apply (calls_sorted frames); auto. eapply Forall_impl; [|exact Ha]. cbv beta. intros [n l] Hl. cbn [snd] in *. unfold asc.
      induction Hl as [|a l Hs IH Hf]; constructor; auto. eapply Forall_impl; [|exact Hf]. cbv beta. lia. }
    assert (Hu : forall a b p1 p2 p3, calls = p1 ++ a :: p2 ++ b :: p3 -> line (snd a) <> line (snd b)).
    { intros [na ra] [nb rb] p1 p2 p3 Ec El. cbn [snd] in El.
      assert (Ia : In (na, ra) calls) by (rewrite Ec; apply in_or_app; right; now left).
      assert (Ib : In (nb, rb) calls) by (rewrite Ec; apply in_or_app; right; right; apply in_or_app; right; now left).
      destruct (Hin _ Ia) as (la & La & Ra). destruct (Hin _ Ib) as (lb & Lb & Rb). cbn [fst snd] in *.
      assert (na = nb) by (eapply Hd; eauto). subst nb. pose proof (Hex _ _ La) as Hx.
      rewrite Forall_forall in Ha. pose proof (Ha _ La) as Hs. cbn [snd] in Hs. rewrite <- Hx in Hs. rewrite Ec in Hs.
      rewrite !filter_app in Hs. cbn [filter fst] in Hs. rewrite eqs_refl in Hs. rewrite filter_app in Hs. cbn [filter fst] in Hs.
      rewrite eqs_refl in Hs. rewrite map_app in Hs. cbn [map snd] in Hs. rewrite map_app in Hs. cbn [map snd] in Hs.
      clear - Hs El. induction (map snd (filter (fun c => eqs na (fst c)) p1)) as [|x l IH]; cbn [app] in Hs.
      - inversion Hs as [|? ? _ F]; subst. rewrite Forall_forall in F. specialize (F rb). rewrite El in F.
        assert (line rb < line rb)%Z; [apply F; apply in_or_app; right; now left|lia].
      - inversion Hs; subst. auto. }
    clear - S Hu. revert Hu. induction S as [|a l Hs IH Hf]; intros Hu; constructor.
    - apply IH. intros x y p1 p2 p3 ->. apply (Hu x y (a :: p1) p2 p3). reflexivity.
    - apply Forall_forall. intros b Hb. rewrite Forall_forall in Hf. specialize (Hf b Hb).
      apply in_split in Hb as (p2 & p3 & ->). specialize (Hu a b [] p2 p3 eq_refl). lia.
  Qed.
End P.

(** Strictly sorted lists with the same members are equal. *)
Lemma strict_unique {A} (key : A -> Z) (l1 : list A) : forall l2,
  StronglySorted (fun a b => (key a < key b)%Z) l1 -> StronglySorted (fun a b => (key a < key b)%Z) l2 ->
  (forall x, In x l1 <-> In x l2) -> l1 = l2.
Proof.
  induction l1 as [|a l1 IH]; intros l2 S1 S2 Hin.
  - destruct l2 as [|b l2]; auto. exfalso. apply (Hin b). now left.
  - destruct l2 as [|b l2]; [exfalso; apply (Hin a); now left|].
    inversion S1 as [|? ? S1' F1]; subst. inversion S2 as [|? ? S2' F2]; subst. rewrite Forall_forall in F1, F2.
    assert (E : a = b).
    { destruct (proj1 (Hin a) (or_introl eq_refl)) as [E|Ha]; auto.
      destruct (proj2 (Hin b) (or_introl eq_refl)) as [E|Hb]; auto.
      specialize (F1 _ Hb). specialize (F2 _ Ha). lia. }
    subst b. f_equal. apply IH; auto. intros x. split; intros Hx.
    + destruct (proj1 (Hin x) (or_intror Hx)) as [<-|H]; auto. specialize (F1 _ Hx). lia.
    + destruct (proj2 (Hin x) (or_intror Hx)) as [<-|H]; auto. specialize (F2 _ Hx). lia.
Qed.

(** On a parsed trace. *)
Definition evframes (st : pstate) (names : list str) : list (str * list event) := map (fun a => (a, arr a st)) names.
Lemma evframes_keys st names : map fst (evframes st names) = names.
Proof. unfold evframes. rewrite map_map. cbn. apply map_id. Qed.
Lemma trace_calls ws base body st names : populate ws base body = Ok st -> NoDup names ->
  exists calls, callback_calls ev_line (evframes st names) = Ok calls /\
    (forall a e, In (a, e) calls <-> In a names /\ In e (arr a st)) /\
    StronglySorted (fun x y => (ev_line (snd x) < ev_line (snd y))%Z) calls.
Proof.
  intros Hp Hn. assert (Hn' : NoDup (map fst (evframes st names))) by now rewrite evframes_keys.
  destruct (calls_exact ev_line _ Hn') as (calls & E & Hex & Hin). exists calls. split; auto. split.
  - intros a e. split.
    + intros Hi. destruct (Hin _ Hi) as (rs & H1 & H2). cbn [fst snd] in *. unfold evframes in H1. apply in_map_iff in H1 as (a' & E1 & H1).
      injection E1 as -> <-. auto.
    + intros [H1 H2]. assert (Hf : In (a, arr a st) (evframes st names)) by (unfold evframes; apply in_map_iff; eauto).
      specialize (Hex _ _ Hf). rewrite <- Hex in H2. apply in_map_iff in H2 as ([a' e'] & E1 & H2). cbn [snd] in E1. subst e'.
      apply filter_In in H2 as [H2 H3]. cbn [fst] in H3. apply eqs_eq in H3 as ->. exact H2.
  - apply (calls_strict ev_line (evframes st names)); auto.
    + apply Forall_forall. intros [n l] Hi. unfold evframes in Hi. apply in_map_iff in Hi as (a & E1 & _). injection E1 as <- <-. cbn [snd].
      pose proof (events_sorted ws base body st Hp a) as Hs. induction Hs as [|x l Hs IH Hf]; constructor; auto.
      eapply Forall_impl; [|exact Hf]. cbv beta. tauto.
    + intros n1 n2 l1 l2 r1 r2 H1 H2 I1 I2 El. unfold evframes in H1, H2. apply in_map_iff in H1 as (a & E1 & _), H2 as (b & E2 & _).
      injection E1 as <- <-. injection E2 as <- <-. eapply (event_once ws base body st Hp); eauto.
Qed.
Lemma trace_calls_order ws base body st n1 n2 : populate ws base body = Ok st -> NoDup n1 -> NoDup n2 ->
  (forall a, In a n1 <-> In a n2) -> callback_calls ev_line (evframes st n1) = callback_calls ev_line (evframes st n2).
Proof.
  intros Hp H1 H2 He. destruct (trace_calls _ _ _ _ n1 Hp H1) as (c1 & -> & I1 & S1).
  destruct (trace_calls _ _ _ _ n2 Hp H2) as (c2 & -> & I2 & S2). f_equal.
  apply (strict_unique (fun c => ev_line (snd c))); auto. intros [a e]. rewrite I1, I2, He. tauto.
Qed.

(** The dictionary of one call. *)
Lemma fold_dset_last (kvs : list (str * cbval)) : forall d k, ~ In k (map fst kvs) ->
  dget eqs k (fold_left (fun d kv => dset eqs (fst kv) (snd kv) d) kvs d) = dget eqs k d.
Proof.
  induction kvs as [|[k' v'] kvs IH]; intros d k Hk; auto. cbn [fold_left fst snd]. cbn in Hk. rewrite IH by tauto.
  rewrite (dget_dset eqs eqs_eq). destruct (eqs k k') eqn:E; auto. apply eqs_eq in E as ->. tauto.
Qed.
Lemma fold_dset_In (kvs : list (str * cbval)) : forall d k v, NoDup (map fst kvs) -> In (k, v) kvs ->
  dget eqs k (fold_left (fun d kv => dset eqs (fst kv) (snd kv) d) kvs d) = Some v.
Proof.
  induction kvs as [|[k' v'] kvs IH]; intros d k v Hn Hi; [destruct Hi|]. cbn [map fst] in Hn. inversion Hn as [|? ? H1 H2]; subst.
  cbn [fold_left fst snd]. destruct Hi as [Hi|Hi]; [|now apply IH]. injection Hi as -> ->. rewrite fold_dset_last; auto.
  rewrite (dget_dset eqs eqs_eq). now rewrite (proj2 (eqs_eq k k) eq_refl).
Qed.
Lemma keys_combine {B} (a : list str) : forall (b : list B), List.length a = List.length b -> map fst (combine a b) = a.
Proof. induction a as [|x a IH]; intros [|y b] H; try discriminate; auto. cbn. f_equal. apply IH. now injection H. Qed.
Lemma event_dict_cell cols t vals i c v : NoDup cols -> List.length cols = List.length vals ->
  nth_error cols i = Some c -> nth_error vals i = Some v -> dget eqs c (event_dict cols t vals) = Some (VCell v).
Proof.
  intros Hn Hl Hc Hv. unfold event_dict. cbn [combine fold_left fst snd]. apply fold_dset_In.
  - rewrite keys_combine; auto. now rewrite map_length.
  - revert vals i Hl Hc Hv. clear Hn. induction cols as [|x cols IH]; intros [|y vals] [|i] Hl Hc Hv; try discriminate.
    + injection Hc as ->. injection Hv as ->. now left.
    + right. apply (IH vals i); auto.
Qed.
Lemma event_dict_time cols t vals : List.length cols = List.length vals -> ~ In $"Index" cols ->
  dget eqs $"Index" (event_dict cols t vals) = Some (VTime t).
Proof.
  intros Hl Hi. unfold event_dict. cbn [combine fold_left fst snd]. rewrite fold_dset_last; auto.
  rewrite keys_combine; auto. now rewrite map_length.
Qed.
