(** The parse loop computes the specified times and events. *)
From Coq Require Import List Ascii String ZArith NArith Bool Lia.
From Flocq Require Import BinarySingleNaN.
From Verif Require Import Lib.PyStr Lib.PyStrFacts Lib.F64 Lib.F64Facts Model.Base Model.Line
  Model.Registry Model.Populate Spec.Trace Proofs.LineTotalP.
Import ListNotations.
Local Open Scope nat_scope.

Lemma occurs_iff w l : contains w l = true <-> occurs w l.
Proof. apply contains_spec. Qed.
Lemma occurs_false w l : contains w l = false <-> ~ occurs w l.
Proof. rewrite <- occurs_iff. destruct (contains w l); split; congruence. Qed.

Lemma eqs_spec a b : reflect (a = b) (eqs a b).
Proof. destruct (eqs a b) eqn:E; constructor; [now apply eqs_eq|now apply eqs_neq]. Qed.
Lemma dset_keys_in {V} k (v : V) d : In k (map fst d) -> map fst (dset eqs k v d) = map fst d.
Proof.
  intros H. rewrite dset_keys. unfold dmem. destruct (dget eqs k d) eqn:E; auto.
  apply (dget_None eqs eqs_eq) in E. contradiction.
Qed.

(** ** Dispatch *)
Definition no_specific (ws : words) (line : str) : Prop :=
  forall w' a' k', In (w', (a', k')) ws -> k_fallback k' = false -> ~ occurs w' line.
Lemma get_class_loop_spec line ws : forall found r, get_class_loop found line ws = r ->
  (exists pre w attr k post, r = Some attr /\ ws = pre ++ (w, (attr, k)) :: post /\ occurs w line /\
      k_fallback k = false /\ no_specific pre line) \/
  (no_specific ws line /\
   ((exists pre w attr k post, r = Some attr /\ ws = pre ++ (w, (attr, k)) :: post /\ occurs w line /\
      k_fallback k = true /\ (forall w' a' k', In (w', (a', k')) post -> ~ occurs w' line)) \/
    (r = found /\ forall w' a' k', In (w', (a', k')) ws -> ~ occurs w' line))).
Proof.
  induction ws as [|[w [attr k]] ws IH]; intros found r H; cbn [get_class_loop] in H.
  - right. split; [intros ? ? ? []|]. right. split; auto.
  - destruct (contains w line) eqn:Ew.
    + apply occurs_iff in Ew as Ho. destruct (k_fallback k) eqn:Ek.
      * apply IH in H as [(pre & w1 & a1 & k1 & post & -> & -> & O & F & N)|(N & H)].
        -- left. exists ((w, (attr, k)) :: pre), w1, a1, k1, post. repeat split; auto.
           intros w' a' k' [Hi|Hi] Hf; [injection Hi as <- <- <-; congruence|]. eapply N; eauto.
        -- right. split.
           ++ intros w' a' k' [Hi|Hi] Hf; [injection Hi as <- <- <-; congruence|]. eapply N; eauto.
           ++ left. destruct H as [(pre & w1 & a1 & k1 & post & -> & -> & O & F & L)|(-> & L)].
              ** exists ((w, (attr, k)) :: pre), w1, a1, k1, post. repeat split; auto.
              ** exists [], w, attr, k, ws. repeat split; auto.
      * subst r. left. exists [], w, attr, k, ws. repeat split; auto. intros ? ? ? [].
    + apply occurs_false in Ew as Ho. 
      apply IH in H as [(pre & w1 & a1 & k1 & post & -> & -> & O & F & N)|(N & H)].
      * left. exists ((w, (attr, k)) :: pre), w1, a1, k1, post. repeat split; auto.
        intros w' a' k' [Hi|Hi] Hf; [injection Hi as <- <- <-; auto|]. eapply N; eauto.
      * right. split.
        -- intros w' a' k' [Hi|Hi] Hf; [injection Hi as <- <- <-; auto|]. eapply N; eauto.
        -- destruct H as [(pre & w1 & a1 & k1 & post & -> & -> & O & F & L)|(-> & L)].
           ++ left. exists ((w, (attr, k)) :: pre), w1, a1, k1, post. repeat split; auto.
           ++ right. split; auto. intros w' a' k' [Hi|Hi]; [injection Hi as <- <- <-; auto|]. eapply L; eauto.
Qed.

Lemma split_eq2 {A} (pre pre' post post' : list A) x x' :
  pre ++ x :: post = pre' ++ x' :: post' -> x <> x' -> 
  (In x pre' /\ In x' post) \/ (In x' pre /\ In x post').
Proof.
  revert pre'. induction pre as [|a pre IH]; intros [|a' pre'] E Hn; cbn in E; injection E as E1 E2.
  - congruence.
  - left. split; [left; auto|]. subst. apply in_or_app. right. left. auto.
  - right. split; [left; auto|]. subst. apply in_or_app. right. left. auto.
  - apply IH in E2 as [[H1 H2]|[H1 H2]]; auto; [left|right]; split; auto; right; auto.
Qed.
Lemma Dispatch_unique ws line a a' : Dispatch ws line a -> Dispatch ws line a' -> a = a'.
Proof.
  intros (pre & w & k & post & E & O & H) (pre' & w' & k' & post' & E' & O' & H').
  assert (I : In (w, (a, k)) ws) by (rewrite E; apply in_or_app; right; left; auto).
  assert (I' : In (w', (a', k')) ws) by (rewrite E'; apply in_or_app; right; left; auto).
  rewrite E in E'.
  destruct (list_eq_dec ascii_dec a a') as [|Hn]; auto. exfalso.
  apply split_eq2 in E' as D; [|congruence].
  destruct H as [[F N]|(F & N & L)], H' as [[F' N']|(F' & N' & L')];
  destruct D as [[D1 D2]|[D1 D2]].
  - exact (N' _ _ _ D1 F O).
  - exact (N _ _ _ D1 F' O').
  - exact (N' _ _ _ I F O).
  - exact (N' _ _ _ I F O).
  - exact (N _ _ _ I' F' O').
  - exact (N _ _ _ I' F' O').
  - exact (L _ _ _ D2 O').
  - exact (L' _ _ _ D2 O).
Qed.
Lemma get_class_iff ws line attr : get_trace_class line ws = Some attr <-> Dispatch ws line attr.
Proof.
  assert (S : forall r, get_trace_class line ws = Some r -> Dispatch ws line r).
  { intros r H. unfold get_trace_class in H. apply get_class_loop_spec in H.
    destruct H as [(pre & w & a & k & post & E & -> & O & F & N)|(N & [(pre & w & a & k & post & E & -> & O & F & L)|(E & _)])].
    - injection E as ->. exists pre, w, k, post. split; auto.
    - injection E as ->. exists pre, w, k, post. split; auto.
    - discriminate. }
  split; auto. intros D. destruct (get_trace_class line ws) as [r|] eqn:E.
  - f_equal. eapply Dispatch_unique; eauto.
  - exfalso. unfold get_trace_class in E. apply get_class_loop_spec in E.
    destruct E as [(pre & w & a & k & post & E & _)|(N & [(pre & w & a & k & post & E & _)|(_ & L)])]; try discriminate.
    destruct D as (pre & w & k & post & -> & O & _). eapply L; eauto. apply in_or_app. right. left. reflexivity.
Qed.
Lemma get_class_None ws line : get_trace_class line ws = None <-> forall w a k, In (w, (a, k)) ws -> ~ occurs w line.
Proof.
  split.
  - intros E. unfold get_trace_class in E. apply get_class_loop_spec in E.
    destruct E as [(pre & w & a & k & post & E & _)|(N & [(pre & w & a & k & post & E & _)|(_ & L)])]; try discriminate. exact L.
  - intros H. destruct (get_trace_class line ws) as [r|] eqn:E; auto. exfalso.
    apply get_class_iff in E as (pre & w & k & post & -> & O & _). eapply H; eauto.
    apply in_or_app. right. left. reflexivity.
Qed.
Lemma Dispatch_in ws line attr : Dispatch ws line attr -> In attr (attrs ws).
Proof.
  intros (pre & w & k & post & -> & _). unfold attrs. apply in_map_iff. exists (w, (attr, k)). split; auto.
  apply in_or_app. right. left. reflexivity.
Qed.

(** ** Times *)
Lemma flt_nn_r x y : nn x = true -> flt x y = true -> nn y = true.
Proof.
  intros Hx H. destruct y as [s|s| |s m e b]; auto.
  - destruct x as [?|[]| |[] ? ? ?], s; cbn in *; try discriminate; auto.
  - destruct x as [?|[]| |[] ? ? ?]; cbn in *; try discriminate; auto.
  - destruct x as [?|[]| |[] ? ? ?], s; cbn in *; try discriminate; auto.
Qed.
Lemma fnext_next x : nn x = true -> next_double x (fnext x).
Proof.
  intros H. split; [|split].
  - intros F. now apply fnext_gt.
  - intros y Hy. apply fnext_least; auto. eapply flt_nn_r; eauto.
  - intros ->. apply fnext_inf.
Qed.
Lemma next_time_nn x t : nn x = true -> nn t = true -> nn (next_time x t) = true.
Proof. intros Hx Ht. unfold next_time. destruct (flt x t); auto. now apply fnext_nn. Qed.
Lemma next_time_gt x t : nn x = true -> nn t = true -> flt x (next_time x t) = true \/ x = finf.
Proof.
  intros Hx Ht. unfold next_time. destruct (flt x t) eqn:E; auto.
  destruct (is_finite x) eqn:F; [left; now apply fnext_gt|]. right. now apply nn_inf.
Qed.
Lemma next_time_truthy x t : nn x = true -> nn t = true -> ftruthy (next_time x t) = true.
Proof.
  intros Hx Ht. unfold next_time. destruct (flt x t) eqn:E; [|now apply fnext_truthy].
  apply flt_zero_truthy; auto. apply (fle_lt_trans _ x); auto.
  apply fle_spec; auto. intros _. split; auto. cbn. now apply nn_pos.
Qed.

Lemma last_cons {A} (us : list A) : forall t d, last (t :: us) d = last us t.
Proof. induction us as [|u us IH]; intros t d; auto. change (last (u :: us) d = last (u :: us) t). now rewrite !IH. Qed.

(** ** The loop *)
Lemma pop_lines_total ws : forall body st, nn (p_time st) = true ->
  exists st', pop_lines ws st body = Ok st' /\ nn (p_time st') = true.
Proof.
  induction body as [|l body IH]; intros st H; cbn [pop_lines]; eauto.
  unfold pop_line. destruct (parse_total l) as (o & -> & Ho). cbn [bind].
  destruct o as [f|]; cbn [bind].
  - apply IH. cbn [p_time]. apply next_time_nn; auto. now apply Ho.
  - apply IH. exact H.
Qed.

Lemma arr_append attr a e evs t b n : arr attr (PSt t b n (append_event a e evs)) =
  if eqs attr a then arr attr (PSt t b n evs) ++ [e] else arr attr (PSt t b n evs).
Proof.
  unfold arr, append_event. cbn [p_events]. rewrite (dget_dset eqs eqs_eq).
  destruct (eqs_spec attr a) as [->|]; auto. destruct (dget eqs a evs); auto.
Qed.

Lemma pop_lines_spec ws : forall body st st', nn (p_time st) = true -> pop_lines ws st body = Ok st' ->
  exists us,
    Assigned (p_time st) (map (fun p => f_time (snd p)) (parsed (p_lines st) body)) us /\
    p_time st' = last us (p_time st) /\
    p_base st' = (if ftruthy (p_base st) then p_base st else hd (p_base st) us) /\
    p_lines st' = (p_lines st + Z.of_nat (List.length body))%Z /\
    (forall attr, exists es, Recorded ws attr (parsed (p_lines st) body) us es /\ arr attr st' = arr attr st ++ es) /\
    (map fst (p_events st') = map fst (p_events st) \/ ~ (forall a, In a (attrs ws) -> In a (map fst (p_events st)))).
Proof.
  induction body as [|l body IH]; intros st st' Hn H; cbn [pop_lines] in H.
  - injection H as <-. exists []. cbn [parsed map last hd List.length]. split; [constructor|]. split; auto.
    split; [destruct (ftruthy _); auto|]. split; [lia|]. split; [|left; auto].
    intros attr. exists []. split; [constructor|]. now rewrite app_nil_r.
  - cbn [parsed]. unfold pop_line in H. destruct (parse_total l) as (o & Eo & Ho). rewrite Eo in *. cbn [bind] in H.
    destruct o as [f|]; cbn [bind] in H.
    + destruct (Ho f eq_refl) as (Hf & _ & _).
      set (t := next_time (p_time st) (f_time f)) in *.
      assert (Ht : nn t = true) by now apply next_time_nn.
      assert (Htt : ftruthy t = true) by now apply next_time_truthy.
      apply IH in H as (us & HA & HT & HB & HL & HR & HK); [|exact Ht].
      cbn [p_time p_base p_lines] in *. exists (t :: us).
      split; [|split; [|split; [|split; [|split]]]].
      * cbn [map snd]. unfold t, next_time in *. destruct (flt (p_time st) (f_time f)) eqn:El.
        -- apply As_later; auto.
        -- apply As_tie; auto. now apply fnext_next.
      * rewrite HT. symmetry. apply last_cons.
      * rewrite HB. destruct (ftruthy (p_base st)) eqn:Eb; [now rewrite Eb|]. rewrite Htt. reflexivity.
      * rewrite HL. cbn [List.length]. lia.
      * intros attr. destruct (HR attr) as (es & HRe & Ha).
        destruct (get_trace_class l ws) as [a|] eqn:Ea.
        -- apply get_class_iff in Ea. rewrite arr_append in Ha. destruct (eqs_spec attr a) as [->|Hne].
           ++ eexists. split; [apply Rec_take; eauto|]. rewrite Ha. rewrite <- app_assoc. reflexivity.
           ++ exists es. split; [apply Rec_skip; auto|exact Ha].
              intros D. apply Hne. eapply Dispatch_unique; eauto.
        -- exists es. split; [apply Rec_skip; auto|exact Ha].
           intros D. apply get_class_iff in D. congruence.
      * destruct (get_trace_class l ws) as [a|] eqn:Ea; [|exact HK].
        destruct (in_dec (list_eq_dec ascii_dec) a (map fst (p_events st))) as [Hi|Hi].
        -- assert (E : map fst (append_event a (Ev t (f_comm f) (f_pid f) (f_cpu f) (p_lines st) (drop_empty (f_data f))) (p_events st))
                   = map fst (p_events st)).
           { unfold append_event. now apply dset_keys_in. }
           cbn [p_events] in HK. rewrite E in HK. exact HK.
        -- right. intros C. apply Hi, C. apply get_class_iff, Dispatch_in in Ea. exact Ea.
    + apply IH in H as (us & HA & HT & HB & HL & HR & HK); [|exact Hn].
      cbn [p_time p_base p_lines p_events] in *. exists us. repeat (split; [auto|]); auto.
      cbn [List.length]. lia.
Qed.

(** ** Consequences *)
From Coq Require Import Sorted.

Lemma Assigned_length prev ts us : Assigned prev ts us -> List.length ts = List.length us.
Proof. induction 1; cbn; auto. Qed.
Definition before (x y : F64.float) : Prop := flt x y = true \/ x = finf.
Lemma flt_finf x : flt finf x = false.
Proof. destruct x as [s|s| |s m e b]; auto; destruct s; auto. Qed.
(** Once the time is +inf it stays there. *)
Lemma Assigned_sorted prev ts us : nn prev = true -> Forall (fun t => nn t = true) ts -> Assigned prev ts us ->
  Forall (fun u => nn u = true /\ before prev u) us /\ StronglySorted before us /\
  Forall (fun u => ftruthy u = true) us /\ Forall (fun u => fle prev u = true) us /\
  (prev = finf -> Forall (fun u => u = finf) us).
Proof.
  intros Hp Ht H. induction H as [prev|prev t ts us Hl HA IH|prev t u ts us Hl Hnext HA IH].
  - repeat split; constructor.
  - inversion Ht; subst. destruct (IH) as (I1 & I2 & I3 & I4 & I5); auto.
    assert (Htt : ftruthy t = true).
    { apply flt_zero_truthy; auto. apply (fle_lt_trans _ prev); auto. apply fle_spec; auto. intros _. split; auto. cbn. now apply nn_pos. }
    split; [|split; [|split; [|split]]].
    + constructor; [split; auto; left; auto|]. apply Forall_forall. intros v Hv. rewrite Forall_forall in I1, I4.
      split; [apply I1, Hv|]. left. apply (flt_le_trans prev t v); auto. now apply I1.
    + constructor; auto. eapply Forall_impl; [|exact I1]. cbv beta. tauto.
    + constructor; auto.
    + constructor; [now apply flt_le|]. apply Forall_forall. intros v Hv. rewrite Forall_forall in I1, I4.
      apply (fle_trans prev t v); auto; [now apply I1|now apply flt_le].
    + intros ->. rewrite flt_finf in Hl. discriminate.
  - inversion Ht; subst. 
    assert (Hun : nn u = true /\ before prev u /\ fle prev u = true /\ ftruthy u = true).
    { destruct Hnext as (N1 & N2 & N3). destruct (is_finite prev) eqn:Fp.
      - specialize (N1 eq_refl). assert (nn u = true) by exact (flt_nn_r prev u Hp N1).
        split; auto. split; [left; auto|]. split; [now apply flt_le|].
        apply flt_zero_truthy; auto. apply (fle_lt_trans _ prev); auto. apply fle_spec; auto. intros _. split; auto. cbn. now apply nn_pos.
      - apply nn_inf in Fp; auto. rewrite (N3 Fp), Fp. repeat split; auto. right. auto. }
    destruct Hun as (Un & Ub & Ul & Ut).
    destruct IH as (I1 & I2 & I3 & I4 & I5); auto.
    split; [|split; [|split; [|split]]].
    + constructor; auto. apply Forall_forall. intros v Hv. rewrite Forall_forall in I1, I4.
      split; [apply I1, Hv|]. destruct Ub as [Ub|Ub]; [left|right; auto]. apply (flt_le_trans prev u v); auto. now apply I1.
    + constructor; auto. eapply Forall_impl; [|exact I1]. cbv beta. tauto.
    + constructor; auto.
    + constructor; auto. apply Forall_forall. intros v Hv. rewrite Forall_forall in I1, I4.
      apply (fle_trans prev u v); auto; now apply I1.
    + intros ->. destruct Hnext as (_ & _ & N3). specialize (N3 eq_refl). constructor; auto.
Qed.

Lemma parsed_In i l f body : forall n, In (i, l, f) (parsed n body) <->
  (exists m, i = n + Z.of_nat m /\ nth_error body m = Some l /\ parse_fields l = Ok (Some f))%Z.
Proof.
  induction body as [|l0 body IH]; intros n; cbn [parsed].
  - split; [intros []|]. intros (m & _ & H & _). destruct m; discriminate.
  - assert (Sh : (exists m, i = n + 1 + Z.of_nat m /\ nth_error body m = Some l /\ parse_fields l = Ok (Some f))%Z <->
                 (exists m, i = n + Z.of_nat (S m) /\ nth_error (l0 :: body) (S m) = Some l /\ parse_fields l = Ok (Some f))%Z).
    { split; intros (m & E & H); exists m; (split; [lia|exact H]). }
    destruct (parse_total l0) as (o & Eo & _). rewrite Eo. destruct o as [f0|].
    + cbn [In]. rewrite IH, Sh. split.
      * intros [E|(m & H)].
        -- injection E as <- <- <-. exists O. repeat split; auto. lia.
        -- exists (S m). exact H.
      * intros ([|m] & E & Hn & Hf).
        -- left. cbn in Hn. injection Hn as <-. rewrite Eo in Hf. injection Hf as <-. f_equal. f_equal. lia.
        -- right. exists m. auto.
    + rewrite IH, Sh. split.
      * intros (m & H). exists (S m). exact H.
      * intros ([|m] & E & Hn & Hf).
        -- cbn in Hn. injection Hn as <-. rewrite Eo in Hf. discriminate.
        -- exists m. auto.
Qed.
Lemma parsed_sorted body : forall n, StronglySorted (fun a b => fst (fst a) < fst (fst b))%Z (parsed n body).
Proof.
  induction body as [|l0 body IH]; intros n; cbn [parsed]; [constructor|].
  destruct (parse_fields l0) as [[f0|]|]; auto. constructor; auto.
  apply Forall_forall. intros [[i l] f] Hi. apply parsed_In in Hi as (m & E & _). cbn. lia.
Qed.
Lemma parsed_nn body n : Forall (fun t => nn t = true) (map (fun p => f_time (snd p)) (parsed n body)).
Proof.
  apply Forall_forall. intros t Ht. apply in_map_iff in Ht as ([[i l] f] & <- & Hi).
  apply parsed_In in Hi as (m & _ & _ & Hf). cbn.
  destruct (parse_total l) as (o & Eo & Ho). rewrite Eo in Hf. injection Hf as ->. now apply Ho.
Qed.

Lemma Recorded_In ws attr ps ts es : Recorded ws attr ps ts es -> forall e, In e es <->
  exists i l f t, In ((i, l, f), t) (combine ps ts) /\ Dispatch ws l attr /\
    e = Ev t (f_comm f) (f_pid f) (f_cpu f) i (drop_empty (f_data f)).
Proof.
  induction 1 as [|i l f t ps ts es D H IH|i l f t ps ts es D H IH]; intros e; cbn [combine In].
  - split; [intros []|]. intros (? & ? & ? & ? & [] & _).
  - rewrite IH. split.
    + intros [<-|(i' & l' & f' & t' & Hi & D' & E)]; [exists i, l, f, t; auto|].
      exists i', l', f', t'. auto.
    + intros (i' & l' & f' & t' & [Hi|Hi] & D' & E).
      * injection Hi as <- <- <- <-. auto.
      * right. exists i', l', f', t'. auto.
  - rewrite IH. split.
    + intros (i' & l' & f' & t' & Hi & D' & E). exists i', l', f', t'. auto.
    + intros (i' & l' & f' & t' & [Hi|Hi] & D' & E).
      * injection Hi as <- <- <- <-. contradiction.
      * exists i', l', f', t'. auto.
Qed.
Lemma combine_sorted {A B} (R : A -> A -> Prop) (S : B -> B -> Prop) (la : list A) : forall lb,
  StronglySorted R la -> StronglySorted S lb ->
  StronglySorted (fun x y => R (fst x) (fst y) /\ S (snd x) (snd y)) (combine la lb).
Proof.
  induction la as [|a la IH]; intros lb HR HS; [constructor|]. destruct lb as [|b lb]; [constructor|].
  inversion HR; subst. inversion HS; subst. cbn [combine]. constructor; auto.
  apply Forall_forall. intros [x y] Hi. cbn. rewrite Forall_forall in *.
  apply in_combine_l in Hi as Hx. apply in_combine_r in Hi as Hy. auto.
Qed.
Lemma sorted_trichotomy {A} (R : A -> A -> Prop) l x y : StronglySorted R l -> In x l -> In y l -> x = y \/ R x y \/ R y x.
Proof.
  induction 1 as [|a l H IH Hf]; intros Hx Hy; [destruct Hx|]. rewrite Forall_forall in Hf.
  destruct Hx as [->|Hx], Hy as [->|Hy]; auto.
Qed.
Lemma Recorded_sorted ws attr ps ts es (T : F64.float -> F64.float -> Prop) :
  Recorded ws attr ps ts es ->
  StronglySorted (fun x y => fst (fst (fst x)) < fst (fst (fst y)) /\ T (snd x) (snd y))%Z (combine ps ts) ->
  StronglySorted (fun a b => ev_line a < ev_line b /\ T (ev_time a) (ev_time b))%Z es.
Proof.
  induction 1 as [|i l f t ps ts es D H IH|i l f t ps ts es D H IH]; intros HS; cbn [combine] in HS.
  - constructor.
  - inversion HS as [|? ? HS' Hf]; subst. constructor; auto.
    apply Forall_forall. intros e He. apply (Recorded_In _ _ _ _ _ H) in He as (i' & l' & f' & t' & Hi & _ & ->).
    rewrite Forall_forall in Hf. apply Hf in Hi. exact Hi.
  - inversion HS; subst. auto.
Qed.
Lemma in_combine_ex {A B} (la : list A) : forall (lb : list B) a, List.length la = List.length lb -> In a la ->
  exists b, In (a, b) (combine la lb).
Proof.
  induction la as [|x la IH]; intros lb a E Hi; [destruct Hi|]. destruct lb as [|y lb]; [discriminate|].
  injection E as E. destruct Hi as [->|Hi].
  - exists y. left. reflexivity.
  - destruct (IH lb a E Hi) as (b & Hb). exists b. right. exact Hb.
Qed.

Section Populate.
  Variables (ws : words) (base : F64.float) (body : list str).
  Let ps := parsed 0 body.
  Let printed := map (fun p : Z * str * fields => f_time (snd p)) ps.

  Lemma init_arr attr : arr attr (PSt fzero base 0 (map (fun e => (fst (snd e), [])) ws)) = [].
  Proof.
    unfold arr. cbn [p_events]. destruct (dget eqs attr _) as [l|] eqn:E; auto.
    apply (dget_In eqs eqs_eq) in E. apply in_map_iff in E as (x & E & _). congruence.
  Qed.
  Theorem populate_total : exists st, populate ws base body = Ok st.
  Proof. unfold populate. edestruct pop_lines_total as (st & E & _); [|eauto]. reflexivity. Qed.
  Theorem populate_spec st : populate ws base body = Ok st ->
    exists us, Assigned fzero printed us /\
      p_end st = last us fzero /\
      p_base st = (if ftruthy base then base else hd base us) /\
      p_lines st = Z.of_nat (List.length body) /\
      map fst (p_events st) = attrs ws /\
      (forall attr, Recorded ws attr ps us (arr attr st)).
  Proof.
    intros H. unfold populate in H. apply pop_lines_spec in H as (us & HA & HT & HB & HL & HR & HK); [|reflexivity].
    cbn [p_time p_base p_lines p_events] in *. exists us. do 4 (split; [assumption|]). split.
    - rewrite map_map in HK. cbn [fst] in HK. destruct HK as [HK|HK]; [exact HK|].
      exfalso. apply HK. intros a Ha. exact Ha.
    - intros attr. destruct (HR attr) as (es & Hr & E). rewrite init_arr in E. cbn in E. now rewrite E.
  Qed.

  Variable st : pstate.
  Hypothesis Hst : populate ws base body = Ok st.

  Lemma zipped : exists us, List.length ps = List.length us /\
    StronglySorted (fun x y => fst (fst (fst x)) < fst (fst (fst y)) /\ before (snd x) (snd y))%Z (combine ps us) /\
    (forall attr, Recorded ws attr ps us (arr attr st)).
  Proof.
    destruct (populate_spec st Hst) as (us & HA & _ & _ & _ & _ & HR). exists us.
    apply Assigned_length in HA as Hl. unfold printed in Hl. rewrite map_length in Hl.
    destruct (Assigned_sorted _ _ _ (eq_refl : nn fzero = true) (parsed_nn body 0) HA) as (_ & HS & _).
    split; auto. split; auto.
    apply (combine_sorted (fun a b : Z * str * fields => fst (fst a) < fst (fst b))%Z before); auto. apply parsed_sorted.
  Qed.

  Theorem events_ordered a1 a2 e1 e2 : In e1 (arr a1 st) -> In e2 (arr a2 st) -> (ev_line e1 < ev_line e2)%Z ->
    flt (ev_time e1) (ev_time e2) = true \/ ev_time e1 = finf.
  Proof.
    destruct zipped as (us & Hl & HS & HR). intros H1 H2 Hlt.
    apply (Recorded_In _ _ _ _ _ (HR a1)) in H1 as (i1 & l1 & f1 & t1 & I1 & _ & ->).
    apply (Recorded_In _ _ _ _ _ (HR a2)) in H2 as (i2 & l2 & f2 & t2 & I2 & _ & ->). cbn [ev_line ev_time] in *.
    destruct (sorted_trichotomy _ _ _ _ HS I1 I2) as [E|[E|E]]; cbn in E.
    - injection E as -> _ _ _. lia.
    - apply E.
    - lia.
  Qed.
  Theorem events_sorted attr :
    StronglySorted (fun a b => ev_line a < ev_line b /\ (flt (ev_time a) (ev_time b) = true \/ ev_time a = finf))%Z (arr attr st).
  Proof. destruct zipped as (us & Hl & HS & HR). apply (Recorded_sorted ws attr ps us _ before); auto. Qed.
  Theorem event_origin attr e : In e (arr attr st) ->
    exists raw f, (0 <= ev_line e)%Z /\ nth_error body (Z.to_nat (ev_line e)) = Some raw /\
      parse_fields raw = Ok (Some f) /\ Dispatch ws raw attr /\
      ev_comm e = f_comm f /\ ev_pid e = f_pid f /\ ev_cpu e = f_cpu f /\ ev_data e = drop_empty (f_data f).
  Proof.
    destruct zipped as (us & Hl & HS & HR). intros H.
    apply (Recorded_In _ _ _ _ _ (HR attr)) in H as (i & l & f & t & I & D & ->). cbn.
    apply in_combine_l in I. apply parsed_In in I as (m & -> & Hn & Hf).
    exists l, f. replace (Z.to_nat (0 + Z.of_nat m)) with m by lia. split; [lia|]. auto 10.
  Qed.
  Theorem event_recorded m raw f attr : nth_error body m = Some raw -> parse_fields raw = Ok (Some f) ->
    Dispatch ws raw attr -> exists e, In e (arr attr st) /\ ev_line e = Z.of_nat m.
  Proof.
    destruct zipped as (us & Hl & HS & HR). intros Hn Hf D.
    assert (I : In (Z.of_nat m, raw, f) ps) by (apply parsed_In; exists m; auto).
    destruct (in_combine_ex ps us _ Hl I) as (t & It).
    eexists. split; [apply (Recorded_In _ _ _ _ _ (HR attr)); exists (Z.of_nat m), raw, f, t; eauto|reflexivity].
  Qed.
  Theorem event_once a1 a2 e1 e2 : In e1 (arr a1 st) -> In e2 (arr a2 st) -> ev_line e1 = ev_line e2 -> a1 = a2 /\ e1 = e2.
  Proof.
    destruct zipped as (us & Hl & HS & HR). intros H1 H2 E.
    apply (Recorded_In _ _ _ _ _ (HR a1)) in H1 as (i1 & l1 & f1 & t1 & I1 & D1 & ->).
    apply (Recorded_In _ _ _ _ _ (HR a2)) in H2 as (i2 & l2 & f2 & t2 & I2 & D2 & ->). cbn [ev_line] in *. subst i2.
    destruct (sorted_trichotomy _ _ _ _ HS I1 I2) as [E|[E|E]]; cbn in E; [|lia|lia].
    injection E as -> -> ->. split; auto. eapply Dispatch_unique; eauto.
  Qed.

  Theorem base_end :
    (ps = [] -> p_base st = base /\ p_end st = fzero) /\
    (ps <> [] -> ftruthy (p_end st) = true /\ ftruthy (p_base st) = true) /\
    (ftruthy base = false -> ps <> [] ->
       (exists i l f, hd_error ps = Some (i, l, f) /\
          (flt fzero (f_time f) = true -> p_base st = f_time f) /\
          (flt fzero (f_time f) = false -> next_double fzero (p_base st))) /\
       (forall attr e, In e (arr attr st) -> fle (p_base st) (ev_time e) = true)) /\
    (forall attr e, In e (arr attr st) -> fle (ev_time e) (p_end st) = true).
  Proof.
    destruct (populate_spec st Hst) as (us & HA & HE & HB & _ & _ & HR).
    apply Assigned_length in HA as Hl. unfold printed in Hl. rewrite map_length in Hl.
    destruct (Assigned_sorted _ _ _ (eq_refl : nn fzero = true) (parsed_nn body 0) HA) as (HN & HS & HTr & _ & _).
    assert (HNn : Forall (fun u => nn u = true) us) by (eapply Forall_impl; [|exact HN]; cbv beta; tauto).
    split; [|split; [|split]].
    - intros E. rewrite E in *. destruct us; [|discriminate]. cbn in HE, HB. split; auto. rewrite HB. now destruct (ftruthy base).
    - intros Hne. destruct us as [|u us]; [destruct ps; [congruence|discriminate]|].
      rewrite HE, HB. split.
      + rewrite Forall_forall in HTr. apply HTr. rewrite last_cons. clear. revert u. 
        induction us as [|v us IH]; intros u; [left; reflexivity|]. rewrite last_cons. right. apply IH.
      + destruct (ftruthy base) eqn:Eb; auto. cbn. now inversion HTr.
    - intros Eb Hne. rewrite Eb in HB. destruct us as [|u us]; [destruct ps; [congruence|discriminate]|]. cbn [hd] in HB.
      split.
      + unfold printed in HA. destruct ps as [|[[i l] f] ps'] eqn:Ep; [congruence|]. exists i, l, f. split; auto.
        cbn [map snd] in HA. rewrite HB. inversion HA as [|? ? ? ? Q1 Q2|? ? ? ? ? Q1 Q2 Q3]; subst; split; intros; auto; congruence.
      + intros attr e He. apply (Recorded_In _ _ _ _ _ (HR attr)) in He as (i & l & f & t & I & _ & ->). cbn.
        apply in_combine_r in I. rewrite HB. clear HB. inversion HS as [|? ? _ Hf]; subst. pose proof (Forall_inv HNn) as Hu. apply Forall_inv_tail in HNn. cbv beta in Hu.
        destruct I as [->|I]; [now apply fle_refl|]. rewrite Forall_forall in HNn, Hf.
        destruct (Hf t I) as [B| ->]; [apply flt_le; auto|].
        assert (Ht : t = finf).
        { inversion HA as [|? ? ? ? Q1 Q2|? ? ? ? ? Q1 Q2 Q3]; subst.
          - pose proof (parsed_nn body 0) as Pn. fold ps in Pn. fold printed in Pn. 
            match goal with Hx : _ :: _ = printed |- _ => rewrite <- Hx in Pn end. inversion Pn; subst.
            eapply Assigned_sorted in Q2 as (_ & _ & _ & _ & Q2); auto. specialize (Q2 eq_refl). rewrite Forall_forall in Q2. auto.
          - pose proof (parsed_nn body 0) as Pn. fold ps in Pn. fold printed in Pn. 
            match goal with Hx : _ :: _ = printed |- _ => rewrite <- Hx in Pn end. inversion Pn; subst.
            eapply Assigned_sorted in Q3 as (_ & _ & _ & _ & Q3); auto. specialize (Q3 eq_refl). rewrite Forall_forall in Q3. auto. }
        rewrite Ht. reflexivity.
    - intros attr e He. apply (Recorded_In _ _ _ _ _ (HR attr)) in He as (i & l & f & t & I & _ & ->). cbn.
      apply in_combine_r in I. rewrite HE.
      assert (G : forall us, Forall (fun u => nn u = true) us -> StronglySorted before us -> forall t d, In t us -> fle t (last us d) = true \/ t = finf).
      { clear. induction us as [|u us IH]; intros HN HS t d; [intros []|intros [->|Hi]].
        - inversion HN; subst. inversion HS as [|? ? HS' Hf]; subst. rewrite last_cons.
          destruct us as [|v us]; [left; apply fle_refl; assumption|].
          rewrite last_cons. assert (Hv : In (last us v) (v :: us)).
          { clear. revert v. induction us as [|w us IH]; intros v; [left; reflexivity|]. rewrite last_cons. right. apply IH. }
          rewrite Forall_forall in Hf, H2. destruct (Hf _ Hv) as [B|B]; auto. left. apply flt_le; auto.
        - inversion HN; subst. inversion HS; subst. rewrite last_cons. apply IH; auto. }
      destruct (G us HNn HS t fzero I) as [B| ->]; auto.
      assert (Hlast : last us fzero = finf); [|now rewrite Hlast].
      pose proof (parsed_nn body 0) as Pn. fold ps in Pn. fold printed in Pn.
      clear - HA I Pn. revert HA I Pn. generalize printed as ts. generalize (eq_refl : nn fzero = true). generalize fzero as p.
      induction us as [|u us IH]; intros p Hp ts HA I Pn; [destruct I|].
      rewrite last_cons. inversion HA as [|? ? ? ? Q1 Q2|? ? ? ? ? Q1 Q2 Q3]; subst; inversion Pn; subst.
      + destruct I as [->|I]; [|eapply IH; eauto].
        assert (Q4 := Q2). apply Assigned_sorted in Q2 as (_ & _ & _ & _ & Q2); auto. specialize (Q2 eq_refl).
        clear - Q2. destruct us as [|v us] using rev_ind; auto. rewrite last_last. apply Forall_app in Q2 as [_ Q2]. now inversion Q2.
      + assert (Hu : nn u = true).
        { destruct Q2 as (N1 & N2 & N3). destruct (is_finite p) eqn:Fp.
          - exact (flt_nn_r p u Hp (N1 eq_refl)).
          - apply nn_inf in Fp; auto. rewrite (N3 Fp). auto. }
        destruct I as [->|I]; [|eapply IH; eauto].
        apply Assigned_sorted in Q3 as (_ & _ & _ & _ & Q3); auto. specialize (Q3 eq_refl).
        clear - Q3. destruct us as [|v us] using rev_ind; auto. rewrite last_last. apply Forall_app in Q3 as [_ Q3]. now inversion Q3.
  Qed.
End Populate.

(** ** The body *)
Lemma drop_until_spec p (file : list str) : exists pre, file = pre ++ drop_until p file /\
  Forall (fun l => p l = false) pre /\ (forall l rest, drop_until p file = l :: rest -> p l = true).
Proof.
  induction file as [|l file (pre & E & Hp & Hh)]; cbn [drop_until].
  - exists []. repeat split; auto. discriminate.
  - destruct (p l) eqn:Ep.
    + exists []. repeat split; auto. intros l' r H. injection H as <- _. exact Ep.
    + exists (l :: pre). split; [cbn; congruence|]. split; auto.
Qed.
