From Coq Require Import List Ascii String ZArith QArith Bool Lia Lqa Sorted.
From Verif Require Import Lib.PyStr Lib.PyStrFacts Model.Sync Spec.Sync.
Import ListNotations.
Local Open Scope nat_scope.
Local Open Scope list_scope.

Lemma qlt_true a b : qlt a b = true <-> (a < b)%Q.
Proof.
  unfold qlt. rewrite negb_true_iff. split; intros H.
  - apply Qnot_le_lt. intros L. apply Qle_bool_iff in L. congruence.
  - destruct (Qle_bool b a) eqn:E; [|reflexivity]. apply Qle_bool_iff in E. lra.
Qed.
Lemma qlt_false a b : qlt a b = false <-> (b <= a)%Q.
Proof. unfold qlt. rewrite negb_false_iff. apply Qle_bool_iff. Qed.

(** Hulls *)
Lemma hull_one x : Hull [x] x.
Proof.
  split; [intros y [<-|[]]; lra|]. split; exists x; (split; [now left|reflexivity]).
Qed.
Lemma hull_widen rs r x : Hull rs r -> exists r', widen (Some r) x = Some r' /\ Hull (rs ++ [x]) r'.
Proof.
  intros (B & (a & Ia & Ea) & (b & Ib & Eb)). eexists. split; [reflexivity|].
  destruct (qlt (fst x) (fst r)) eqn:C1; destruct (qlt (snd r) (snd x)) eqn:C2;
    try apply qlt_true in C1; try apply qlt_false in C1; try apply qlt_true in C2; try apply qlt_false in C2;
    (split; [intros y I; apply in_app_iff in I as [I|[<-|[]]]; cbn [fst snd]; [pose proof (B y I)|]; lra|]); cbn [fst snd].
  - split; exists x; (split; [apply in_app_iff; right; now left|reflexivity]).
  - split; [exists x; split; [apply in_app_iff; right; now left|reflexivity]|exists b; split; [apply in_app_iff; now left|assumption]].
  - split; [exists a; split; [apply in_app_iff; now left|assumption]|exists x; split; [apply in_app_iff; right; now left|reflexivity]].
  - split; [exists a|exists b]; (split; [apply in_app_iff; now left|assumption]).
Qed.
Lemma hull_fold xs : forall rs r, Hull rs r -> exists r', fold_left widen xs (Some r) = Some r' /\ Hull (rs ++ xs) r'.
Proof.
  induction xs as [|x xs IH]; intros rs r H; [exists r; split; [reflexivity|now rewrite app_nil_r]|].
  cbn [fold_left]. destruct (hull_widen rs r x H) as (r' & -> & H'). destruct (IH _ _ H') as (r'' & E & H''). exists r''.
  split; [assumption|]. now rewrite <- app_assoc in H''.
Qed.
Lemma hull_ok xs : xs <> [] -> exists r, hull xs = Some r /\ Hull xs r.
Proof.
  intros N. destruct xs as [|x xs]; [congruence|]. unfold hull. cbn [fold_left widen].
  destruct (hull_fold xs [x] x (hull_one x)) as (r & E & H). now exists r.
Qed.
Lemma hull_same a b r : Hull a r -> Hull b r -> forall x ra, Hull (b ++ [x]) ra -> Hull (a ++ [x]) ra.
Proof.
  intros (A1 & (ua & Iua & Eua) & (va & Iva & Eva)) (B1 & (ub & Iub & Eub) & (vb & Ivb & Evb)) x ra (C1 & (uc & Iuc & Euc) & (vc & Ivc & Evc)).
  pose proof (C1 ub ltac:(apply in_app_iff; now left)) as K1. pose proof (C1 vb ltac:(apply in_app_iff; now left)) as K2.
  pose proof (C1 x ltac:(apply in_app_iff; right; now left)) as K3.
  split; [|split].
  - intros y I. apply in_app_iff in I as [I|[<-|[]]]; [pose proof (A1 y I); lra|assumption].
  - apply in_app_iff in Iuc as [I|[<-|[]]].
    + pose proof (B1 uc I). exists ua. split; [apply in_app_iff; now left|]. lra.
    + exists x. split; [apply in_app_iff; right; now left|assumption].
  - apply in_app_iff in Ivc as [I|[<-|[]]].
    + pose proof (B1 vc I). exists va. split; [apply in_app_iff; now left|]. lra.
    + exists x. split; [apply in_app_iff; right; now left|assumption].
Qed.
Lemma hull_const l r : l <> [] -> (forall x, In x l -> x = r) -> Hull l r.
Proof.
  intros N H. destruct l as [|a l]; [congruence|]. pose proof (H a (or_introl eq_refl)) as ->.
  split; [intros x I; rewrite (H x I); lra|]. split; exists r; (split; [now left|reflexivity]).
Qed.

(** One plot *)
Lemma set_last_app t l u v : set_last t (l ++ [(u, v)]) = Ok (l ++ [(t, v)]).
Proof. unfold set_last. rewrite rev_app_distr. cbn [rev app set_first bind]. now rewrite rev_involutive. Qed.
Lemma sync_graph_ok x y raw g : Kept raw g -> (g_front g = false -> raw <> []) ->
  sync_graph x y g = Ok (Graph x y ((fst x, None) :: raw ++ [(snd x, None)]) true true).
Proof.
  intros [(F & B & E)|(F & B & t0 & t1 & E)] N; unfold sync_graph; rewrite F, B, E.
  - specialize (N F). destruct raw as [|r0 raw]; [congruence|]. cbn [bind set_first].
    change ((fst x, None) :: r0 :: raw) with (((fst x, None) :: r0 :: raw) : list row). rewrite set_last_app. reflexivity.
  - cbn [bind set_first]. change ((fst x, None) :: raw ++ [(t1, None)]) with ((((fst x, None) :: raw) : list row) ++ [(t1, None)]).
    rewrite set_last_app. reflexivity.
Qed.
Lemma sync_graph_any x y g g' : sync_graph x y g = Ok g' -> g_x g' = x /\ g_y g' = y /\
  (forall raw, Kept raw g -> g_raw g' = (fst x, None) :: raw ++ [(snd x, None)]) /\ g_front g' = true /\ g_back g' = true.
Proof.
  intros H. assert (forall raw, Kept raw g -> g_raw g' = (fst x, None) :: raw ++ [(snd x, None)]) as K.
  { intros raw K. rewrite (sync_graph_ok x y raw g K) in H; [now injection H as <-|].
    intros F ->. destruct K as [(_ & _ & E)|(F' & _)]; [|congruence]. unfold sync_graph in H. now rewrite F, E in H. }
  unfold sync_graph in H. set (c := if g_front g then _ else _) in H. destruct c as [raw|]; [|discriminate]. cbn [bind] in H.
  destruct (set_first _ raw) as [raw'|]; [|discriminate]. cbn [bind] in H. destruct (set_last _ _) as [raw''|]; [|discriminate].
  cbn [bind] in H. injection H as <-. cbn in *. auto.
Qed.
Lemma in_group_ok grp ne : in_group grp ne = true <-> Member grp ne.
Proof.
  unfold in_group, Member. destruct (e_group (snd ne)) as [g|]; [|split; discriminate]. rewrite eqs_eq. split; congruence.
Qed.

Lemma mapM_Forall2 {A B} (f : A -> res B) l : forall r, mapM f l = Ok r -> Forall2 (fun a b => f a = Ok b) l r.
Proof.
  induction l as [|a l IH]; intros r H; cbn in H; [injection H as <-; constructor|].
  destruct (f a) eqn:E; [|discriminate]. cbn in H. destruct (mapM f l); [|discriminate]. injection H as <-. constructor; auto.
Qed.
Lemma Forall2_impl' {A B} (P Q : A -> B -> Prop) l l' : (forall a b, P a b -> Q a b) -> Forall2 P l l' -> Forall2 Q l l'.
Proof. induction 2; constructor; auto. Qed.

Lemma sync_ok grp p p' : sync grp p = Ok p' ->
  let ms := filter (in_group grp) (p_graphs p) in
  (List.length ms < 2 -> p' = p) /\
  (2 <= List.length ms -> Synced grp (p_graphs p) (p_graphs p') /\ p_dom p' = p_dom p /\
     p_sync p' = if forallb (fun ne => e_zoom (snd ne)) ms then dset eqs grp (map fst ms) (p_sync p) else p_sync p).
Proof.
  intros H ms. unfold sync in H. fold ms in H. cbv zeta in H. destruct (Nat.leb_spec 2 (List.length ms)) as [L|L]; [|split; [congruence|lia]].
  split; [lia|]. intros _.
  destruct (hull_ok (map (fun ne => g_x (e_graph (snd ne))) ms)) as (x & Ex & Hx); [destruct ms; cbn in *; [lia|discriminate]|].
  destruct (hull_ok (map (fun ne => g_y (e_graph (snd ne))) ms)) as (y & Ey & Hy); [destruct ms; cbn in *; [lia|discriminate]|].
  rewrite Ex, Ey in H. destruct (mapM (sync_entry grp x y) (p_graphs p)) as [gs|] eqn:M; [|discriminate]. cbn [bind] in H.
  injection H as <-. cbn [p_graphs p_dom p_sync]. split; [|now split]. exists x, y. split; [exact Hx|]. split; [exact Hy|].
  apply mapM_Forall2 in M. eapply Forall2_impl'; [|exact M]. intros ne ne' E. unfold sync_entry in E.
  destruct (in_group grp ne) eqn:I.
  - apply in_group_ok in I. destruct (sync_graph x y (e_graph (snd ne))) as [g|] eqn:S; [|discriminate]. cbn [bind] in E. injection E as <-.
    apply sync_graph_any in S as (S1 & S2 & S3 & S4 & S5). cbn. split; [reflexivity|]. split; [reflexivity|]. split; [reflexivity|].
    split; [now split|]. split; [|contradiction]. intros _ raw K. split; [now apply S3|]. right. split; [assumption|]. split; [assumption|].
    exists (fst x), (snd x). now apply S3.
  - injection E as <-. assert (~ Member grp ne) as N by (intros C; apply in_group_ok in C; congruence). repeat split; auto; contradiction.
Qed.

(** Executions *)
Lemma steps_app a : forall p b, steps p (a ++ b) = (do q <- steps p a ;; steps q b).
Proof. induction a as [|x a IH]; intros p b; [reflexivity|]. cbn [app steps]. destruct (step p x); cbn [bind]; [apply IH|reflexivity]. Qed.
Lemma Forall2_in_r {A B} (P : A -> B -> Prop) l l' b : Forall2 P l l' -> In b l' -> exists a, In a l /\ P a b.
Proof.
  induction 1; intros []; [subst; exists x; split; [now left|assumption]|].
  destruct (IHForall2 H1) as (a & I & K). exists a. split; [now right|assumption].
Qed.
Lemma Forall2_in_l {A B} (P : A -> B -> Prop) l l' a : Forall2 P l l' -> In a l -> exists b, In b l' /\ P a b.
Proof.
  induction 1; intros []; [subst; exists y; split; [now left|assumption]|].
  destruct (IHForall2 H1) as (b & I & K). exists b. split; [now right|assumption].
Qed.
Lemma dset_in {V} k (v : V) (d : list (str * V)) x : In x (dset eqs k v d) -> x = (k, v) \/ In x d.
Proof.
  induction d as [|[k' v'] d IH]; cbn [dset].
  - intros [<-|[]]. now left.
  - destruct (eqs k k') eqn:E.
    + apply eqs_eq in E. subst k'. intros [<-|I]; [now left|right; now right].
    + intros [<-|I]; [right; now left|]. destruct (IH I) as [->|I']; [now left|right; now right].
Qed.

(** The rows of the plots *)
Lemma Rows_synced acts grp l l' : Synced grp l l' -> Rows acts l -> Rows acts l'.
Proof.
  intros (x & y & _ & _ & F) H n e I. destruct (Forall2_in_r _ _ _ _ F I) as ([n0 e0] & I0 & E1 & E2 & E3 & E4 & E5 & E6). cbn [fst snd] in *.
  subst n0. destruct (H n e0 I0) as (x0 & y0 & raw & IA & K). exists x0, y0, raw. rewrite E2, E3. split; [assumption|].
  assert (Member grp (n, e0) \/ ~ Member grp (n, e0)) as [M|M].
  { destruct (in_group grp (n, e0)) eqn:G; [left; now apply in_group_ok|right; intros C; apply in_group_ok in C; congruence]. }
  - now apply E5.
  - specialize (E6 M). injection E6 as ->. exact K.
Qed.
Lemma sync_Rows acts grp p p' : sync grp p = Ok p' -> Rows acts (p_graphs p) -> Rows acts (p_graphs p').
Proof.
  intros S H. destruct (sync_ok grp p p' S) as (S1 & S2). cbv zeta in *.
  destruct (Nat.le_gt_cases 2 (List.length (filter (in_group grp) (p_graphs p)))) as [L|L].
  - destruct (S2 L) as (Sy & _). eapply Rows_synced; eauto.
  - now rewrite (S1 L).
Qed.
Lemma Rows_more acts a l : Rows acts l -> Rows (acts ++ [a]) l.
Proof. intros H n e I. destruct (H n e I) as (x & y & raw & IA & K). exists x, y, raw. split; [apply in_app_iff; now left|assumption]. Qed.
Lemma step_Rows acts a p p' : Rows acts (p_graphs p) -> step p a = Ok p' -> Rows (acts ++ [a]) (p_graphs p').
Proof.
  intros H S. destruct a as [n grp zoom x y raw|n|n x y]; cbn [step] in S.
  - unfold generate in S. cbv zeta in S. set (q := purge _) in S.
    assert (Rows (acts ++ [Make n grp zoom x y raw]) (p_graphs q)) as Hq.
    { intros n' e' I. unfold q, purge in I. cbn [p_graphs] in I. apply filter_In in I as (I & _). apply dset_in in I as [E|I].
      - injection E as -> ->. exists x, y, raw. split; [apply in_app_iff; right; now left|]. left. now repeat split.
      - exact (Rows_more _ _ _ H _ _ I). }
    destruct grp as [g|]; [eapply sync_Rows; eauto|]. now injection S as <-.
  - injection S as <-. now apply Rows_more.
  - injection S as <-. cbn [p_graphs]. intros n' e' I. apply in_map_iff in I as ([m e] & E & I). apply Rows_more with (a := UserZoom n x y) in H.
    destruct (H m e I) as (x0 & y0 & raw & IA & K). cbn [fst snd] in E. destruct (follows p n m).
    + injection E as <- <-. cbn. exists x0, y0, raw. split; [assumption|exact K].
    + injection E as <- <-. now exists x0, y0, raw.
Qed.
Lemma run_ind (P : list act -> page -> Prop) : P [] (Page [] [] []) ->
  (forall acts a p p', run acts = Ok p -> P acts p -> step p a = Ok p' -> P (acts ++ [a]) p') -> forall acts p, run acts = Ok p -> P acts p.
Proof.
  intros H0 HS acts. induction acts as [|a acts IH] using rev_ind; intros p E.
  - now injection E as <-.
  - unfold run in E. rewrite steps_app in E. destruct (steps (Page [] [] []) acts) as [q|] eqn:Eq; [|discriminate]. cbn [bind steps] in E.
    destruct (step q a) as [q'|] eqn:Es; [|discriminate]. cbn in E. injection E as <-. eapply HS; eauto.
Qed.
Lemma run_Rows acts p : run acts = Ok p -> Rows acts (p_graphs p).
Proof.
  apply (run_ind (fun acts p => Rows acts (p_graphs p))); [intros n e []|]. intros. eapply step_Rows; eauto.
Qed.

(** No failure as long as every plot has rows *)
Lemma sync_total acts grp p : Rows acts (p_graphs p) -> Forall Full acts -> exists p', sync grp p = Ok p'.
Proof.
  intros H F. unfold sync. cbv zeta. set (ms := filter _ _). destruct (Nat.leb_spec 2 (List.length ms)); [|now eexists].
  destruct (hull_ok (map (fun ne => g_x (e_graph (snd ne))) ms)) as (x & Ex & _); [destruct ms; cbn in *; [lia|discriminate]|].
  destruct (hull_ok (map (fun ne => g_y (e_graph (snd ne))) ms)) as (y & Ey & _); [destruct ms; cbn in *; [lia|discriminate]|].
  rewrite Ex, Ey. assert (exists gs, mapM (sync_entry grp x y) (p_graphs p) = Ok gs) as (gs & ->); [|cbn; now eexists].
  clear -H F. induction (p_graphs p) as [|[n e] l IH]; [now exists []|]. destruct IH as (gs & E); [intros n' e' I; apply H; now right|].
  assert (exists b, sync_entry grp x y (n, e) = Ok b) as (b & Eb).
  { unfold sync_entry. destruct (in_group grp (n, e)); [|now eexists]. destruct (H n e (or_introl eq_refl)) as (x0 & y0 & raw & IA & K).
    rewrite Forall_forall in F. specialize (F _ IA). cbn in F. cbn [snd]. rewrite (sync_graph_ok x y raw _ K); [|intros _; exact F]. now eexists. }
  exists (b :: gs). cbn [mapM]. now rewrite Eb, E.
Qed.
Lemma run_total acts : Forall Full acts -> exists p, run acts = Ok p.
Proof.
  induction acts as [|a acts IH] using rev_ind; intros F; [now eexists|].
  pose proof F as F0. apply Forall_app in F as (F1 & F2). destruct (IH F1) as (p & E). unfold run. rewrite steps_app.
  unfold run in E. rewrite E. cbn [bind steps].
  assert (exists p', step p a = Ok p') as (p' & ->); [|now eexists].
  pose proof (run_Rows acts p E) as H. destruct a as [n grp zoom x y raw|n|n x y]; cbn [step]; try now eexists.
  unfold generate. cbv zeta. set (q := purge _). destruct grp as [g|]; [|now eexists].
  apply (sync_total (acts ++ [Make n (Some g) zoom x y raw])); [|assumption].
  intros n' e' I. unfold q, purge in I. cbn [p_graphs] in I. apply filter_In in I as (I & _). apply dset_in in I as [Ee|I].
  - injection Ee as -> ->. exists x, y, raw. split; [apply in_app_iff; right; now left|]. left. now repeat split.
  - exact (Rows_more _ _ _ H _ _ I).
Qed.

(** Plots made one after the other *)
Definition R (a : act) (ne : str * entry) : Prop :=
  match a with
  | Make n grp z x y raw => fst ne = n /\ e_group (snd ne) = grp /\ e_zoom (snd ne) = z /\ Kept raw (e_graph (snd ne)) /\
      Ended raw (e_graph (snd ne)) /\ Holds (g_x (e_graph (snd ne))) x /\ Holds (g_y (e_graph (snd ne))) y
  | _ => False
  end.
Definition cur (f : range -> range -> range) (grp : str) (l : list (str * entry)) : list range :=
  map (fun ne => f (g_x (e_graph (snd ne))) (g_y (e_graph (snd ne)))) (filter (in_group grp) l).
Definition J (f : range -> range -> range) (acts : list act) (l : list (str * entry)) : Prop :=
  forall grp, List.length (cur f grp l) = List.length (ranges f grp acts) /\
    (ranges f grp acts <> [] -> exists r, Hull (ranges f grp acts) r /\ Hull (cur f grp l) r /\
       (2 <= List.length (cur f grp l) -> forall x, In x (cur f grp l) -> x = r)).

Lemma synced_cur f grp l l' : f = fx \/ f = fy -> Synced grp l l' ->
  (forall g, List.length (cur f g l') = List.length (cur f g l)) /\
  (forall g, g <> grp -> cur f g l' = cur f g l) /\
  (exists r, Hull (cur f grp l) r /\ forall x, In x (cur f grp l') -> x = r).
Proof.
  intros Hf (x & y & Hx & Hy & F).
  assert (forall g, in_group g = fun ne => match e_group (snd ne) with Some g' => eqs g' g | None => false end) as IG by reflexivity.
  split; [|split].
  - intros g. unfold cur. rewrite !map_length. clear Hx Hy. induction F as [|ne ne' l l' (E1 & E2 & _) F IH]; [reflexivity|].
    cbn [filter]. rewrite (IG g). cbn beta. rewrite E2. destruct (match e_group (snd ne) with Some g' => eqs g' g | None => false end); cbn [List.length]; rewrite <- ?IG; [f_equal|]; apply IH.
  - intros g N. unfold cur. clear Hx Hy. induction F as [|ne ne' l l' (E1 & E2 & _ & _ & _ & E6) F IH]; [reflexivity|].
    cbn [filter]. destruct (in_group g ne') eqn:G'.
    + assert (~ Member grp ne) as M. { apply in_group_ok in G'. unfold Member in *. rewrite E2 in G'. congruence. }
      pose proof (E6 M) as ->. rewrite G'. cbn [map]. now rewrite IH.
    + destruct (in_group g ne) eqn:G; [|exact IH]. apply in_group_ok in G. exfalso.
      assert (in_group g ne' = true) by (apply in_group_ok; unfold Member in *; congruence). congruence.
  - exists (f x y). split.
    + unfold cur. destruct Hf as [->| ->]; unfold fx, fy; assumption.
    + intros u I. unfold cur in I. apply in_map_iff in I as (ne' & <- & I). apply filter_In in I as (I & G).
      destruct (Forall2_in_r _ _ _ _ F I) as (ne & _ & _ & E2 & _ & E4 & _). apply in_group_ok in G.
      destruct E4 as (-> & ->); [unfold Member in *; congruence|reflexivity].
Qed.
Lemma synced_R acts grp l l' : Synced grp l l' -> Forall2 R acts l -> Forall2 R acts l'.
Proof.
  intros (x & y & (Hx & _) & (Hy & _) & F) H.
  assert (forall ne, In ne l -> Member grp ne -> Holds x (g_x (e_graph (snd ne))) /\ Holds y (g_y (e_graph (snd ne)))) as B.
  { intros ne I M. apply in_group_ok in M. split; [apply Hx|apply Hy]; apply in_map_iff; exists ne; (split; [reflexivity|]); apply filter_In; now split. }
  clear Hx Hy. revert acts H B. induction F as [|ne ne' l l' (E1 & E2 & E3 & E4 & E5 & E6) F IH]; intros acts H B; inversion H as [|a acts' ? ? Ra Rs]; subst; constructor.
  - assert (Member grp ne \/ ~ Member grp ne) as [M|M].
    { destruct (in_group grp ne) eqn:G; [left; now apply in_group_ok|right; intros C; apply in_group_ok in C; congruence]. }
    + destruct a as [n g z x0 y0 raw| |]; try contradiction. cbn [R] in *. destruct Ra as (R1 & R2 & R3 & R4 & R5 & R6 & R7).
      destruct (E4 M) as (X & Y). destruct (E5 M raw R4) as (K1 & K2). destruct (B ne (or_introl eq_refl) M) as (Bx & By).
      unfold Holds in *. rewrite E1, E2, E3, X, Y. repeat split; try assumption; try lra. right. now rewrite X.
    + now rewrite (E6 M).
  - apply IH; [assumption|]. intros n I. apply B. now right.
Qed.

Lemma cur_app f grp l e : cur f grp (l ++ [e]) = cur f grp l ++ (if in_group grp e then [f (g_x (e_graph (snd e))) (g_y (e_graph (snd e)))] else []).
Proof. unfold cur. rewrite filter_app, map_app. cbn [filter]. now destruct (in_group grp e). Qed.
Lemma ranges_app f grp a b : ranges f grp (a ++ b) = ranges f grp a ++ ranges f grp b.
Proof. unfold ranges. now rewrite flat_map_app. Qed.
Lemma ranges_length f f' grp acts : List.length (ranges f grp acts) = List.length (ranges f' grp acts).
Proof.
  induction acts as [|a acts IH]; [reflexivity|]. unfold ranges in *. cbn [flat_map]. rewrite !app_length, IH. f_equal.
  destruct a as [? [g0|] ? ? ? ?| |]; try reflexivity. now destruct (eqs g0 grp).
Qed.

Definition Inv (acts : list act) (p : page) : Prop :=
  Forall Made acts -> NoDup (map name_of acts) ->
  Forall2 R acts (p_graphs p) /\ (forall n, In n (map name_of acts) -> In n (p_dom p)) /\ J fx acts (p_graphs p) /\ J fy acts (p_graphs p).

Lemma R_names acts l : Forall2 R acts l -> map fst l = map name_of acts.
Proof.
  induction 1 as [|a ne acts l Ra F IH]; [reflexivity|]. cbn. rewrite IH. f_equal. destruct a; cbn in *; try contradiction. apply Ra.
Qed.
Lemma J_other f acts l n z x y raw grp : f = fx \/ f = fy -> J f acts l ->
  (forall g, grp = Some g -> List.length (ranges f g acts) = 0) ->
  J f (acts ++ [Make n grp z x y raw]) (l ++ [(n, Entry (Graph x y raw false false) grp z)]).
Proof.
  intros Hf H N g. rewrite cur_app, ranges_app. cbn [ranges flat_map]. unfold in_group. cbn [snd e_group e_graph g_x g_y].
  destruct (H g) as (L & K). destruct grp as [g0|]; [|rewrite !app_nil_r; now split].
  destruct (eqs g0 g) eqn:E; [|rewrite !app_nil_r; now split]. apply eqs_eq in E. subst g0. cbn [app].
  specialize (N g eq_refl). destruct (ranges f g acts) eqn:Er; [|discriminate N]. destruct (cur f g l) eqn:Ec; [|discriminate L].
  split; [reflexivity|]. intros _. exists (f x y). split; [apply hull_one|]. split; [apply hull_one|]. cbn. lia.
Qed.
Lemma J_synced f acts l l' n z x y raw g : f = fx \/ f = fy -> J f acts l ->
  Synced g (l ++ [(n, Entry (Graph x y raw false false) (Some g) z)]) l' -> ranges f g acts <> [] ->
  J f (acts ++ [Make n (Some g) z x y raw]) l'.
Proof.
  intros Hf H S N g'. destruct (synced_cur f g _ _ Hf S) as (S1 & S2 & r & S3 & S4). destruct (H g') as (L & K).
  rewrite ranges_app. cbn [ranges flat_map]. destruct (eqs g g') eqn:E.
  - apply eqs_eq in E. subst g'. cbn [app]. rewrite S1, cur_app. unfold in_group. cbn [snd e_group e_graph g_x g_y].
    rewrite (proj2 (eqs_eq g g) eq_refl). split; [rewrite !app_length; cbn; lia|]. intros _.
    rewrite cur_app in S3. unfold in_group in S3. cbn [snd e_group e_graph g_x g_y] in S3. rewrite (proj2 (eqs_eq g g) eq_refl) in S3.
    destruct (K N) as (r0 & H1 & H2 & _). exists r. split; [eapply hull_same; eauto|]. split; [|intros _; exact S4].
    apply hull_const; [|exact S4]. intros C. apply (f_equal (@List.length _)) in C. rewrite S1, cur_app in C. unfold in_group in C. cbn [snd e_group] in C.
    rewrite (proj2 (eqs_eq g g) eq_refl), app_length in C. cbn in C. lia.
  - rewrite !app_nil_r. assert (g' <> g) as Ng by (intros ->; rewrite (proj2 (eqs_eq g g) eq_refl) in E; discriminate).
    rewrite (S2 g' Ng), cur_app. unfold in_group. cbn [snd e_group]. rewrite E, app_nil_r. now split.
Qed.

Lemma step_Inv acts a p p' : run acts = Ok p -> Inv acts p -> step p a = Ok p' -> Inv (acts ++ [a]) p'.
Proof.
  intros _ I S M ND. apply Forall_app in M as (M1 & M2). inversion M2 as [|? ? Ma _]; subst. destruct a as [n grp z x y raw| |]; try contradiction.
  rewrite map_app in ND. cbn [map name_of] in ND. apply NoDup_remove in ND as (ND & Nn). rewrite app_nil_r in ND, Nn.
  destruct (I M1 ND) as (F & Dm & Jx & Jy). cbn [step] in S. unfold generate in S. cbv zeta in S. cbn [p_graphs p_sync p_dom] in S.
  assert (dget eqs n (p_graphs p) = None) as G.
  { destruct (dget eqs n (p_graphs p)) eqn:G; [|reflexivity]. apply (dget_In eqs eqs_eq) in G. exfalso. apply Nn.
    rewrite <- (R_names _ _ F). apply in_map_iff. now exists (n, e). }
  rewrite (dset_new eqs _ _ _ G) in S. set (e := Entry _ grp z) in S. set (l := p_graphs p ++ [(n, e)]) in S.
  assert (purge (Page l (p_sync p) (n :: p_dom p)) = Page l (p_sync p) (n :: p_dom p)) as P.
  { unfold purge. cbn [p_graphs p_sync p_dom]. f_equal. assert (forall ne, In ne l -> existsb (eqs (fst ne)) (n :: p_dom p) = true) as A.
    { intros ne Ie. apply existsb_exists. exists (fst ne). split; [|now apply eqs_eq]. unfold l in Ie. apply in_app_iff in Ie as [Ie|[<-|[]]]; [|now left].
      right. apply Dm. rewrite <- (R_names _ _ F). now apply in_map. }
    clear -A. clearbody l. induction l as [|b l IH]; [reflexivity|]. cbn [filter]. rewrite (A b (or_introl eq_refl)). f_equal. apply IH. intros ne Ie. apply A. now right. }
  rewrite P in S.
  assert (Forall2 R (acts ++ [Make n grp z x y raw]) l) as Fl.
  { apply Forall2_app; [assumption|]. constructor; [|constructor]. cbn. repeat split; try (left; now repeat split); try reflexivity; apply Qle_refl. }
  assert (forall m, In m (map name_of (acts ++ [Make n grp z x y raw])) -> In m (n :: p_dom p)) as Dl.
  { intros m Im. rewrite map_app in Im. apply in_app_iff in Im as [Im|[<-|[]]]; [right; auto|now left]. }
  destruct grp as [g|].
  - destruct (sync_ok g _ _ S) as (S1 & S2). cbn [p_graphs p_dom p_sync] in S1, S2.
    destruct (Nat.le_gt_cases 2 (List.length (filter (in_group g) l))) as [L|L].
    + destruct (S2 L) as (Sy & Ed & _). assert (forall f, ranges f g acts <> []) as N.
      { intros f C. assert (List.length (cur fx g l) = List.length (filter (in_group g) l)) as E1 by apply map_length.
        unfold l in E1 at 1. rewrite cur_app, app_length in E1. destruct (Jx g) as (E2 & _). 
        assert (List.length (ranges fx g acts) = List.length (ranges f g acts)) as E3.
        { apply ranges_length. }
        rewrite C in E3. cbn in E3. destruct (in_group g (n, e)); cbn [List.length] in E1; lia. }
      split; [eapply synced_R; eauto|]. rewrite Ed. split; [exact Dl|].
      split; eapply J_synced; eauto.
    + rewrite (S1 L). cbn [p_graphs p_dom]. split; [assumption|]. split; [exact Dl|].
      assert (forall f, List.length (cur f g l) = List.length (filter (in_group g) l)) as E1 by (intros; apply map_length).
      assert (in_group g (n, e) = true) as Ge by (apply in_group_ok; reflexivity).
      split; (apply J_other; [auto|assumption|]); intros g' Eg'; injection Eg' as <-.
      * destruct (Jx g) as (E2 & _). specialize (E1 fx). unfold l in E1 at 1. rewrite cur_app, app_length, Ge in E1. cbn in E1. lia.
      * destruct (Jy g) as (E2 & _). specialize (E1 fy). unfold l in E1 at 1. rewrite cur_app, app_length, Ge in E1. cbn in E1. lia.
  - injection S as <-. cbn [p_graphs p_dom]. split; [assumption|]. split; [exact Dl|].
    split; (apply J_other; [auto|assumption|]); intros g' Eg'; discriminate Eg'.
Qed.
Lemma run_Inv acts p : run acts = Ok p -> Inv acts p.
Proof.
  apply (run_ind Inv); [|exact step_Inv]. intros _ _. split; [constructor|]. split; [intros n []|].
  split; intros g; (split; [reflexivity|]); intros C; now destruct C.
Qed.

Lemma run_common acts p grp : run acts = Ok p -> Forall Made acts -> NoDup (map name_of acts) ->
  2 <= List.length (ranges fx grp acts) ->
  exists x y, Hull (ranges fx grp acts) x /\ Hull (ranges fy grp acts) y /\
    forall n e, In (n, e) (p_graphs p) -> e_group e = Some grp -> g_x (e_graph e) = x /\ g_y (e_graph e) = y.
Proof.
  intros E M ND L. destruct (run_Inv acts p E M ND) as (F & _ & Jx & Jy).
  assert (List.length (ranges fy grp acts) = List.length (ranges fx grp acts)) as E3.
  { apply ranges_length. }
  destruct (Jx grp) as (Lx & Kx). destruct (Jy grp) as (Ly & Ky).
  destruct Kx as (x & X1 & X2 & X3); [intros C; rewrite C in L; cbn in L; lia|].
  destruct Ky as (y & Y1 & Y2 & Y3); [intros C; rewrite C in E3; cbn in E3; lia|].
  exists x, y. split; [assumption|]. split; [assumption|]. intros n e I G.
  assert (in_group grp (n, e) = true) as Ge by now apply in_group_ok.
  split; [apply X3; [lia|]|apply Y3; [lia|]]; unfold cur; apply in_map_iff; exists (n, e); (split; [reflexivity|]); apply filter_In; now split.
Qed.
Lemma sorted_app {A} (P : A -> A -> Prop) l a : StronglySorted P l -> (forall b, In b l -> P b a) -> StronglySorted P (l ++ [a]).
Proof.
  induction 1 as [|b l S IH F]; intros H; cbn; [repeat constructor|]. constructor; [apply IH; intros c I; apply H; now right|].
  apply Forall_app. split; [assumption|]. constructor; [apply H; now left|constructor].
Qed.
Lemma run_order acts p : run acts = Ok p -> Forall Whole acts -> NoDup (map name_of acts) ->
  forall n e, In (n, e) (p_graphs p) -> InOrder (g_raw (e_graph e)).
Proof.
  intros E W ND n e I. assert (Forall Made acts) as M by (eapply Forall_impl; [|exact W]; intros [] ?; now cbn).
  destruct (run_Inv acts p E M ND) as (F & _). destruct (Forall2_in_r _ _ _ _ F I) as (a & Ia & Ra).
  rewrite Forall_forall in W. specialize (W a Ia). destruct a as [n' g z x y raw| |]; try contradiction. cbn in Ra, W.
  destruct Ra as (_ & _ & _ & _ & En & (H1 & H2) & _). destruct W as (Le & O & B). destruct En as [->| ->]; [assumption|].
  constructor.
  - apply sorted_app; [assumption|]. intros r Ir. cbn. specialize (B r Ir). lra.
  - apply Forall_forall. intros r Ir. apply in_app_iff in Ir as [Ir|[<-|[]]]; cbn; [specialize (B r Ir); lra|lra].
Qed.

(** Zooming one plot zooms all of its group *)
Definition Linked (p : page) : Prop :=
  forall grp, 2 <= List.length (filter (in_group grp) (p_graphs p)) ->
    (forall n e, In (n, e) (p_graphs p) -> e_group e = Some grp -> e_zoom e = true) ->
    exists ns, In (grp, ns) (p_sync p) /\ forall n e, In (n, e) (p_graphs p) -> e_group e = Some grp -> In n ns.
Lemma dset_has {V} k (v : V) (d : list (str * V)) : In (k, v) (dset eqs k v d).
Proof.
  induction d as [|[k' v'] d IH]; cbn [dset]; [now left|]. destruct (eqs k k') eqn:E; [|now right].
  apply eqs_eq in E. subst. now left.
Qed.
Lemma dset_keeps {V} k (v : V) (d : list (str * V)) k' v' : k' <> k -> In (k', v') d -> In (k', v') (dset eqs k v d).
Proof.
  intros N. induction d as [|[k0 v0] d IH]; cbn [dset]; [intros []|]. destruct (eqs k k0) eqn:E.
  - apply eqs_eq in E. subst. intros [C|I]; [congruence|now right].
  - intros [C|I]; [now left|right; auto].
Qed.
Lemma filter_F2 g l l' : Forall2 (fun ne ne' : str * entry => fst ne' = fst ne /\ e_group (snd ne') = e_group (snd ne) /\ e_zoom (snd ne') = e_zoom (snd ne)) l l' ->
  map fst (filter (in_group g) l') = map fst (filter (in_group g) l).
Proof.
  induction 1 as [|ne ne' l l' (E1 & E2 & E3) F IH]; [reflexivity|]. cbn [filter].
  assert (in_group g ne' = in_group g ne) as -> by (unfold in_group; now rewrite E2). destruct (in_group g ne); cbn [map]; now rewrite ?E1, IH.
Qed.
Lemma Linked_sync g p p' : sync g p = Ok p' ->
  (forall grp, grp <> g -> 2 <= List.length (filter (in_group grp) (p_graphs p)) ->
    (forall n e, In (n, e) (p_graphs p) -> e_group e = Some grp -> e_zoom e = true) ->
    exists ns, In (grp, ns) (p_sync p) /\ forall n e, In (n, e) (p_graphs p) -> e_group e = Some grp -> In n ns) -> Linked p'.
Proof.
  intros S H. destruct (sync_ok g p p' S) as (S1 & S2). cbv zeta in S1, S2.
  destruct (Nat.le_gt_cases 2 (List.length (filter (in_group g) (p_graphs p)))) as [L|L].
  - destruct (S2 L) as ((x & y & _ & _ & F) & _ & Es). clear S1 S2.
    assert (Forall2 (fun ne ne' : str * entry => fst ne' = fst ne /\ e_group (snd ne') = e_group (snd ne) /\ e_zoom (snd ne') = e_zoom (snd ne)) (p_graphs p) (p_graphs p')) as F'.
    { eapply Forall2_impl'; [|exact F]. cbn beta. intros ne ne' (E1 & E2 & E3 & _). now repeat split. }
    intros grp L' Z. pose proof (filter_F2 grp _ _ F') as Ef. assert (List.length (filter (in_group grp) (p_graphs p)) = List.length (filter (in_group grp) (p_graphs p'))) as El.
    { rewrite <- (map_length fst), <- Ef. apply map_length. }
    assert (forall n e, In (n, e) (p_graphs p) -> e_group e = Some grp -> e_zoom e = true) as Z0.
    { intros n e I G. destruct (Forall2_in_l _ _ _ _ F' I) as ([n' e'] & I' & E1 & E2 & E3). cbn in E1, E2, E3. rewrite <- E3. apply (Z n' e' I'). congruence. }
    assert (forall ns : list str, (forall n e, In (n, e) (p_graphs p) -> e_group e = Some grp -> In n ns) -> forall n e, In (n, e) (p_graphs p') -> e_group e = Some grp -> In n ns) as B.
    { intros ns Hn n e I G. destruct (Forall2_in_r _ _ _ _ F' I) as ([n' e'] & I' & E1 & E2 & E3). cbn in E1, E2, E3. subst n'. apply (Hn n e' I'). congruence. }
    destruct (eqs grp g) eqn:E.
    + apply eqs_eq in E. subst grp. rewrite Es. assert (forallb (fun ne : str * entry => e_zoom (snd ne)) (filter (in_group g) (p_graphs p)) = true) as ->.
      { apply forallb_forall. intros [n e] I. apply filter_In in I as (I & G). apply in_group_ok in G. exact (Z0 n e I G). }
      eexists. split; [apply dset_has|]. apply B. intros n e I G. apply in_map_iff. exists (n, e). split; [reflexivity|]. apply filter_In. split; [assumption|]. now apply in_group_ok.
    + assert (grp <> g) as N by (intros ->; rewrite (proj2 (eqs_eq g g) eq_refl) in E; discriminate).
      destruct (H grp N) as (ns & In1 & In2); [lia|exact Z0|]. exists ns. split; [|now apply B]. rewrite Es.
      destruct (forallb _ _); [now apply dset_keeps|assumption].
  - rewrite (S1 L). intros grp L' Z. apply H; try assumption. intros ->. lia.
Qed.
Lemma step_Linked n grp z x y raw p p' : ~ In n (map fst (p_graphs p)) -> (forall m, In m (map fst (p_graphs p)) -> In m (p_dom p)) ->
  Linked p -> step p (Make n grp z x y raw) = Ok p' -> Linked p'.
Proof.
  intros Nn Dm H S. cbn [step] in S. unfold generate in S. cbv zeta in S. cbn [p_graphs p_sync p_dom] in S.
  assert (dget eqs n (p_graphs p) = None) as G.
  { destruct (dget eqs n (p_graphs p)) eqn:G; [|reflexivity]. apply (dget_In eqs eqs_eq) in G. exfalso. apply Nn. apply in_map_iff. now exists (n, e). }
  rewrite (dset_new eqs _ _ _ G) in S. set (e := Entry _ grp z) in S. set (l := p_graphs p ++ [(n, e)]) in S.
  assert (purge (Page l (p_sync p) (n :: p_dom p)) = Page l (p_sync p) (n :: p_dom p)) as P.
  { unfold purge. cbn [p_graphs p_sync p_dom]. f_equal. assert (forall ne, In ne l -> existsb (eqs (fst ne)) (n :: p_dom p) = true) as A.
    { intros ne Ie. apply existsb_exists. exists (fst ne). split; [|now apply eqs_eq]. unfold l in Ie. apply in_app_iff in Ie as [Ie|[<-|[]]]; [|now left].
      right. apply Dm. now apply in_map. }
    clear -A. clearbody l. induction l as [|b l IH]; [reflexivity|]. cbn [filter]. rewrite (A b (or_introl eq_refl)). f_equal. apply IH. intros ne Ie. apply A. now right. }
  rewrite P in S.
  assert (forall g, grp <> Some g -> 2 <= List.length (filter (in_group g) l) ->
    (forall m e, In (m, e) l -> e_group e = Some g -> e_zoom e = true) ->
    exists ns, In (g, ns) (p_sync p) /\ forall m e, In (m, e) l -> e_group e = Some g -> In m ns) as O.
  { intros g Ng L Z. assert (in_group g (n, e) = false) as F.
    { destruct (in_group g (n, e)) eqn:F; [|reflexivity]. apply in_group_ok in F. unfold Member in F. cbn in F. congruence. }
    unfold l in L, Z |- *. rewrite filter_app, app_length in L. cbn [filter] in L. rewrite F in L. cbn [List.length] in L. destruct (H g) as (ns & I1 & I2); [lia| |].
    - intros m e' I E. apply (Z m e'); [apply in_app_iff; now left|assumption].
    - exists ns. split; [assumption|]. intros m e' I E. apply in_app_iff in I as [I|[C|[]]]; [eauto|]. injection C as <- <-. cbn in E. congruence. }
  destruct grp as [g|].
  - eapply Linked_sync; [exact S|]. cbn [p_graphs p_sync]. intros g' N. apply O. congruence.
  - injection S as <-. intros g. cbn [p_graphs p_sync]. apply O. discriminate.
Qed.
Lemma run_Linked acts p : run acts = Ok p -> Forall Made acts -> NoDup (map name_of acts) -> Linked p.
Proof.
  apply (run_ind (fun acts p => Forall Made acts -> NoDup (map name_of acts) -> Linked p)).
  - intros _ _ grp L. cbn in L. lia.
  - intros l a q q' E H S M ND. apply Forall_app in M as (M1 & M2). inversion M2 as [|? ? Ma _]; subst. destruct a as [n grp z x y raw| |]; try contradiction.
    rewrite map_app in ND. cbn [map name_of] in ND. apply NoDup_remove in ND as (ND & Nn). rewrite app_nil_r in ND, Nn.
    destruct (run_Inv l q E M1 ND) as (F & Dm & _). eapply step_Linked; [| |exact (H M1 ND)|exact S].
    + now rewrite (R_names _ _ F).
    + intros m. rewrite (R_names _ _ F). apply Dm.
Qed.
Lemma run_zoom acts p grp n x y p' : run acts = Ok p -> Forall Made acts -> NoDup (map name_of acts) ->
  (forall m e, In (m, e) (p_graphs p) -> e_group e = Some grp -> e_zoom e = true) ->
  (exists e, In (n, e) (p_graphs p) /\ e_group e = Some grp) -> step p (UserZoom n x y) = Ok p' ->
  forall m e, In (m, e) (p_graphs p') -> e_group e = Some grp -> g_x (e_graph e) = x /\ g_y (e_graph e) = y.
Proof.
  intros E M ND Z (en & In0 & Gn) S m e I G. cbn [step] in S. injection S as <-. cbn [p_graphs] in I.
  apply in_map_iff in I as ([m0 e0] & Em & I). cbn [fst snd] in Em.
  assert (e_group e0 = Some grp) as G0. { destruct (follows p n m0); injection Em as <- <-; exact G. }
  assert (follows p n m0 = true) as Fo.
  { unfold follows. destruct (eqs m0 n) eqn:Eq; [reflexivity|]. cbn [orb].
    assert (2 <= List.length (filter (in_group grp) (p_graphs p))) as L.
    { assert (In (n, en) (filter (in_group grp) (p_graphs p))) as I1 by (apply filter_In; split; [assumption|now apply in_group_ok]).
      assert (In (m0, e0) (filter (in_group grp) (p_graphs p))) as I2 by (apply filter_In; split; [assumption|now apply in_group_ok]).
      destruct (filter (in_group grp) (p_graphs p)) as [|a [|b t]]; cbn; [destruct I1| |lia].
      destruct I1 as [->|[]]. destruct I2 as [C|[]]. injection C as <- <-. rewrite (proj2 (eqs_eq n n) eq_refl) in Eq. discriminate. }
    destruct (run_Linked acts p E M ND grp L Z) as (ns & I1 & I2). apply existsb_exists. exists (grp, ns). split; [assumption|]. cbn [snd].
    apply andb_true_iff. split; apply existsb_exists; [exists n|exists m0]; (split; [|now apply eqs_eq]).
    - exact (I2 n en In0 Gn).
    - exact (I2 m0 e0 I G0). }
  rewrite Fo in Em. injection Em as <- <-. now cbn.
Qed.

(** The plots there are after one was added *)
Lemma sync_names g p p' : sync g p = Ok p' -> map fst (p_graphs p') = map fst (p_graphs p) /\ p_dom p' = p_dom p.
Proof.
  intros S. destruct (sync_ok g p p' S) as (S1 & S2). cbv zeta in S1, S2.
  destruct (Nat.le_gt_cases 2 (List.length (filter (in_group g) (p_graphs p)))) as [L|L]; [|now rewrite (S1 L)].
  destruct (S2 L) as ((x & y & _ & _ & F) & Ed & _). split; [|exact Ed]. clear -F. induction F as [|ne ne' l l' (E & _) F IH]; [reflexivity|]. cbn. now rewrite E, IH.
Qed.
Lemma filter_names (f : str -> bool) (l : list (str * entry)) : map fst (filter (fun ne => f (fst ne)) l) = filter f (map fst l).
Proof. induction l as [|[n e] l IH]; [reflexivity|]. cbn. destruct (f n); cbn; now rewrite IH. Qed.
Lemma make_names n grp z x y raw p p' : step p (Make n grp z x y raw) = Ok p' ->
  p_dom p' = n :: p_dom p /\ map fst (p_graphs p') = filter (fun m => existsb (eqs m) (n :: p_dom p)) (map fst (dset eqs n (Entry (Graph x y raw false false) grp z) (p_graphs p))).
Proof.
  intros S. cbn [step] in S. unfold generate in S. cbv zeta in S. cbn [p_graphs p_sync p_dom] in S.
  assert (forall q, match grp with Some g => sync g q | None => Ok q end = Ok p' -> map fst (p_graphs p') = map fst (p_graphs q) /\ p_dom p' = p_dom q) as A.
  { intros q E. destruct grp; [now apply (sync_names s)|]. injection E as ->. now split. }
  destruct (A _ S) as (E1 & E2). unfold purge in E1, E2. cbn [p_graphs p_dom] in E1, E2. split; [assumption|]. rewrite E1.
  apply (filter_names (fun m => existsb (eqs m) (n :: p_dom p))).
Qed.
Lemma make_there n grp z x y raw p p' : step p (Make n grp z x y raw) = Ok p' ->
  forall m, In m (map fst (p_graphs p')) <-> m = n \/ In m (map fst (p_graphs p)) /\ In m (p_dom p).
Proof.
  intros S m. destruct (make_names _ _ _ _ _ _ _ _ S) as (_ & ->). rewrite filter_In, existsb_exists.
  assert (In m (map fst (dset eqs n (Entry (Graph x y raw false false) grp z) (p_graphs p))) <-> m = n \/ In m (map fst (p_graphs p))) as ->.
  { induction (p_graphs p) as [|[k v] d IH]; cbn [dset map fst In]; [intuition|]. destruct (eqs n k) eqn:E.
    - apply eqs_eq in E. subst k. cbn [map fst In]. intuition.
    - cbn [map fst In]. rewrite IH. intuition. }
  split.
  - intros (I & k & [<-|Ik] & E); apply eqs_eq in E; subst; [now left|]. destruct I; [now left|right; now split].
  - intros [-> | (I & Ip)].
    + split; [now left|]. exists n. split; [now left|now apply eqs_eq].
    + split; [now right|]. exists m. split; [now right|now apply eqs_eq].
Qed.
Lemma filter_NoDup (f : str -> bool) l : NoDup l -> NoDup (filter f l).
Proof.
  induction 1 as [|a l N ND IH]; [constructor|]. cbn. destruct (f a); [|exact IH]. constructor; [|exact IH]. intros C. apply N. now apply filter_In in C.
Qed.
Lemma run_distinct acts p : run acts = Ok p -> NoDup (map fst (p_graphs p)).
Proof.
  apply (run_ind (fun _ p => NoDup (map fst (p_graphs p)))); [constructor|]. intros l a q q' _ H S. destruct a as [n grp z x y raw|n|n x y].
  - destruct (make_names _ _ _ _ _ _ _ _ S) as (_ & ->). apply filter_NoDup. now apply (dset_NoDup eqs eqs_eq).
  - cbn [step] in S. now injection S as <-.
  - cbn [step] in S. injection S as <-. cbn [p_graphs]. rewrite map_map.
    replace (map (fun me : str * entry => fst (if follows q n (fst me) then _ else me)) (p_graphs q)) with (map fst (p_graphs q)); [assumption|].
    apply map_ext. intros [m e]. cbn. now destruct (follows q n m).
Qed.
