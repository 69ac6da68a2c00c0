From Coq Require Import List Ascii String ZArith QArith Qminmax Bool Lia Lqa.
From Verif Require Import Lib.PyStr Model.EventPlot Model.EventBars Spec.EventPlot Spec.EventBars Lib.PyStrFacts Proofs.EventPlotP.
Import ListNotations.
Local Open Scope nat_scope.
Local Open Scope list_scope.

Lemma qlt_true a b : qlt a b = true <-> (a < b)%Q.
Proof.
  unfold qlt. rewrite negb_true_iff. split; intros H.
  - apply Qnot_le_lt. intros L. apply Qle_bool_iff in L. congruence.
  - destruct (Qle_bool b a) eqn:E; [|reflexivity]. apply Qle_bool_iff in E. lra.
Qed.
Lemma qlt_false a b : qlt a b = false <-> (b <= a)%Q.
Proof.
  unfold qlt. rewrite negb_false_iff. apply Qle_bool_iff.
Qed.
Lemma js_max_ok a b : (js_max a b == Qmax a b)%Q.
Proof.
  unfold js_max. destruct (Qle_bool a b) eqn:E.
  - apply Qle_bool_iff in E. symmetry. now apply Q.max_r.
  - assert (b < a)%Q by (apply qlt_true; unfold qlt; now rewrite E). symmetry. apply Q.max_l. lra.
Qed.
Lemma js_min_ok a b : (js_min a b == Qmin a b)%Q.
Proof.
  unfold js_min. destruct (Qle_bool a b) eqn:E.
  - apply Qle_bool_iff in E. symmetry. now apply Q.min_l.
  - assert (b < a)%Q by (apply qlt_true; unfold qlt; now rewrite E). symmetry. apply Q.min_r. lra.
Qed.
#[global] Instance sc_proper s : Proper (Qeq ==> Qeq) (sc s).
Proof. intros a b E. unfold sc. now rewrite E. Qed.
Lemma sc_mono x a b : Rising x -> (a <= b)%Q -> (sc x a <= sc x b)%Q.
Proof.
  intros [H1 H2] L. unfold sc. 
  assert (0 <= / (d1 x - d0 x))%Q by (apply Qinv_le_0_compat; lra).
  assert ((a - d0 x) / (d1 x - d0 x) <= (b - d0 x) / (d1 x - d0 x))%Q.
  { unfold Qdiv. apply Qmult_le_compat_r; [lra|assumption]. }
  assert ((a - d0 x) / (d1 x - d0 x) * (r1 x - r0 x) <= (b - d0 x) / (d1 x - d0 x) * (r1 x - r0 x))%Q.
  { apply Qmult_le_compat_r; [assumption|lra]. }
  lra.
Qed.

(** The binary search *)
Section Search.
Variable key : Q * Q -> Q.
Variable value : Q.
Variable data : list (Q * Q).
Let P (i : nat) := exists d, nth_error data i = Some d /\ (value < key d)%Q.
Lemma search_ok fuel : forall lo hi, lo <= hi -> hi <= List.length data -> hi - lo <= fuel ->
  exists m, search_data fuel data key value lo hi = Ok m /\ lo <= m <= hi /\ (m < hi -> P m) /\ (lo < m -> ~ P (m - 1)).
Proof.
  induction fuel as [|fuel IH]; intros lo hi L H F; cbn [search_data].
  - destruct (Nat.ltb_spec lo hi); [lia|]. exists lo. repeat split; try lia.
  - destruct (Nat.ltb_spec lo hi) as [L'|L'].
    + assert (lo <= (lo + hi) / 2 < hi) as [M1 M2].
      { split; [apply Nat.div_le_lower_bound; lia | apply Nat.div_lt_upper_bound; lia]. }
      set (mid := (lo + hi) / 2) in *.
      destruct (nth_error data mid) as [d|] eqn:E; [|apply nth_error_None in E; lia].
      destruct (qlt value (key d)) eqn:C.
      * apply qlt_true in C. destruct (IH lo mid) as (m & E1 & E2 & E3 & E4); try lia.
        exists m. repeat split; try assumption; try lia. intros _.
        destruct (Nat.eq_dec m mid) as [->|N]; [now exists d | apply E3; lia].
      * apply qlt_false in C. destruct (IH (S mid) hi) as (m & E1 & E2 & E3 & E4); try lia.
        exists m. repeat split; try assumption; try lia. intros _.
        destruct (Nat.eq_dec m (S mid)) as [->|N]; [|apply E4; lia].
        intros (d' & Ed & Lt). replace (S mid - 1) with mid in Ed by lia. rewrite E in Ed. injection Ed as <-. lra.
    + exists lo. repeat split; try lia.
Qed.
End Search.

Lemma disjoint_tl d l : Disjoint (d :: l) -> Disjoint l.
Proof. now intros (_ & _ & H). Qed.
Lemma disjoint_hd d l : Disjoint (d :: l) -> forall e, In e l -> (snd d <= fst e /\ fst d <= snd d /\ fst e <= snd e)%Q.
Proof.
  revert d. induction l as [|a l IH]; intros d D e []; destruct D as (H1 & H2 & D).
  - subst a. destruct D as (H3 & _). lra.
  - pose proof (IH a D e H) as K. destruct D as (H3 & _). lra.
Qed.
Lemma disjoint_lt l : Disjoint l -> forall i j d e, i < j -> nth_error l i = Some d -> nth_error l j = Some e -> (snd d <= fst e)%Q.
Proof.
  induction l as [|a l IH]; intros D i j d e L Hi Hj; [now destruct i|].
  destruct j as [|j]; [lia|]. cbn in Hj. destruct i as [|i]; cbn in Hi.
  - injection Hi as <-. apply nth_error_In in Hj. now apply (disjoint_hd a l D).
  - eapply (IH (disjoint_tl _ _ D) i j); eauto. lia.
Qed.
Lemma disjoint_in l : Disjoint l -> forall d, In d l -> (fst d <= snd d)%Q.
Proof.
  induction l as [|a l IH]; intros D d []; [subst; apply D | apply IH; auto; now apply disjoint_tl in D].
Qed.

(** Strokes of single intervals *)
Lemma process_bars x y l d : Bars x (y_pos y l) [d] (process d (d0 x) (d1 x) x y l).
Proof.
  unfold process.
  set (a := if qlt (fst d) (d0 x) then d0 x else fst d). set (b := if qlt (d1 x) (snd d) then d1 x else snd d).
  assert (a == Qmax (fst d) (d0 x))%Q as Ea.
  { unfold a. destruct (qlt (fst d) (d0 x)) eqn:C.
    - apply qlt_true in C. symmetry. apply Q.max_r. lra.
    - apply qlt_false in C. symmetry. now apply Q.max_l. }
  assert (b == Qmin (snd d) (d1 x))%Q as Eb.
  { unfold b. destruct (qlt (d1 x) (snd d)) eqn:C.
    - apply qlt_true in C. symmetry. apply Q.min_r. lra.
    - apply qlt_false in C. symmetry. now apply Q.min_l. }
  clearbody a b. cbv zeta.
  assert (sc x a == fst (part x d))%Q as Fa by (cbn; now rewrite Ea).
  assert (sc x b == snd (part x d))%Q as Fb by (cbn; now rewrite Eb).
  destruct (qlt (sc x b - sc x a) (1 # 100)) eqn:C.
  - apply qlt_true in C. apply Bars_no; [|constructor]. unfold NoBar. lra.
  - apply qlt_false in C. apply Bars_yes; [|constructor]. unfold Bar. cbv zeta. split; [lra|]. split; [assumption|].
    destruct (qlt (sc x b - sc x a) 1) eqn:C1.
    + apply qlt_true in C1. rewrite Q.max_r; lra.
    + apply qlt_false in C1. rewrite Q.max_l; lra.
Qed.
Lemma bars_app x p a b sa sb : Bars x p a sa -> Bars x p b sb -> Bars x p (a ++ b) (sa ++ sb).
Proof. induction 1; intros; cbn; [assumption|apply Bars_no; auto|apply Bars_yes; auto]. Qed.
Lemma flat_bars x y l ds : Bars x (y_pos y l) ds (flat_map (fun d => process d (d0 x) (d1 x) x y l) ds).
Proof.
  induction ds as [|d ds IH]; cbn; [constructor|]. apply (bars_app x _ [d] ds); [apply process_bars|assumption].
Qed.
Lemma bars_no x p ds : (forall d, In d ds -> NoBar x d) -> Bars x p ds [].
Proof. induction ds; intros H; constructor; [apply H; now left|]. apply IHds. intros d I. apply H. now right. Qed.

Lemma outside_before x d : Rising x -> (fst d <= snd d)%Q -> (snd d <= d0 x)%Q -> NoBar x d.
Proof.
  intros R L H. unfold NoBar, part. cbn [fst snd].
  assert (sc x (Qmin (snd d) (d1 x)) <= sc x (Qmax (fst d) (d0 x)))%Q.
  { apply sc_mono; [assumption|]. pose proof (Q.le_min_l (snd d) (d1 x)). pose proof (Q.le_max_r (fst d) (d0 x)). lra. }
  lra.
Qed.
Lemma outside_after x d : Rising x -> (d1 x <= fst d)%Q -> NoBar x d.
Proof.
  intros R H. unfold NoBar, part. cbn [fst snd].
  assert (sc x (Qmin (snd d) (d1 x)) <= sc x (Qmax (fst d) (d0 x)))%Q.
  { apply sc_mono; [assumption|]. pose proof (Q.le_min_r (snd d) (d1 x)). pose proof (Q.le_max_l (fst d) (d0 x)). lra. }
  lra.
Qed.

Lemma every_1 l : every 1 0 l = l.
Proof. induction l; cbn; [reflexivity|now f_equal]. Qed.
Lemma every_in n l : forall k d, In d (every n k l) -> In d l.
Proof.
  induction l as [|a l IH]; intros k d H; [destruct H|]. cbn in H. destruct k; [destruct H as [->|H]|]; [now left| |]; right; eauto.
Qed.
Lemma every_length n l : forall k, k <= n - 1 -> 1 <= n -> List.length (every n k l) * n <= List.length l + (n - 1) - k.
Proof.
  induction l as [|a l IH]; intros k K N; cbn [every List.length]; [lia|].
  destruct k as [|k]; cbn [List.length].
  - pose proof (IH (n - 1) ltac:(lia) N). cbn [Nat.mul]. lia.
  - pose proof (IH k ltac:(lia) N). lia.
Qed.
Lemma stride_ok l : List.length (every (stride_length true (List.length l)) 0 l) <= 2000.
Proof.
  unfold stride_length. change max_rects with 2000. set (n := List.length l) at 1.
  set (c := (n + (2000 - 1)) / 2000). set (s := Nat.max c 1).
  pose proof (every_length s l 0 ltac:(lia) ltac:(lia)) as E.
  assert (n <= 2000 * c).
  { unfold c. pose proof (Nat.div_mod (n + (2000 - 1)) 2000 ltac:(lia)). pose proof (Nat.mod_upper_bound (n + (2000 - 1)) 2000 ltac:(lia)). lia. }
  assert (2000 * c <= 2000 * s) by (apply Nat.mul_le_mono_l; lia). fold n in E.
  set (k := List.length (every s 0 l)) in *. clearbody k.
  destruct (Nat.le_gt_cases k 2000) as [?|G]; [assumption|]. exfalso.
  assert (2001 * s <= k * s) by (apply Nat.mul_le_mono_r; lia). lia.
Qed.

Lemma skipn_add {A} n : forall m (l : list A), skipn n (skipn m l) = skipn (m + n) l.
Proof. induction m; intros l; [reflexivity|]. destruct l; cbn; [now rewrite skipn_nil|apply IHm]. Qed.
Lemma nth_firstn {A} n : forall i (l : list A), i < n -> nth_error (firstn n l) i = nth_error l i.
Proof. induction n; intros i l L; [lia|]. destruct l, i; cbn; try reflexivity. apply IHn. lia. Qed.
Lemma slice_split {A} (l : list A) lo hi : lo <= S hi -> 
  l = firstn lo l ++ firstn (S hi - lo) (skipn lo l) ++ skipn (S hi) l.
Proof.
  intros L. rewrite <- (firstn_skipn lo l) at 1. f_equal.
  rewrite <- (firstn_skipn (S hi - lo) (skipn lo l)) at 1. f_equal. rewrite skipn_add. f_equal. lia.
Qed.
Lemma firstn_nth {A} (l : list A) n a : In a (firstn n l) -> exists i, i < n /\ nth_error l i = Some a.
Proof.
  intros H. apply In_nth_error in H as (i & H). exists i.
  assert (i < List.length (firstn n l)) by (apply nth_error_Some; congruence). rewrite firstn_length in *.
  split; [lia|]. rewrite <- H. symmetry. apply nth_firstn. lia.
Qed.
Lemma skipn_nth {A} (l : list A) n a : In a (skipn n l) -> exists i, n <= i /\ nth_error l i = Some a.
Proof.
  intros H. apply In_nth_error in H as (i & H). exists (n + i). split; [lia|].
  rewrite <- H. revert l H. induction n; intros l H; [reflexivity|]. destruct l; [destruct i; discriminate H|]. cbn in *. now apply IHn.
Qed.

Lemma equality_ok x y l d : 
  (Qmax (fst d) (d0 x) < Qmin (snd d) (d1 x))%Q /\
    (exists from to, handle_equality d (d0 x) (d1 x) x y l = [Stroke (y_pos y l) from to] /\ (from == fst (part x d))%Q /\ (to == snd (part x d))%Q) \/
  ~ (Qmax (fst d) (d0 x) < Qmin (snd d) (d1 x))%Q /\ handle_equality d (d0 x) (d1 x) x y l = [].
Proof.
  unfold handle_equality. destruct (qlt _ _) eqn:C.
  - left. apply qlt_true in C. rewrite js_max_ok, js_min_ok in C. split; [assumption|]. eexists _, _. split; [reflexivity|].
    cbn. now rewrite js_max_ok, js_min_ok.
  - right. apply qlt_false in C. rewrite js_max_ok, js_min_ok in C. split; [lra|reflexivity].
Qed.

Lemma last_split {A} (l : list A) d : nth_error l (List.length l - 1) = Some d -> l = firstn (List.length l - 1) l ++ [d].
Proof.
  intros H. assert (List.length l - 1 < List.length l) as L by (apply nth_error_Some; congruence).
  rewrite <- (firstn_skipn (List.length l - 1) l) at 1. f_equal.
  destruct (skipn (List.length l - 1) l) as [|a [|b r]] eqn:E.
  - apply (f_equal (@List.length A)) in E. rewrite skipn_length in E. cbn in E. lia.
  - f_equal. pose proof (firstn_skipn (List.length l - 1) l) as F. rewrite E in F. rewrite <- F in H at 1.
    rewrite nth_error_app2 in H; rewrite firstn_length in *; [|lia].
    replace (List.length l - 1 - Nat.min (List.length l - 1) (List.length l)) with 0 in H by lia. now injection H.
  - apply (f_equal (@List.length A)) in E. rewrite skipn_length in E. cbn in E. lia.
Qed.

Lemma lane_ok x y l ds : Rising x -> Disjoint ds -> ds <> [] ->
  exists a b, lane_path false (d0 x) (d1 x) x y l ds = Ok (a ++ b) /\ Again x (y_pos y l) ds a /\ Bars x (y_pos y l) ds b.
Proof.
  intros R D NE. set (len := List.length ds). assert (1 <= len) as L1 by (unfold len; destruct ds; [congruence|cbn; lia]).
  unfold lane_path. fold len.
  destruct (search_ok fst (d1 x) ds len 0 (len - 1)) as (hi & E & Hhi & P1 & P2); try lia. rewrite E. cbn [bind].
  destruct (search_ok snd (d0 x) ds len 0 hi) as (lo & E' & Hlo & P3 & P4); try lia. rewrite E'. cbn [bind].
  destruct (nth_error ds hi) as [dh|] eqn:Eh; [|apply nth_error_None in Eh; fold len in Eh; lia].
  (* everything before [lo] has ended, everything after [hi] begins too late *)
  assert (forall i d, i < lo -> nth_error ds i = Some d -> (snd d <= d0 x)%Q) as Before.
  { intros i d Li Ei. destruct (Qlt_le_dec (d0 x) (snd d)) as [G|]; [|assumption]. exfalso.
    apply P4; [lia|]. destruct (nth_error ds (lo - 1)) as [e|] eqn:Ee; [|apply nth_error_None in Ee; fold len in Ee; lia].
    exists e. split; [reflexivity|]. destruct (Nat.eq_dec i (lo - 1)) as [->|N].
    - rewrite Ei in Ee. now injection Ee as <-.
    - pose proof (disjoint_lt ds D i (lo - 1) d e ltac:(lia) Ei Ee). pose proof (disjoint_in ds D e (nth_error_In _ _ Ee)). lra. }
  assert (forall i d, hi < i -> nth_error ds i = Some d -> (d1 x < fst d)%Q) as After.
  { intros i d Li Ei. assert (i < len) by (apply nth_error_Some; congruence).
    destruct P1 as (e & Ee & Lt); [lia|]. 
    injection Ee as <-. pose proof (disjoint_lt ds D hi i dh d ltac:(lia) Eh Ei). pose proof (disjoint_in ds D dh (nth_error_In _ _ Eh)). lra. }
  assert (Bars x (y_pos y l) ds (flat_map (fun d => process d (d0 x) (d1 x) x y l) (firstn (S hi - lo) (skipn lo ds)))) as B.
  { rewrite (slice_split ds lo hi) at 1 by lia.
    set (f := flat_map _ _). change f with ([] ++ f). apply bars_app; [|replace f with (f ++ []) by apply app_nil_r; apply bars_app].
    - apply bars_no. intros d I. apply firstn_nth in I as (i & Li & Ei). apply outside_before; [assumption| |eauto].
      apply (disjoint_in ds D). eapply nth_error_In; eauto.
    - apply flat_bars.
    - apply bars_no. intros d I. apply skipn_nth in I as (i & Li & Ei). apply outside_after; [assumption|].
      pose proof (After i d ltac:(lia) Ei). lra. }
  destruct (nth_error ds (len - 1)) as [dl|] eqn:El; [|apply nth_error_None in El; fold len in El; lia].
  pose proof (last_split ds dl El) as Sp. fold len in Sp.
  destruct (Nat.eqb_spec lo hi) as [->|Ne].
  - rewrite Eh. cbn [bind]. eexists _, _. split; [cbn [stride_length]; rewrite every_1; reflexivity|]. split; [|assumption].
    exists (firstn (len - 1) ds), dl. split; [assumption|].
    destruct (Nat.eq_dec hi (len - 1)) as [->|Nh].
    + rewrite Eh in El. injection El as ->.
      assert (Forall (fun e => snd e <= d0 x)%Q (firstn (len - 1) ds)) as F.
      { apply Forall_forall. intros d I. apply firstn_nth in I as (i & Li & Ei). eauto. }
      destruct (equality_ok x y l dl) as [(C & K)|(C & K)]; [left|right]; (split; [|exact K]); unfold Alone; tauto.
    + right. assert (d1 x < fst dl)%Q as Gt by (eapply (After (len - 1)); eauto; lia).
      split.
      * intros (_ & C). pose proof (Q.le_max_l (fst dl) (d0 x)). pose proof (Q.le_min_r (snd dl) (d1 x)). lra.
      * destruct P1 as (e & Ee & Lt); [lia|]. injection Ee as <-.
        destruct (equality_ok x y l dh) as [(C & K)|(C & K)]; [|assumption]. exfalso.
        pose proof (Q.le_max_l (fst dh) (d0 x)). pose proof (Q.le_min_r (snd dh) (d1 x)). lra.
  - cbn [bind]. eexists [], _. split; [cbn [stride_length]; rewrite every_1; reflexivity|]. split; [|assumption].
    exists (firstn (len - 1) ds), dl. split; [assumption|]. right. split; [|reflexivity].
    intros (F & _). destruct P3 as (e & Ee & Lt); [lia|].
    rewrite Forall_forall in F. assert (In e (firstn (len - 1) ds)).
    { apply (nth_error_In _ lo). rewrite nth_firstn by lia. assumption. }
    specialize (F e H). lra.
Qed.

(** The strokes of one name *)
Definition PathOf (x y : scale) (m : list (lane * list (Q * Q))) (p : list stroke) : Prop :=
  exists parts, Forall2 (fun ll ss => exists a b, ss = a ++ b /\ Again x (y_pos y (fst ll)) (snd ll) a /\
                                       Bars x (y_pos y (fst ll)) (snd ll) b) m parts /\ p = List.concat parts.
Lemma path_ok x y m : Rising x -> (forall l ds, In (l, ds) m -> Disjoint ds /\ ds <> []) ->
  exists p, get_path false (d0 x) (d1 x) x y m = Ok p /\ PathOf x y m p.
Proof.
  intros R H. unfold get_path.
  assert (exists parts, mapM (fun ll => lane_path false (d0 x) (d1 x) x y (fst ll) (snd ll)) m = Ok parts /\
    Forall2 (fun ll ss => exists a b, ss = a ++ b /\ Again x (y_pos y (fst ll)) (snd ll) a /\
                                       Bars x (y_pos y (fst ll)) (snd ll) b) m parts) as (parts & E & F).
  { induction m as [|[l ds] m IH]; [exists []; split; [reflexivity|constructor]|].
    destruct IH as (parts & E & F); [intros; apply (H l0); now right|].
    destruct (H l ds (or_introl eq_refl)) as (D & N).
    destruct (lane_ok x y l ds R D N) as (a & b & E1 & A & B). cbn [mapM fst snd]. rewrite E1. cbn [bind]. rewrite E.
    eexists. split; [reflexivity|]. constructor; [|assumption]. now exists a, b. }
  rewrite E. cbn [bind]. eexists. split; [reflexivity|]. now exists parts.
Qed.
Lemma paths_ok x y items : Rising x -> (forall k m l ds, dget eqs k items = Some m -> In (l, ds) m -> Disjoint ds /\ ds <> []) ->
  forall keys, exists ps, get_paths false x y items keys = Ok ps /\
    (forall k m, In k keys -> dget eqs k items = Some m -> exists p, PathOf x y m p /\ (p <> [] -> In (k, p) ps)) /\
    (forall k p, In (k, p) ps -> p <> [] /\ exists m, dget eqs k items = Some m /\ PathOf x y m p).
Proof.
  intros R H keys. induction keys as [|k keys (ps & E & A & B)]; cbn [get_paths].
  - exists []. split; [reflexivity|]. split; intros ? ? [].
  - destruct (dget eqs k items) as [m|] eqn:G.
    + destruct (path_ok x y m R (fun l ds => H k m l ds G)) as (p & Ep & Pp).
      rewrite Ep. cbn [bind]. rewrite E. cbn [bind]. eexists. split; [reflexivity|]. split.
      * intros k' m' [->|I] G'.
        -- rewrite G in G'. injection G' as <-. exists p. split; [assumption|]. destruct p; [congruence|]. intros _. now left.
        -- destruct (A k' m' I G') as (p' & P' & I'). exists p'. split; [assumption|]. intros Np. specialize (I' Np).
           destruct p; [assumption|now right].
      * intros k' p' I. destruct p as [|s0 p0]; [now apply B|]. destruct I as [I|I]; [|now apply B].
        injection I as <- <-. split; [discriminate|]. now exists m.
    + cbn [get_path mapM bind List.concat]. unfold get_path. cbn [mapM bind List.concat]. rewrite E. cbn [bind].
      exists ps. split; [reflexivity|]. split; [|assumption]. intros k' m' [->|I] G'; [congruence|eauto].
Qed.

Lemma bars_in x p ds ss : Bars x p ds ss -> forall d, In d ds -> ~ NoBar x d -> exists from to, In (Stroke p from to) ss /\ Bar x d from to.
Proof.
  induction 1; intros d' I N; [destruct I| |].
  - destruct I as [->|I]; [contradiction|now apply IHBars].
  - destruct I as [->|I].
    + exists from, to. split; [now left|assumption].
    + destruct (IHBars d' I N) as (f & t & I' & B). exists f, t. split; [now right|assumption].
Qed.
Lemma bars_of x p ds ss : Bars x p ds ss -> forall s, In s ss -> s_y s = p /\ exists d, In d ds /\ Bar x d (s_from s) (s_to s).
Proof.
  induction 1; intros s I; [destruct I| |].
  - destruct (IHBars s I) as (E & d' & I' & B). split; [assumption|]. exists d'. split; [now right|assumption].
  - destruct I as [<-|I].
    + split; [reflexivity|]. exists d. split; [now left|assumption].
    + destruct (IHBars s I) as (E & d' & I' & B). split; [assumption|]. exists d'. split; [now right|assumption].
Qed.
Lemma again_of x p ds ss : Again x p ds ss -> forall s, In s ss -> s_y s = p /\ exists d, In d ds /\
  (s_from s == fst (part x d) /\ s_to s == snd (part x d) /\ Qmax (fst d) (d0 x) < Qmin (snd d) (d1 x))%Q.
Proof.
  intros (r & d & -> & [((_ & V) & f & t & -> & Ef & Et) | (_ & ->)]) s []; [|contradiction].
  subst s. split; [reflexivity|]. exists d. split; [apply in_app_iff; right; now left|]. now repeat split.
Qed.
Lemma path_in x y m p : PathOf x y m p -> forall l ds d, In (l, ds) m -> In d ds -> ~ NoBar x d ->
  exists from to, In (Stroke (y_pos y l) from to) p /\ Bar x d from to.
Proof.
  intros (parts & F & ->) l ds d I Id N. induction F as [|[l' ds'] ss m' parts' (a & b & -> & _ & B) F IH]; [destruct I|].
  cbn [List.concat]. destruct I as [I|I].
  - injection I as -> ->. destruct (bars_in _ _ _ _ B d Id N) as (f & t & I' & Bd). exists f, t. split; [|assumption].
    apply in_app_iff. left. apply in_app_iff. now right.
  - destruct (IH I) as (f & t & I' & Bd). exists f, t. split; [|assumption]. apply in_app_iff. now right.
Qed.
Lemma path_of x y m p : PathOf x y m p -> forall s, In s p -> exists l ds d, In (l, ds) m /\ In d ds /\ s_y s = y_pos y l /\
  (Bar x d (s_from s) (s_to s) \/ (s_from s == fst (part x d) /\ s_to s == snd (part x d) /\ Qmax (fst d) (d0 x) < Qmin (snd d) (d1 x))%Q).
Proof.
  intros (parts & F & ->) s I. induction F as [|[l' ds'] ss m' parts' (a & b & -> & A & B) F IH]; [destruct I|].
  cbn [List.concat] in I. rewrite !in_app_iff in I. destruct I as [[I|I]|I].
  - destruct (again_of _ _ _ _ A s I) as (E & d & Id & K). exists l', ds', d. repeat split; try assumption; [now left|now right].
  - destruct (bars_of _ _ _ _ B s I) as (E & d & Id & K). exists l', ds', d. repeat split; try assumption; [now left|now left].
  - destruct (IH I) as (l & ds & d & H1 & H2). exists l, ds, d. split; [now right|assumption].
Qed.

Lemma graph_entry d input prefix num g n evs : event_plot d input prefix num = Ok g -> NoDup (map fst d) -> In (n, evs) d ->
  exists m, dget eqs n (g_data g) = Some m /\ NoDup (map fst m) /\ Lanes input evs m.
Proof.
  intros E ND I. apply plot_ok in E as (_ & _ & F). revert ND I.
  induction F as [|[n' evs'] [n'' m] d' gd (E1 & E2 & E3) F IH]; intros ND I; [destruct I|].
  cbn [fst snd] in *. subst n''. cbn [dget fst snd]. inversion ND as [|? ? N1 N2]; subst.
  destruct I as [I|I].
  - injection I as -> ->. exists m. rewrite (proj2 (eqs_eq n n) eq_refl). now repeat split.
  - destruct (eqs n n') eqn:C; [|apply IH; assumption]. apply eqs_eq in C. subst n'. exfalso. apply N1.
    apply in_map_iff. now exists (n, evs).
Qed.
Lemma graph_origin d input prefix num g n m : event_plot d input prefix num = Ok g -> dget eqs n (g_data g) = Some m ->
  exists evs, In (n, evs) d /\ NoDup (map fst m) /\ Lanes input evs m.
Proof.
  intros E I. apply plot_ok in E as (_ & _ & F). revert I.
  induction F as [|[n' evs'] [n'' m'] d' gd (E1 & E2 & E3) F IH]; intros I; [discriminate I|].
  cbn [fst snd] in *. subst n''. cbn [dget fst snd] in I. destruct (eqs n n') eqn:C.
  - apply eqs_eq in C. subst n'. injection I as <-. exists evs'. split; [now left|now split].
  - destruct (IH I) as (evs & I' & K). exists evs. split; [now right|assumption].
Qed.
Lemma intervals_in l evs e : In e evs -> e_lane e = l -> In (span e) (intervals (is_lane l) evs).
Proof.
  intros I <-. unfold intervals. apply in_map_iff. exists e. split; [reflexivity|]. apply filter_In. split; [assumption|]. apply lane_refl.
Qed.
Lemma intervals_of l evs d : In d (intervals (is_lane l) evs) -> exists e, In e evs /\ e_lane e = l /\ span e = d.
Proof.
  unfold intervals. intros I. apply in_map_iff in I as (e & <- & I). apply filter_In in I as (I & L). exists e.
  split; [assumption|]. split; [now apply lane_eq|reflexivity].
Qed.
(** The lanes of a name are those of its events *)
Lemma lanes_of input evs m id ds : NoDup (map fst m) -> Lanes input evs m -> In (id, ds) m ->
  exists l, LaneId input l id /\ ds = intervals (is_lane l) evs /\ ds <> [].
Proof.
  intros ND L I. assert (dget lane_eqb id m = Some ds) as G by (now apply (In_dget lane_eqb lane_eq)).
  assert (forall l, Shown m id (intervals (is_lane l) evs) -> ds = intervals (is_lane l) evs /\ ds <> []) as K.
  { intros l S. unfold Shown in S. rewrite G in S. destruct (intervals (is_lane l) evs); [discriminate|]. injection S as ->. now split. }
  destruct input as [|i0 input].
  - exists id. split; [reflexivity|]. apply K, L.
  - destruct L as (L1 & L2). destruct (L2 id) as (l & i & La & ->); [apply in_map_iff; now exists (id, ds)|].
    exists l. split; [now exists i|]. apply K. now apply L1.
Qed.
Lemma lanes_in input evs m l id : Lanes input evs m -> LaneId input l id -> intervals (is_lane l) evs <> [] ->
  In (id, intervals (is_lane l) evs) m.
Proof.
  intros L La N. assert (Shown m id (intervals (is_lane l) evs)) as S.
  { destruct input as [|i0 input]; cbn in La; [subst id; apply L|]. destruct La as (i & La & ->). now apply L. }
  unfold Shown in S. apply (dget_In lane_eqb lane_eq). destruct (intervals (is_lane l) evs); [congruence|assumption].
Qed.

Lemma total_pos evs e : (forall e, In e evs -> e_start e <= e_end e)%Q -> In e evs -> (e_end e - e_start e <= total evs)%Q.
Proof.
  intros H. assert (forall l, (forall e, In e l -> e_start e <= e_end e)%Q -> (0 <= total l)%Q) as P.
  { intros l. induction l as [|a l IH]; intros Hl; cbn; [lra|]. pose proof (Hl a (or_introl eq_refl)).
    specialize (IH (fun e I => Hl e (or_intror I))). fold (total l) in *. lra. }
  induction evs as [|a evs IH]; intros []; cbn; fold (total evs).
  - subst a. specialize (P evs (fun e I => H e (or_intror I))). lra.
  - specialize (IH (fun e I => H e (or_intror I)) H0). pose proof (H a (or_introl eq_refl)). lra.
Qed.
Lemma key_listed d n evs keys : Ranked d keys -> In (n, evs) d -> ~ (total evs == 0)%Q -> In n keys.
Proof.
  intros (idx & _ & Hi & F) I N. apply In_nth_error in I as (i & I). assert (In i idx) as Ii by (apply Hi; eauto).
  clear Hi. induction F as [|j k idx' keys' (e' & Ej) F IH]; [destruct Ii|].
  destruct Ii as [->|Ii]; [left; congruence|right; auto].
Qed.
Lemma nobar_point x d : Rising x -> (snd d <= fst d)%Q -> NoBar x d.
Proof.
  intros R L. unfold NoBar, part. cbn [fst snd].
  assert (sc x (Qmin (snd d) (d1 x)) <= sc x (Qmax (fst d) (d0 x)))%Q.
  { apply sc_mono; [assumption|]. pose proof (Q.le_min_l (snd d) (d1 x)). pose proof (Q.le_max_l (fst d) (d0 x)). lra. }
  lra.
Qed.
Lemma draw_ok d input prefix num g st x y : event_plot d input prefix num = Ok g -> NoDup (map fst d) -> Ordered d -> Rising x ->
  exists ps, draw st x y g = Ok ps /\ AllShown d input x y ps /\ OnlyShown d input x y ps.
Proof.
  intros E ND O R.
  assert (forall k m l ds, dget eqs k (g_data g) = Some m -> In (l, ds) m -> Disjoint ds /\ ds <> []) as H.
  { intros k m l ds G I. destruct (graph_origin _ _ _ _ _ _ _ E G) as (evs & Id & Nm & L).
    destruct (lanes_of _ _ _ _ _ Nm L I) as (l0 & _ & -> & N). split; [|assumption]. eapply O; eauto. }
  destruct (paths_ok x y (g_data g) R H (g_keys g)) as (ps & Ep & A & B). exists ps. split; [exact Ep|]. split.
  - intros n evs e id I Ie La V.
    destruct (graph_entry _ _ _ _ _ _ _ E ND I) as (m & G & Nm & L).
    pose proof (intervals_in (e_lane e) evs e Ie eq_refl) as Iv.
    assert (In (id, intervals (is_lane (e_lane e)) evs) m) as Im.
    { apply (lanes_in input); [assumption|assumption|]. intros C. now rewrite C in Iv. }
    assert (In n (g_keys g)) as K.
    { apply plot_ok in E as (Rk & _ & _). apply (key_listed d n evs _ Rk I).
      assert (forall e, In e evs -> e_start e <= e_end e)%Q as Le.
      { intros e' Ie'. apply (disjoint_in _ (O n evs (e_lane e') I) (span e')). now apply intervals_in. }
      pose proof (total_pos evs e Le Ie). intros Z. apply V. apply nobar_point; [assumption|]. cbn. lra. }
    destruct (A n m K G) as (p & Pp & Ip).
    destruct (path_in _ _ _ _ Pp _ _ _ Im Iv V) as (f & t & Is & Bd). exists p, f, t. split; [|now split]. apply Ip. intros ->. destruct Is.
  - intros n p I. destruct (B n p I) as (Np & m & G & Pp). split; [assumption|]. intros s Is.
    destruct (graph_origin _ _ _ _ _ _ _ E G) as (evs & Id & Nm & L).
    destruct (path_of _ _ _ _ Pp s Is) as (l & ds & dd & Il & Idd & Ey & K).
    destruct (lanes_of _ _ _ _ _ Nm L Il) as (l0 & La & -> & N).
    destruct (intervals_of _ _ _ Idd) as (e & Ie & <- & <-). exists evs, e, l. repeat split; assumption.
Qed.

(** Without any order of the data *)
Lemma lane_total st xMin xMax x y l ds : ds <> [] -> exists p, lane_path st xMin xMax x y l ds = Ok p.
Proof.
  intros NE. set (len := List.length ds). assert (1 <= len) as L1 by (unfold len; destruct ds; [congruence|cbn; lia]).
  unfold lane_path. fold len.
  destruct (search_ok fst xMax ds len 0 (len - 1)) as (hi & E & Hhi & P1 & P2); try lia. rewrite E. cbn [bind].
  destruct (search_ok snd xMin ds len 0 hi) as (lo & E' & Hlo & P3 & P4); try lia. rewrite E'. cbn [bind].
  destruct (lo =? hi); [|cbn [bind]; eexists; reflexivity].
  destruct (nth_error ds lo) as [dh|] eqn:Eh; [|apply nth_error_None in Eh; fold len in Eh; lia].
  cbn [bind]. eexists; reflexivity.
Qed.
Lemma flat_length {A B} (f : A -> list B) l : (forall a, List.length (f a) <= 1) -> List.length (flat_map f l) <= List.length l.
Proof. intros H. induction l; cbn; [lia|]. rewrite app_length. specialize (H a). lia. Qed.
Lemma lane_count x y l ds xMin xMax p : lane_path true xMin xMax x y l ds = Ok p -> List.length p <= 2001.
Proof.
  unfold lane_path. destruct (search_data _ ds fst _ _ _) as [hi|]; [|discriminate]. cbn [bind].
  destruct (search_data _ ds snd _ _ _) as [lo|]; [|discriminate]. cbn [bind].
  intros H. set (c := if lo =? hi then _ else _) in H. destruct c as [eq|] eqn:E; [|discriminate]. cbn [bind] in H. injection H as <-.
  set (sl := firstn _ _). rewrite app_length.
  assert (List.length eq <= 1).
  { unfold c in E. destruct (lo =? hi); [|injection E as <-; cbn; lia]. destruct (nth_error ds lo); [|discriminate].
    injection E as <-. unfold handle_equality. destruct (qlt _ _); cbn; lia. }
  pose proof (stride_ok sl). set (k := every _ 0 sl) in *.
  pose proof (flat_length (fun d => process d xMin xMax x y l) k) as F.
  assert (forall a, List.length (process a xMin xMax x y l) <= 1).
  { intros a. unfold process. cbv zeta. destruct (qlt _ (1 # 100)); cbn; lia. }
  specialize (F H1). lia.
Qed.
Lemma pos_ok y z : (d0 y == 0)%Q -> (r0 y == 0)%Q -> exists p, y_pos y (LZ z) = Some p /\ (p == sc y (inject_Z z + (1 # 2)) + (1 # 2))%Q.
Proof.
  intros A B. eexists. split; [reflexivity|]. unfold offset, sc. rewrite A, B. unfold Qdiv. ring.
Qed.
