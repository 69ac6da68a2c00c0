(** _get_name and the built-in classes. *)
From Coq Require Import List Ascii String ZArith NArith Bool Lia Permutation.
From Verif Require Import Lib.PyStr Lib.PyStrFacts Model.Registry Model.Builtin Spec.Trace Spec.Select Spec.Names
  Proofs.PopulateP Proofs.RegistryP.
Import ListNotations.
Local Open Scope list_scope.

Lemma small_ok c : lower_char c = small_letter c.
Proof. destruct c as [[] [] [] [] [] [] [] []]; reflexivity. Qed.
Lemma get_name_small s : get_name s = map small_letter (match s with [] => [] | c :: r => c :: name_loop false r end).
Proof. unfold get_name. apply map_ext. exact small_ok. Qed.
Lemma loop_tail r rest in_run : Forall (fun x => is_upper x = false /\ small_letter x = x) r ->
  (r <> [] \/ in_run = false) ->
  map small_letter (name_loop in_run (r ++ rest)) = r ++ map small_letter (name_loop false rest).
Proof.
  intros H. revert in_run. induction H as [|x r [Hu Hl] Hr IH]; intros in_run Hn; cbn [app].
  - destruct Hn as [Hn|Hn]; [congruence|now subst].
  - cbn [name_loop]. rewrite Hu. cbn [app map]. rewrite Hl, IH; auto.
Qed.
Lemma loop_words ws : Forall long_word ws ->
  map small_letter (name_loop false (List.concat ws)) = flat_map (fun w => $"_" ++ lower_word w) ws.
Proof.
  induction 1 as [|w ws [(c & r & -> & Hu & Hr) Hlen] Hws IH]; [reflexivity|].
  change (List.concat ((c :: r) :: ws)) with (c :: (r ++ List.concat ws)). cbn [name_loop]. rewrite Hu.
  change ($"_") with ["_"%char]. cbn [app map flat_map]. change (small_letter "_"%char) with "_"%char.
  change (lower_word (c :: r)) with (small_letter c :: lower_word r). cbn [app].
  rewrite loop_tail; [|auto|left; intros ->; cbn in Hlen; lia].
  rewrite IH. change ($"_") with ["_"%char]. cbn [app]. f_equal. f_equal. f_equal. unfold lower_word.
  clear - Hr. induction Hr as [|x r [_ Hx] _ IH]; auto. cbn. now rewrite Hx, <- IH.
Qed.
Theorem get_name_words w ws : cap_word w -> Forall long_word ws ->
  (ws = [] \/ (2 <= List.length w)%nat) ->
  get_name (List.concat (w :: ws)) = join $"_" (map lower_word (w :: ws)).
Proof.
  intros (c & r & -> & Hu & Hr) Hws Hl. rewrite get_name_small. cbn [List.concat app map].
  assert (Ej : forall a ws, join $"_" (a :: map lower_word ws) = a ++ flat_map (fun w => $"_" ++ lower_word w) ws).
  { clear. intros a ws. revert a. induction ws as [|w ws IH]; intros a; [cbn; now rewrite app_nil_r|].
    change (a ++ $"_" ++ join $"_" (lower_word w :: map lower_word ws) = a ++ flat_map (fun w => $"_" ++ lower_word w) (w :: ws)).
    rewrite IH. cbn [flat_map]. now rewrite <- app_assoc. }
  rewrite Ej. cbn [lower_word map app]. f_equal.
  rewrite loop_tail; auto. rewrite loop_words by auto. f_equal.
  clear - Hr. induction Hr as [|x r [_ Hx] _ IH]; auto. cbn. now rewrite Hx, <- IH.
Qed.

Lemma name_upper u rest : Forall (fun x => is_upper x = true) u -> name_loop true (u ++ rest) = u ++ name_loop true rest.
Proof. induction 1 as [|x u Hx _ IH]; auto. cbn [app name_loop]. rewrite Hx. cbn [app]. now rewrite IH. Qed.
Lemma name_lower n rest b : Forall (fun x => is_upper x = false) n -> n <> [] -> name_loop b (n ++ rest) = n ++ name_loop false rest.
Proof.
  intros H. revert b. induction H as [|x n Hx Hn IH]; intros b Hne; [congruence|]. cbn [app name_loop]. rewrite Hx. cbn [app]. f_equal.
  destruct n as [|y n]; auto. apply IH. discriminate.
Qed.
Theorem get_name_runs c l bs u : Forall (fun x => is_upper x = false) l -> Forall run bs -> Forall (fun x => is_upper x = true) u ->
  get_name (c :: l ++ flat_map (fun b => fst b ++ snd b) bs ++ u) =
  lower_word (c :: l ++ flat_map (fun b => $"_" ++ fst b ++ snd b) bs ++ (match u with [] => [] | _ => $"_" end) ++ u).
Proof.
  intros Hl Hb Hu. rewrite get_name_small. unfold lower_word. f_equal. f_equal.
  assert (El : forall r, name_loop false (l ++ r) = l ++ name_loop false r).
  { intros r. destruct l; auto. apply name_lower; auto. discriminate. }
  rewrite El. f_equal. induction Hb as [|[a n] bs (H1 & H2 & H3 & H4) _ IH]; cbn [flat_map fst snd app].
  - destruct Hu as [|x u Hx Hu]; auto. cbn [name_loop]. rewrite Hx. cbn [app]. f_equal. f_equal.
    pose proof (name_upper u [] Hu) as E. rewrite !app_nil_r in E. exact E.
  - cbn [fst snd] in *. destruct a as [|x a]; [congruence|]. inversion H2 as [|? ? Hx Ha]; subst.
    rewrite <- !app_assoc. cbn [app name_loop]. rewrite Hx. rewrite name_upper by auto. rewrite name_lower by auto. rewrite IH.
    change ($"_") with ["_"%char]. cbn [app]. rewrite <- ?app_assoc. cbn [app]. rewrite <- ?app_assoc. reflexivity.
Qed.
Lemma runs_exist_low s : exists l r, s = l ++ r /\ Forall (fun x => is_upper x = false) l /\ (r = [] \/ exists x r', r = x :: r' /\ is_upper x = true).
Proof.
  induction s as [|x s (l & r & -> & Hl & Hr)]; [exists [], []; repeat split; auto|].
  destruct (is_upper x) eqn:E; [exists [], (x :: l ++ r)|exists (x :: l), r]; repeat split; auto. right. eauto.
Qed.
Lemma runs_exist_up s : exists l r, s = l ++ r /\ Forall (fun x => is_upper x = true) l /\ (r = [] \/ exists x r', r = x :: r' /\ is_upper x = false).
Proof.
  induction s as [|x s (l & r & -> & Hl & Hr)]; [exists [], []; repeat split; auto|].
  destruct (is_upper x) eqn:E; [exists (x :: l), r|exists [], (x :: l ++ r)]; repeat split; auto. right. eauto.
Qed.
Theorem runs_exist s : exists l bs u, s = l ++ flat_map (fun b => fst b ++ snd b) bs ++ u /\
  Forall (fun x => is_upper x = false) l /\ Forall run bs /\ Forall (fun x => is_upper x = true) u.
Proof.
  remember (List.length s) as n eqn:En. revert s En. induction n as [n IH] using lt_wf_ind. intros s ->.
  destruct (runs_exist_low s) as (l & r & -> & Hl & [->|(x & r' & -> & Hx)]).
  - exists l, [], []. cbn. repeat split; auto.
  - destruct (runs_exist_up r') as (u & t & -> & Hu & [->|(y & t' & -> & Hy)]).
    + exists l, [], (x :: u). cbn. rewrite app_nil_r. repeat split; auto.
    + destruct (IH (List.length (y :: t')) ltac:(rewrite !app_length; cbn; rewrite app_length; cbn; lia) (y :: t') eq_refl)
        as (l2 & bs & u2 & E & H1 & H2 & H3).
      exists l, ((x :: u, l2) :: bs), u2. repeat split; auto.
      * cbn [flat_map fst snd]. rewrite E. rewrite <- !app_assoc. cbn [app]. reflexivity.
      * constructor; auto. repeat split; cbn; auto; [discriminate|]. intros ->.
        destruct bs as [|[a n] bs]; cbn in E.
        -- destruct H3 as [|z u3 Hz H3]; [discriminate|]. injection E as <- _. congruence.
        -- inversion H2 as [|? ? (Q1 & Q2 & _) _]; subst. cbn in Q1, Q2. destruct Q2 as [|z a Hz _]; [congruence|]. injection E as <- _. congruence.
Qed.

(** ** Built-in classes *)
Lemma builtin_pairs : forallb (fun a => forallb (fun b => N.eqb (k_id a) (k_id b) || negb (words_clash a b)) builtins) builtins = true.
Proof. vm_compute. reflexivity. Qed.
Lemma builtin_ids : forallb (fun a => forallb (fun b => negb (N.eqb (k_id a) (k_id b)) || eqs (given_name a) (given_name b)) builtins) builtins = true.
Proof. vm_compute. reflexivity. Qed.
Lemma builtin_no_clash a b : In a builtins -> In b builtins -> given_name a <> given_name b -> words_clash a b = false.
Proof.
  intros Ha Hb Hn. pose proof builtin_pairs as P. rewrite forallb_forall in P. specialize (P a Ha). cbv beta in P.
  rewrite forallb_forall in P. specialize (P b Hb). cbv beta in P.
  pose proof builtin_ids as Q. rewrite forallb_forall in Q. specialize (Q a Ha). cbv beta in Q.
  rewrite forallb_forall in Q. specialize (Q b Hb). cbv beta in Q.
  destruct (N.eqb (k_id a) (k_id b)); cbn in *; [|now apply negb_true_iff in P].
  apply eqs_eq in Q. congruence.
Qed.
Theorem builtin_unambiguous r scope : Reach r -> only_builtin r ->
  ~ Ambiguous (map snd (class_definitions r scope [])).
Proof.
  intros H Hb (i & j & a & b & Hij & Ha & Hc & Hocc).
  pose proof (defs_NoDup r scope []) as Hnd.
  assert (Hin : forall n k, In (n, k) (class_definitions r scope []) -> In k builtins /\ given_name k = n).
  { intros n k Hi. apply (In_dget eqs eqs_eq) in Hi; auto. rewrite selected in Hi by exact H. cbv zeta in Hi.
    change (dget eqs n (add_events r [])) with (@None klass) in Hi.
    pose proof (reach_ok r H) as ((_ & K1) & (_ & K2) & (_ & K3)).
    assert (G : in_dynamic r n = Some k \/ in_sched r n = Some k \/ in_thermal r n = Some k).
    { destruct (eqs scope $"custom"); [discriminate|].
      destruct (eqs scope $"thermal"); [|destruct (eqs scope $"sched")];
      destruct (in_dynamic r n); cbn in Hi; auto; destruct (in_sched r n); cbn in Hi; auto; destruct (in_thermal r n); cbn in Hi; auto; discriminate. }
    assert (G' : exists d, In d [r_thermal r; r_sched r; r_dynamic r] /\ In (n, k) d /\ k_name k = Some n).
    { destruct G as [G|[G|G]]; apply (dget_In eqs eqs_eq) in G.
      - exists (r_dynamic r). cbn. auto.
      - exists (r_sched r). cbn. auto.
      - exists (r_thermal r). cbn. auto. }
    destruct G' as (d & Hd & Hi' & Hk). split; [eapply Hb; eauto|]. unfold given_name. now rewrite Hk. }
  rewrite nth_error_map in Ha, Hc.
  destruct (nth_error (class_definitions r scope []) i) as [[n1 k1]|] eqn:E1; [|discriminate].
  destruct (nth_error (class_definitions r scope []) j) as [[n2 k2]|] eqn:E2; [|discriminate].
  injection Ha as <-. injection Hc as <-.
  assert (Hne : n1 <> n2).
  { intros ->. assert (i = j); [|lia]. eapply NoDup_nth_error; [exact Hnd| |].
    - rewrite map_length. apply nth_error_Some. congruence.
    - rewrite !nth_error_map, E1, E2. reflexivity. }
  apply nth_error_In in E1, E2. destruct (Hin _ _ E1) as [B1 N1]. destruct (Hin _ _ E2) as [B2 N2].
  assert (C : words_clash k1 k2 = false) by (apply builtin_no_clash; auto; congruence).
  apply words_clash_iff in Hocc. congruence.
Qed.
(** Importing trappy in any order gives such a registry. *)
Lemma register_all_ok regs : forall r, Reach r -> only_builtin r -> incl regs builtin_regs ->
  exists r', register_all r regs = Ok r' /\ Reach r' /\ only_builtin r'.
Proof.
  induction regs as [|[k scope] regs IH]; intros r H Hb Hi; cbn [register_all]; [eauto|].
  assert (Hk : In (k, scope) builtin_regs) by (apply Hi; now left).
  assert (Hs : In scope [$"all"; $"dynamic"; $"thermal"; $"sched"]).
  { assert (F : forallb (fun e => existsb (eqs (snd e)) [$"all"; $"dynamic"; $"thermal"; $"sched"]) builtin_regs = true) by (vm_compute; reflexivity).
    rewrite forallb_forall in F. apply F in Hk. cbv beta in Hk. apply existsb_exists in Hk as (x & Hx & E). cbn [snd] in E. apply eqs_eq in E. now subst. }
  destruct (proj2 (register_scopes r k scope) Hs) as (r' & E). rewrite E. cbn [bind]. apply IH.
  - econstructor; eauto.
  - intros d n c Hd Hc. assert (Hkb : In (named k) builtins) by (apply (in_map (fun e => named (fst e))) in Hk; exact Hk).
    assert (Hset : forall d0, (forall n c, In (n, c) d0 -> In c builtins) -> NoDup (map fst d0) ->
             In (n, c) (dset eqs (given_name k) (named k) d0) -> In c builtins).
    { intros d0 H0 Hn0 Hi0. apply dset_in in Hi0 as [[_ ->]|[_ Hi0]]; eauto. }
    pose proof (reach_ok r H) as ((N1 & _) & (N2 & _) & (N3 & _)).
    assert (B1 : forall n c, In (n, c) (r_thermal r) -> In c builtins) by (intros; eapply Hb; eauto; cbn; auto).
    assert (B2 : forall n c, In (n, c) (r_sched r) -> In c builtins) by (intros; eapply Hb; eauto; cbn; auto).
    assert (B3 : forall n c, In (n, c) (r_dynamic r) -> In c builtins) by (intros; eapply Hb; eauto; cbn; auto).
    unfold register in E. destruct (eqs scope $"all" || eqs scope $"dynamic"); [|destruct (eqs scope $"thermal"); [|destruct (eqs scope $"sched"); [|discriminate]]];
    injection E as <-; cbn [r_thermal r_sched r_dynamic In] in Hd; destruct Hd as [<-|[<-|[<-|[]]]]; eauto.
  - intros x Hx. apply Hi. now right.
Qed.
Theorem import_ok regs : incl regs builtin_regs -> exists r, register_all (Reg [] [] []) regs = Ok r /\
  forall scope, sanity_check (class_definitions r scope []) = Ok (class_definitions r scope []).
Proof.
  intros Hi. destruct (register_all_ok regs (Reg [] [] [])) as (r & E & H & Hb); auto; [constructor| |].
  - intros d n k Hd Hk. cbn in Hd. destruct Hd as [<-|[<-|[<-|[]]]]; destruct Hk.
  - exists r. split; auto. intros scope. apply sanity_accept. now apply builtin_unambiguous.
Qed.
(** ** The table *)
Definition held (sc : str -> bool) (regs : list (klass * str)) (n : str) : option klass :=
  match find (fun e => sc (snd e) && eqs n (given_name (fst e))) regs with Some e => Some (named (fst e)) | None => None end.
Definition one_name (regs : list (klass * str)) : Prop := NoDup (map (fun e => given_name (fst e)) regs).
Lemma held_cons sc k s regs n : held sc ((k, s) :: regs) n = if sc s && eqs n (given_name k) then Some (named k) else held sc regs n.
Proof. unfold held. cbn [find fst snd]. now destruct (sc s && eqs n (given_name k)). Qed.
Lemma held_none sc regs n : ~ In n (map (fun e => given_name (fst e)) regs) -> held sc regs n = None.
Proof.
  induction regs as [|[k s] regs IH]; intros H; [reflexivity|]. rewrite held_cons. cbn in H.
  destruct (eqs n (given_name k)) eqn:E; [apply eqs_eq in E; subst; tauto|]. rewrite andb_false_r. apply IH. tauto.
Qed.
Definition dyn_scope (s : str) : bool := eqs s $"all" || eqs s $"dynamic".
Lemma register_all_held regs : forall r0 r, one_name regs -> register_all r0 regs = Ok r -> forall n,
  in_dynamic r n = or_else (held dyn_scope regs n) (in_dynamic r0 n) /\
  in_thermal r n = or_else (held (eqs $"thermal") regs n) (in_thermal r0 n) /\
  in_sched r n = or_else (held (eqs $"sched") regs n) (in_sched r0 n).
Proof.
  induction regs as [|[k s] regs IH]; intros r0 r N E n; cbn [register_all] in E; [injection E as <-; auto|].
  destruct (register r0 k s) as [r1|] eqn:R; [|discriminate]. cbn [bind] in E. unfold one_name in N. cbn [map fst] in N. inversion N as [|? ? Hn N']; subst.
  destruct (IH r1 r N' E n) as (A & B & C). destruct (register_lookup r0 k s r1 R n) as (A1 & B1 & C1). cbv zeta in A1, B1, C1.
  rewrite !held_cons. rewrite A, B, C, A1, B1, C1.
  destruct (eqs n (given_name k)) eqn:En.
  - apply eqs_eq in En. subst n. rewrite !held_none by exact Hn. rewrite !andb_true_r. cbn [or_else].
    unfold dyn_scope. rewrite (eqs_sym $"thermal" s), (eqs_sym $"sched" s).
    split; [destruct (eqs s $"all" || eqs s $"dynamic"); auto|]. split; [destruct (eqs s $"thermal"); auto|destruct (eqs s $"sched"); auto].
  - rewrite !andb_false_r. auto.
Qed.
Lemma held_perm sc regs regs' : Permutation regs regs' -> one_name regs -> forall n, held sc regs n = held sc regs' n.
Proof.
  intros P. induction P as [|[k s] l l' P IH|[k s] [k' s'] l|l1 l2 l3 P1 IH1 P2 IH2]; intros N n; auto.
  - rewrite !held_cons. unfold one_name in N. cbn [map] in N. inversion N; subst. rewrite IH; auto.
  - rewrite !held_cons. unfold one_name in N. cbn [map fst] in N. inversion N as [|? ? Hn _]; subst.
    destruct (eqs n (given_name k)) eqn:E1; destruct (eqs n (given_name k')) eqn:E2; rewrite ?andb_false_r; auto.
    apply eqs_eq in E1, E2. subst n. exfalso. apply Hn. left. now rewrite E2.
  - rewrite IH1 by auto. apply IH2. unfold one_name in *. eapply Permutation_NoDup; [|exact N]. now apply Permutation_map.
Qed.
Fixpoint distinct (l : list str) : bool := match l with [] => true | x :: r => negb (existsb (eqs x) r) && distinct r end.
Lemma distinct_NoDup l : distinct l = true -> NoDup l.
Proof.
  induction l as [|x r IH]; intros H; [constructor|]. cbn [distinct] in H. apply andb_true_iff in H as [H1 H2]. constructor; [|auto].
  intros I. apply negb_true_iff in H1. rewrite <- not_true_iff_false in H1. apply H1. apply existsb_exists. exists x. split; [exact I|now apply eqs_eq].
Qed.
Definition seen (k : klass) : str * str * bool := (k_word k, k_pyname k, k_fallback k).
Definition table_class (scope a : str) : option klass :=
  if eqs scope $"custom" then None
  else if eqs scope $"thermal" then or_else (held dyn_scope builtin_regs a) (held (eqs $"thermal") builtin_regs a)
  else if eqs scope $"sched" then or_else (held dyn_scope builtin_regs a) (held (eqs $"sched") builtin_regs a)
  else or_else (held dyn_scope builtin_regs a) (or_else (held (eqs $"sched") builtin_regs a) (held (eqs $"thermal") builtin_regs a)).
Definition same_seen (x y : option (str * str * bool)) : bool :=
  match x, y with
  | Some (w, c, f), Some (w', c', f') => eqs w w' && eqs c c' && Bool.eqb f f'
  | None, None => true
  | _, _ => false
  end.
Lemma same_seen_ok x y : same_seen x y = true -> x = y.
Proof.
  destruct x as [[[w c] f]|], y as [[[w' c'] f']|]; cbn; try discriminate; auto.
  intros H. apply andb_true_iff in H as [H Hf]. apply andb_true_iff in H as [Hw Hc]. apply eqs_eq in Hw, Hc. apply eqb_prop in Hf. now subst.
Qed.
Lemma known_none scope a : ~ In a (map (fun e => fst (fst (fst e))) events_table) -> known_class scope a = None.
Proof.
  unfold known_class. induction events_table as [|[[[n w] c] s] l IH]; intros H; [reflexivity|]. cbn [find fst snd]. cbn in H.
  destruct (eqs a n) eqn:E; [apply eqs_eq in E; subst; tauto|]. cbn [andb]. apply IH. tauto.
Qed.
Lemma table_names : map (fun e => given_name (fst e)) builtin_regs = map (fun e => fst (fst (fst e))) events_table.
Proof. vm_compute. reflexivity. Qed.
Lemma table_class_ok scope a : option_map seen (table_class scope a) = known_class scope a.
Proof.
  destruct (in_dec (list_eq_dec ascii_dec) a (map (fun e => fst (fst (fst e))) events_table)) as [I|I].
  - assert (forall x, offered scope x = offered (if eqs scope $"custom" then $"custom" else if eqs scope $"thermal" then $"thermal" else if eqs scope $"sched" then $"sched" else $"") x) as Ho.
    { intros x. unfold offered. destruct (eqs scope $"custom") eqn:C; [reflexivity|]. cbn [existsb].
      destruct (eqs scope $"thermal") eqn:T; [apply eqs_eq in T; now subst|]. destruct (eqs scope $"sched") eqn:S; [apply eqs_eq in S; now subst|].
      cbn. now rewrite !orb_true_r. }
    set (sc := if eqs scope $"custom" then $"custom" else if eqs scope $"thermal" then $"thermal" else if eqs scope $"sched" then $"sched" else $"") in *.
    assert (known_class scope a = known_class sc a) as ->.
    { unfold known_class. replace (find (fun e => eqs a (fst (fst (fst e))) && offered scope (snd e)) events_table) with (find (fun e => eqs a (fst (fst (fst e))) && offered sc (snd e)) events_table); [reflexivity|].
      clear I. induction events_table as [|e l IH]; [reflexivity|]. cbn [find]. rewrite Ho. now rewrite IH. }
    assert (table_class scope a = table_class sc a) as ->.
    { unfold table_class, sc. destruct (eqs scope $"custom"); [reflexivity|]. destruct (eqs scope $"thermal"); [reflexivity|]. now destruct (eqs scope $"sched"). }
    assert (In sc [$"custom"; $"thermal"; $"sched"; $""]) as Is.
    { unfold sc. destruct (eqs scope $"custom"); [now left|]. destruct (eqs scope $"thermal"); [right; now left|]. destruct (eqs scope $"sched"); [do 2 right; now left|do 3 right; now left]. }
    clearbody sc. apply same_seen_ok.
    assert (forallb (fun s => forallb (fun b => same_seen (option_map seen (table_class s b)) (known_class s b)) (map (fun e => fst (fst (fst e))) events_table)) [$"custom"; $"thermal"; $"sched"; $""] = true) as F by (vm_compute; reflexivity).
    rewrite forallb_forall in F. specialize (F sc Is). cbv beta in F. rewrite forallb_forall in F. exact (F a I).
  - rewrite known_none by exact I. rewrite <- table_names in I. unfold table_class. rewrite !held_none by exact I.
    destruct (eqs scope $"custom"), (eqs scope $"thermal"), (eqs scope $"sched"); reflexivity.
Qed.
Theorem import_table regs : Permutation regs builtin_regs -> exists r, register_all (Reg [] [] []) regs = Ok r /\
  forall scope a, option_map (fun k => (k_word k, k_pyname k, k_fallback k)) (dget eqs a (class_definitions r scope [])) = known_class scope a.
Proof.
  intros P. assert (incl regs builtin_regs) as Hi by (intros x; apply Permutation_in; exact P).
  destruct (register_all_ok regs (Reg [] [] [])) as (r & E & H & _); auto; [constructor| |].
  { intros d n k Hd Hk. cbn in Hd. destruct Hd as [<-|[<-|[<-|[]]]]; destruct Hk. }
  assert (one_name builtin_regs) as N.
  { unfold one_name. apply distinct_NoDup. vm_compute. reflexivity. }
  assert (one_name regs) as N' by (unfold one_name in *; eapply Permutation_NoDup; [|exact N]; apply Permutation_map; now apply Permutation_sym).
  exists r. split; [exact E|]. intros scope a. rewrite selected by exact H. cbv zeta. change (dget eqs a (add_events r [])) with (@None klass).
  destruct (register_all_held regs (Reg [] [] []) r N' E a) as (A & B & C). rewrite A, B, C. change (in_dynamic (Reg [] [] []) a) with (@None klass).
  change (in_thermal (Reg [] [] []) a) with (@None klass). change (in_sched (Reg [] [] []) a) with (@None klass).
  rewrite !(held_perm _ _ _ P N'). change (fun k => (k_word k, k_pyname k, k_fallback k)) with seen. rewrite <- table_class_ok. f_equal. unfold table_class.
  assert (forall o : option klass, or_else o None = o) as O by (now intros [|]). rewrite !O. reflexivity.
Qed.
