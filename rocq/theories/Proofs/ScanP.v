(** Array length scan (base.py:132-164), data frames (base.py:237-303). *)
From Coq Require Import List Ascii String ZArith NArith Bool Lia.
From Verif Require Import Lib.PyStr Lib.PyStrFacts Lib.Regex Lib.RegexFacts Lib.SearchFacts Lib.F64
  Model.Base Spec.Arrays Spec.Payload Spec.Parts Proofs.ArraysP Proofs.PayloadP.
Import ListNotations.

Lemma is_ident_iff c : is_ident c = true <->
  (is_upper c = true \/ is_lower c = true \/ is_digit c = true \/ c = "_"%char).
Proof.
  unfold is_ident. rewrite !orb_true_iff, Ascii.eqb_eq. tauto.
Qed.

Section Scan.
  Variables (n J b a : str).
  Hypothesis n_ne : n <> [].
  Hypothesis n_id : Forall (fun c => is_ident c = true) n.
  Hypothesis J_ne : J <> [].
  Hypothesis J_cb : ~ In "}"%char J.
  Hypothesis Ha : ~ In "{"%char a.
  Hypothesis Hb : bl_end a.

  Lemma scan_search :
    re_search pat_array (a ++ n ++ $"={" ++ J ++ $"}" ++ b) =
    Some (MRes a (n ++ $"={" ++ J ++ $"}") b [(2, J); (1, n)]).
  Proof.
    unfold re_search. rewrite search_skip.
    - cbn [app]. set (s' := St (Some "}"%char) b [(2, J); (1, n)]).
      rewrite (search_hit _ _ _ _ s').
      + rewrite (mk_res_split _ _ (n ++ $"={" ++ J ++ $"}")); auto. unfold s'. cbn [s_rest].
        rewrite <- !app_assoc. reflexivity.
      + unfold pat_array. cbn [RSeqs mt].
        eapply (plus_max is_ident _ n ($"={" ++ J ++ $"}" ++ b)); [reflexivity|auto|auto|reflexivity|].
        rewrite cap_add_adv by reflexivity. cbn [s_caps s_prev].
        rewrite (lit_step $"={" _ (J ++ $"}" ++ b)) by reflexivity.
        eapply (plus_max (not_ch "}") _ J ($"}" ++ b));
          [reflexivity|auto|now apply Forall_not_ch|reflexivity|].
        rewrite cap_add_adv by reflexivity. cbn [s_caps s_prev adv].
        rewrite (lit_step $"}" _ b) by reflexivity. reflexivity.
    - intros a1 a2 -> Hne s' Hm. unfold pat_array in Hm. cbn [RSeqs] in Hm.
      apply mat_seq_inv in Hm as (s2 & Hp & Hm).
      apply mat_grp_inv in Hp as (s1 & Hp & ->). apply mat_plus_cls in Hp as (u & Eu & Hun & Hus & _).
      apply mat_seq_inv in Hm as (s3 & Hl & Hm). apply mat_lit in Hl as (El & _).
      cbn [s_rest cap_add] in Eu, El. rewrite El in Eu.
      change ($"={") with ["="%char; "{"%char] in Eu.
      assert (E' : a2 ++ n ++ ["="%char; "{"%char] ++ J ++ $"}" ++ b = (u ++ ["="%char]) ++ "{"%char :: s_rest s3).
      { rewrite Eu. rewrite <- app_assoc. reflexivity. }
      apply split_at in E' as (w & Ew & _).
      2:{ intros H. apply Ha. apply in_or_app. auto. }
      destruct Hb as [Hb'|(a' & Hb')]; [destruct a1; destruct a2; try discriminate; congruence|].
      destruct (exists_last Hne) as (a3 & c & ->).
      rewrite app_assoc in Hb'. apply app_inj_tail in Hb' as [_ ->].
      assert (Hi : In " "%char (u ++ ["="%char])).
      { rewrite Ew. apply in_or_app. left. apply in_or_app. right. now left. }
      apply in_app_or in Hi as [Hi|[Hi|[]]]; [|discriminate].
      rewrite Forall_forall in Hus. apply Hus in Hi. discriminate.
  Qed.
End Scan.
Lemma scan_none s : ~ In "{"%char s -> re_search pat_array s = None.
Proof.
  intros H. unfold re_search. rewrite search_none; auto.
  intros a b -> s' Hm. unfold pat_array in Hm. cbn [RSeqs] in Hm.
  apply mat_seq_inv in Hm as (s2 & Hp & Hm).
  apply mat_grp_inv in Hp as (s1 & Hp & ->). apply mat_plus_cls in Hp as (u & Eu & _).
  apply mat_seq_inv in Hm as (s3 & Hl & Hm). apply mat_lit in Hl as (El & _).
  cbn [s_rest cap_add] in Eu, El. apply H. apply in_or_app. right. rewrite Eu, El.
  apply in_or_app. right. right. now left.
Qed.

Definition upd (ret : list (str * nat)) (g : seg) : list (str * nat) :=
  match g with
  | SText _ => ret
  | SArr n vs =>
      let old := match dget eqs n ret with Some k => k | None => 0 end in
      dset eqs n (Nat.max old (List.length vs)) ret
  end.

Lemma scan_gen segs : forall pre ret fuel, Forall seg_ok segs -> Forall seg_ident segs ->
  ~ In "{"%char pre -> bl_end pre -> (List.length (filter is_arr segs) < fuel)%nat ->
  scan_line fuel ret (pre ++ render segs) = fold_left upd segs ret.
Proof.
  unfold render. induction segs as [|g segs IH]; intros pre ret fuel Hs Hi Hp Hb Hf.
  - cbn [map join]. rewrite app_nil_r. destruct fuel; [lia|]. cbn [scan_line].
    now rewrite scan_none.
  - inversion Hs as [|? ? Hg Hs']; subst. inversion Hi as [|? ? Hgi Hi']; subst.
    destruct g as [w|n vs].
    + cbn [fold_left upd]. destruct segs as [|g segs].
      * cbn [map join seg_str]. destruct fuel; [lia|]. cbn [scan_line]. rewrite scan_none; auto.
        intros H. apply in_app_or in H as [H|H]; [auto|]. destruct Hg as [_ Hg]. auto.
      * change (join $" " (map seg_str (SText w :: g :: segs)))
          with (w ++ $" " ++ join $" " (map seg_str (g :: segs))).
        rewrite !app_assoc. apply IH; auto.
        -- intros H. apply in_app_or in H as [H|[H|[]]]; [|discriminate].
           apply in_app_or in H as [H|H]; auto. destruct Hg as [_ Hg]. auto.
        -- right. eexists. reflexivity.
    + cbn [filter is_arr List.length] in Hf. destruct fuel as [|fuel]; [lia|]. cbn [scan_line].
      destruct Hg as (H1 & H2 & H3 & H4 & H5 & H6 & H7).
      assert (Jc : ~ In "}"%char (join $" " vs)).
      { apply vals_noc; [discriminate|]. eapply Forall_impl; [|exact H7]. cbv beta. tauto. }
      assert (Hid : Forall (fun c => is_ident c = true) n).
      { eapply Forall_impl; [|exact Hgi]. intros c Hc. now apply is_ident_iff. }
      set (b := match segs with [] => [] | _ => $" " ++ join $" " (map seg_str segs) end).
      assert (E : pre ++ join $" " (map seg_str (SArr n vs :: segs))
                  = pre ++ n ++ $"={" ++ join $" " vs ++ $"}" ++ b).
      { f_equal. unfold b. destruct segs as [|g segs].
        - cbn [map join seg_str]. now rewrite app_nil_r.
        - change (join $" " (map seg_str (SArr n vs :: g :: segs)))
            with (seg_str (SArr n vs) ++ $" " ++ join $" " (map seg_str (g :: segs))).
          cbn [seg_str]. rewrite <- !app_assoc. reflexivity. }
      rewrite E. rewrite scan_search by auto. unfold group. cbn [m_caps m_post dget Nat.eqb].
      assert (Sp : split_ch " " (join $" " vs) = vs).
      { change ($" ") with [" "%char]. apply split_ch_join; auto.
        eapply Forall_impl; [|exact H7]. cbv beta. tauto. }
      rewrite Sp.
      cbn [fold_left upd]. cbv zeta.
      set (old := match dget eqs n ret with Some k => k | None => 0 end).
      assert (EU : (if (old <? List.length vs)%nat then dset eqs n (List.length vs) ret
                    else dset eqs n old ret) = dset eqs n (Nat.max old (List.length vs)) ret).
      { destruct (Nat.ltb_spec old (List.length vs)); f_equal; lia. }
      rewrite EU. unfold b. destruct segs as [|g segs].
      * destruct fuel; [lia|]. cbn [scan_line]. rewrite scan_none by auto. reflexivity.
      * apply IH; auto; [|right; exists []; reflexivity|lia].
        intros [H|[]]; discriminate.
Qed.

Lemma arr_count_len segs : Forall seg_ok segs ->
  (List.length (filter is_arr segs) <= List.length (render segs))%nat.
Proof.
  unfold render. induction 1 as [|g segs Hg Hs IH]; [cbn; lia|].
  assert (G : (List.length (filter is_arr [g]) <= List.length (seg_str g))%nat).
  { destruct g as [w|n vs]; cbn [filter is_arr List.length]; [lia|].
    cbn [seg_str]. rewrite app_length. destruct Hg as [Hne _]. destruct n; [congruence|cbn; lia]. }
  replace (List.length (filter is_arr (g :: segs))) with
    (List.length (filter is_arr [g]) + List.length (filter is_arr segs))%nat
    by (cbn [filter]; destruct (is_arr g); reflexivity).
  destruct segs as [|g' segs].
  - cbn [map join filter List.length] in *. destruct (is_arr g); cbn in *; lia.
  - change (join $" " (map seg_str (g :: g' :: segs)))
      with (seg_str g ++ $" " ++ join $" " (map seg_str (g' :: segs))).
    rewrite !app_length. lia.
Qed.
Lemma scan_render segs ret : Forall seg_ok segs -> Forall seg_ident segs ->
  scan_line (S (List.length (render segs))) ret (render segs) = fold_left upd segs ret.
Proof.
  intros Hs Hi. apply (scan_gen segs [] ret); auto; [now left|].
  assert (H := arr_count_len segs Hs). lia.
Qed.

Lemma upd_nonnil segs : forall ret, ret <> [] -> fold_left upd segs ret <> [].
Proof.
  induction segs as [|g segs IH]; intros ret H; auto. apply IH. destruct g; auto.
  cbn [upd]. destruct ret as [|[k v] ret]; [congruence|]. cbn [dset].
  destruct (eqs name k); discriminate.
Qed.
Lemma upd_arr segs : forall ret, existsb is_arr segs = true -> fold_left upd segs ret <> [].
Proof.
  induction segs as [|g segs IH]; intros ret H; [discriminate|]. destruct g; [now apply IH|].
  cbn [fold_left]. apply upd_nonnil. cbn [upd]. destruct ret as [|[k v] ret]; [discriminate|].
  cbn [dset]. destruct (eqs name k); discriminate.
Qed.
Lemma upd_none segs : forall ret, existsb is_arr segs = false -> fold_left upd segs ret = ret.
Proof.
  induction segs as [|g segs IH]; intros ret H; auto. destruct g; [|discriminate]. now apply IH.
Qed.

Definition look (name : str) (ret : list (str * nat)) : nat :=
  match dget eqs name ret with Some k => k | None => 0 end.
Lemma look_upd name segs : forall ret,
  look name (fold_left upd segs ret) = Nat.max (look name ret) (fold_right Nat.max 0 (map (seg_len name) segs)).
Proof.
  induction segs as [|g segs IH]; intros ret; [cbn; lia|].
  cbn [fold_left map fold_right]. rewrite IH. destruct g as [w|n vs]; cbn [upd seg_len]; [lia|].
  unfold look at 1. rewrite (dget_dset eqs eqs_eq).
  destruct (eqs name n) eqn:E.
  - apply eqs_eq in E. subst n. fold (look name ret). lia.
  - fold (look name ret). lia.
Qed.

Lemma lengths_gen lines : forall ret, ret <> [] ->
  Forall (Forall seg_ok) lines -> Forall (Forall seg_ident) lines ->
  trace_array_lengths ret (map render lines) = fold_left upd (List.concat lines) ret.
Proof.
  induction lines as [|l lines IH]; intros ret Hne Hs Hi; auto.
  inversion Hs; subst. inversion Hi; subst. cbn [map trace_array_lengths List.concat].
  rewrite scan_render by auto. rewrite fold_left_app.
  assert (N := upd_nonnil l ret Hne). rewrite <- IH by auto.
  destruct (fold_left upd l ret); [congruence|reflexivity].
Qed.
Lemma lengths_first l lines : Forall (Forall seg_ok) (l :: lines) -> Forall (Forall seg_ident) (l :: lines) ->
  trace_array_lengths [] (map render (l :: lines)) =
  if existsb is_arr l then fold_left upd (List.concat (l :: lines)) [] else [].
Proof.
  intros Hs Hi. inversion Hs; subst. inversion Hi; subst. cbn [map trace_array_lengths].
  rewrite scan_render by auto. destruct (existsb is_arr l) eqn:E.
  - assert (N := upd_arr l [] E). cbn [List.concat]. rewrite fold_left_app.
    rewrite <- lengths_gen by auto. destruct (fold_left upd l []); [congruence|reflexivity].
  - now rewrite upd_none.
Qed.
Lemma lengths_max l lines name : Forall (Forall seg_ok) (l :: lines) -> Forall (Forall seg_ident) (l :: lines) ->
  default_len (trace_array_lengths [] (map render (l :: lines))) name =
  Some (if existsb is_arr l then max_len name (l :: lines) else 0).
Proof.
  intros Hs Hi. rewrite lengths_first by auto. unfold default_len. f_equal.
  destruct (existsb is_arr l); auto.
  change (look name (fold_left upd (List.concat (l :: lines)) []) = max_len name (l :: lines)).
  rewrite look_upd. reflexivity.
Qed.

(** ** Data frames *)
Lemma mapM_Ok {A B} (f : A -> res B) l l' :
  mapM f l = Ok l' <-> Forall2 (fun x y => f x = Ok y) l l'.
Proof.
  revert l'. induction l as [|x l IH]; intros l'; cbn [mapM].
  - split; [injection 1 as <-; constructor|inversion 1; reflexivity].
  - destruct (f x) as [y|e] eqn:E; cbn [bind].
    + destruct (mapM f l) as [ys|e] eqn:Em; cbn [bind].
      * split; [injection 1 as <-; constructor; auto; now apply IH|].
        inversion 1; subst. assert (Ok ys = Ok l'0) by now apply IH. congruence.
      * split; [discriminate|]. inversion 1; subst.
        assert (H' : Err e = Ok l'0) by now apply IH. discriminate.
    + split; [discriminate|]. inversion 1; subst. congruence.
Qed.
Lemma mapM_Err {A B} (f : A -> res B) l e :
  mapM f l = Err e <-> exists a x b ys, l = a ++ x :: b /\ Forall2 (fun x y => f x = Ok y) a ys /\ f x = Err e.
Proof.
  induction l as [|x l IH]; cbn [mapM].
  - split; [discriminate|]. intros ([|] & x & b & ys & E & _); discriminate.
  - destruct (f x) as [y|e'] eqn:E; cbn [bind].
    + destruct (mapM f l) as [ys|e'] eqn:Em; cbn [bind].
      * split; [discriminate|]. intros ([|x' a] & x0 & b & zs & El & Ha & Hf).
        -- injection El as <- <-. congruence.
        -- injection El as <- ->. inversion Ha; subst.
           assert (Em' : Ok ys = Err e) by (apply IH; eauto 10). discriminate.
      * split.
        -- injection 1 as ->. destruct (proj1 IH eq_refl) as (a & x0 & b & zs & -> & Ha & Hf).
           exists (x :: a), x0, b, (y :: zs). auto.
        -- intros ([|x' a] & x0 & b & zs & El & Ha & Hf).
           ++ injection El as <- <-. congruence.
           ++ injection El as <- ->. inversion Ha; subst.
              assert (Em' : Err e' = Err e) by (apply IH; eauto 10). congruence.
    + split.
      * injection 1 as ->. exists [], x, l, []. auto.
      * intros ([|x' a] & x0 & b & zs & El & Ha & Hf).
        -- injection El as <- <-. congruence.
        -- injection El as <- ->. inversion Ha; subst. congruence.
Qed.

Lemma row_dict_lookup gdd e d r : NoDup (map fst d) -> gdd (ev_data e) = Ok d -> row_dict gdd e = Ok r ->
  forall k, dlookup k r = match dlookup k d with Some c => Some c | None => meta_cell e k end.
Proof.
  intros Hnd Hg Hr k. unfold row_dict in Hr. rewrite Hg in Hr. cbn [bind] in Hr. injection Hr as <-.
  unfold dlookup. rewrite (dget_dupdate eqs eqs_eq).
  assert (E : dget eqs k (rev d) = dget eqs k d).
  { destruct (dget eqs k d) as [c|] eqn:Ed.
    - apply (dget_In eqs eqs_eq) in Ed. apply (In_dget eqs eqs_eq); [|now rewrite <- in_rev].
      rewrite map_rev. apply NoDup_rev. auto.
    - apply (dget_None eqs eqs_eq) in Ed. apply (dget_None eqs eqs_eq). rewrite map_rev, <- in_rev. auto. }
  rewrite E. destruct (dget eqs k d); auto.
Qed.

Lemma gdd_NoDup s d : generate_data_dict s = Ok d -> NoDup (map fst d).
Proof.
  unfold generate_data_dict. generalize (contains $"FAILED TO PARSE" s) as f.
  assert (G : forall ws f d0 k, NoDup (map fst d0) -> gdd_loop f d0 k ws = Ok d -> NoDup (map fst d)).
  { induction ws as [|w ws IH]; intros f d0 k H0; cbn [gdd_loop].
    - injection 1 as <-. auto.
    - destruct (split_once "=" w) as [[key v]|].
      + apply IH. now apply (dset_NoDup eqs eqs_eq).
      + destruct k as [[|c k]|].
        * destruct f; [now apply IH|discriminate].
        * destruct (dlookup (c :: k) d0) as [[| |]|]; try discriminate; try (now apply IH).
          apply IH. now apply (dset_NoDup eqs eqs_eq).
        * destruct f; [now apply IH|discriminate]. }
  intros f. apply G. constructor.
Qed.
