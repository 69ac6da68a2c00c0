(** More event classes: clocks, file systems, idle states, renames, masks. *)
From Coq Require Import List Ascii String ZArith NArith Bool Lia.
From Verif Require Import Lib.PyStr Lib.PyStrFacts Lib.ReplaceFacts Lib.F64
  Model.Base Model.Events Spec.Payload Spec.Parts Spec.Lines Spec.Events
  Proofs.PayloadP Proofs.ScanP Proofs.FrameP Proofs.EventsP.
Import ListNotations.
Local Open Scope list_scope.

(** ** sched_switch rows *)
Lemma replace1_In c old new s : In c (replace1 old new s) -> In c new \/ In c s.
Proof.
  induction s as [|x s IH]; cbn [replace1].
  - destruct (is_prefix old []); [|intros []]. rewrite skipn_nil, app_nil_r. auto.
  - destruct (is_prefix old (x :: s)).
    + intros H. apply in_app_or in H as [H|H]; auto. right. rewrite <- (firstn_skipn (List.length old) (x :: s)). apply in_or_app. auto.
    + intros [->|H]; [right; now left|]. destruct (IH H); auto. right. now right.
Qed.
Lemma switch_rows fuel evs ds :
  Forall2 (fun e d => ~ In "{"%char (ev_data e) /\ generate_data_dict (switch_text (ev_data e)) = Ok d) evs ds ->
  exists fr, switch_dataframe fuel evs = Ok fr /\
    Forall2 (fun ed r => fst r = ev_time (fst ed) /\
      forall k, dlookup k (snd r) = match dlookup k (snd ed) with Some c => Some c | None => meta_cell (fst ed) k end)
      (combine evs ds) fr.
Proof.
  intros H. unfold switch_dataframe.
  destruct (frame_plain fuel generate_data_dict (map (fun e => with_data e (switch_text (ev_data e))) evs) ds) as (fr & E & F).
  - apply Forall_map. induction H as [|e x evs xs (H1 & H2) H IH]; constructor; auto.
    cbn [with_data ev_data]. intros Hi. apply replace1_In in Hi as [[Hi|[]]|Hi]; [discriminate|tauto].
  - apply Forall2_map_l. induction H as [|e x evs xs (H1 & H2) H IH]; constructor; auto. cbn [with_data ev_data].
    split; auto. now apply gdd_NoDup in H2.
  - exists fr. split; auto. clear E. revert fr F. induction H as [|e x evs xs (H1 & H2) H IH]; intros fr F; cbn [combine map] in *.
    + inversion F; constructor.
    + inversion F; subst. constructor; auto.
Qed.

(** ** Clocks *)
Lemma clk_fields name fields gs : ~ In " "%char name ->
  Words fields (flat_map g_words gs) -> Forall group_ok gs -> NoDup (map g_key gs) ->
  Forall (fun g => g_key g <> [] /\ g_key g <> $"clk_name") gs ->
  exists d, clk_dict (name ++ $" " ++ fields) = Ok (d ++ [($"clk_name", CStr name)]) /\
    Forall2 (fun g kc => fst kc = g_key g /\ col_cell (g_val g) (g_more g) (snd kc)) gs d.
Proof.
  intros Hn Hw Hg Hd Hk.
  destruct (gdd_round_trip_spec fields gs Hw Hg Hd) as (d & E & F).
  { eapply Forall_impl; [|exact Hk]. cbv beta. tauto. }
  exists d. split; auto. unfold clk_dict. rewrite (proj2 (split_once_Some " " _ name fields)) by (split; auto).
  rewrite E. cbn [bind]. rewrite dset_new; auto. apply (dget_None eqs eqs_eq).
  intros Hi. apply in_map_iff in Hi as ([k c] & Ek & Hi). cbn in Ek. subst k.
  clear -F Hk Hi. induction F as [|g kc gs d [H1 H2] F IH]; [destruct Hi|]. inversion Hk; subst. destruct Hi as [->|Hi]; auto.
  cbn in H1. match goal with H : g_key g <> [] /\ _ |- _ => destruct H as [_ H]; apply H; auto end.
Qed.
Lemma clk_error data : clk_dict data = Err EValue <-> ~ In " "%char data.
Proof.
  unfold clk_dict. rewrite <- split_once_None. destruct (split_once " " data) as [[n f]|]; [|tauto].
  split; [|discriminate]. intros H. exfalso.
  destruct (generate_data_dict f) as [d|e] eqn:E; [discriminate|]. cbn [bind] in H.
  destruct (payload_decompose f) as (pre & gs & Hw & Hp & Hg).
  destruct (gdd_error_iff f pre gs Hw Hp Hg) as [_ He]. apply He in E. congruence.
Qed.

(** ** ext4 *)
Lemma pairs_flat ps : pairs (flat_map (fun kv => [fst kv; snd kv]) ps) = map (fun kv => (fst kv, CStr (snd kv))) ps.
Proof. induction ps as [|[k v] ps IH]; cbn; auto. now rewrite IH. Qed.
Lemma ext4_fields ps : ps <> [] -> Forall (fun kv => ~ In " "%char (fst kv) /\ ~ In " "%char (snd kv)) ps -> NoDup (map fst ps) ->
  ext4_dict (join $" " (flat_map (fun kv => [fst kv; snd kv]) ps)) = Ok (map (fun kv => (fst kv, CStr (snd kv))) ps).
Proof.
  intros Hne Hf Hn. unfold ext4_dict. change ($" ") with [" "%char]. rewrite split_ch_join.
  - rewrite pairs_flat. f_equal. rewrite dupdate_distinct; auto. cbn [app]. rewrite map_map. exact Hn.
  - destruct ps as [|[k v] ps]; [congruence|discriminate].
  - clear -Hf. induction Hf as [|kv ps [H1 H2] H IH]; [constructor|]. cbn [flat_map app]. repeat constructor; auto.
Qed.
Lemma ext4_strings data d k c : ext4_dict data = Ok d -> dlookup k d = Some c -> exists s, c = CStr s.
Proof.
  unfold ext4_dict. intros E. injection E as <-. unfold dlookup. intros H.
  assert (K : forall l (d : dict), (forall k c, dget eqs k d = Some c -> exists s, c = CStr s) ->
            forall k c, dget eqs k (dupdate eqs d (pairs l)) = Some c -> exists s, c = CStr s).
  { clear. intros l. assert (G : forall n l, List.length l <= n -> forall d : dict, (forall k c, dget eqs k d = Some c -> exists s, c = CStr s) ->
            forall k c, dget eqs k (dupdate eqs d (pairs l)) = Some c -> exists s, c = CStr s); [|eapply G; apply le_n].
    induction n as [|n IH]; intros l0 Hl d Hd k c H.
    - destruct l0; [|cbn in Hl; lia]. cbn in H. eauto.
    - destruct l0 as [|k0 [|v0 l0]]; cbn [pairs] in H; eauto. cbn in Hl.
      change (dupdate eqs d ((k0, CStr v0) :: pairs l0)) with (dupdate eqs (dset eqs k0 (CStr v0) d) (pairs l0)) in H.
      eapply IH in H; [exact H|lia|]. intros k1 c1 H1. rewrite (dget_dset eqs eqs_eq) in H1.
      destruct (eqs k1 k0); [injection H1 as <-; eauto|eauto]. }
  eapply K; [|exact H]. intros k0 c0 H0. discriminate.
Qed.

(** ** F2FS *)
Lemma eq_no_start a rest : ~ In "="%char a -> no_start $" = " a ($" = " ++ rest).
Proof.
  intros H a1 a2 -> Hn. destruct (is_prefix $" = " (a2 ++ $" = " ++ rest)) eqn:E; auto. exfalso.
  apply is_prefix_spec in E as [r E]. destruct a2 as [|c0 [|c1 a2]]; [congruence| |].
  - discriminate.
  - cbn in E. injection E as -> -> E. apply H. apply in_or_app. right. right. now left.
Qed.
Lemma eq_no_start_end a : ~ In "="%char a -> no_start $" = " a [].
Proof.
  intros H a1 a2 -> Hn. destruct (is_prefix $" = " (a2 ++ [])) eqn:E; auto. exfalso.
  apply is_prefix_spec in E as [r E]. rewrite app_nil_r in E. subst a2. apply H. apply in_or_app. right. right. now left.
Qed.
Lemma f2fs_join fs : fs <> [] -> Forall ffield_ok fs ->
  replace $" = " $"=" (join $", " (map ffield_text fs)) = join $", " (map (fun f => f_key f ++ $"=" ++ f_text f) fs).
Proof.
  (* generalised with the text already passed *)
  assert (G : forall fs f a, Forall ffield_ok (f :: fs) -> ~ In "="%char a ->
     replace $" = " $"=" (a ++ join $", " (map ffield_text (f :: fs))) = a ++ join $", " (map (fun f => f_key f ++ $"=" ++ f_text f) (f :: fs))).
  { induction fs0 as [|f2 fs0 IH]; intros f a Hf Ha; inversion Hf as [|? ? (K1 & K2 & K3 & K4 & K5 & K6) Hf']; subst.
    - cbn [map join]. unfold ffield_text. rewrite app_assoc. rewrite replace_at; [|discriminate|].
      + rewrite replace_none by now apply eq_no_start_end. now rewrite <- !app_assoc.
      + apply eq_no_start. rewrite in_app_iff. tauto.
    - change (join $", " (map ffield_text (f :: f2 :: fs0))) with (ffield_text f ++ $", " ++ join $", " (map ffield_text (f2 :: fs0))).
      unfold ffield_text at 1. replace (a ++ (f_key f ++ $" = " ++ f_text f) ++ $", " ++ join $", " (map ffield_text (f2 :: fs0)))
        with ((a ++ f_key f) ++ $" = " ++ (f_text f ++ $", ") ++ join $", " (map ffield_text (f2 :: fs0))) by (rewrite <- !app_assoc; reflexivity).
      rewrite replace_at; [|discriminate|].
      + rewrite IH by (auto; rewrite in_app_iff; cbn; intuition discriminate).
        change (join $", " (map (fun f0 => f_key f0 ++ $"=" ++ f_text f0) (f :: f2 :: fs0))) with
          ((f_key f ++ $"=" ++ f_text f) ++ $", " ++ join $", " (map (fun f0 => f_key f0 ++ $"=" ++ f_text f0) (f2 :: fs0))).
        rewrite <- !app_assoc. reflexivity.
      + apply eq_no_start. rewrite in_app_iff. tauto. }
  intros Hn H. destruct fs as [|f fs]; [congruence|]. apply (G fs f [] H). intros [].
Qed.
Lemma uncomma_replace s : replace $"," $" " s = uncomma s.
Proof.
  change ($",") with [","%char]. rewrite replace_char. unfold uncomma. induction s as [|c s IH]; cbn [flat_map map]; auto.
  rewrite IH, Ascii.eqb_sym. destruct (Ascii.eqb c ","); reflexivity.
Qed.
Lemma uncomma_app a b : uncomma (a ++ b) = uncomma a ++ uncomma b.
Proof. apply map_app. Qed.
Lemma uncomma_id a : ~ In ","%char a -> uncomma a = a.
Proof.
  intros H. unfold uncomma. induction a as [|c a IH]; cbn; auto. rewrite IH by (intros Hi; apply H; now right).
  destruct (Ascii.eqb_spec c ","); auto. subst. exfalso. apply H. now left.
Qed.
Lemma uncomma_no s : ~ In ","%char (uncomma s).
Proof.
  unfold uncomma. intros H. apply in_map_iff in H as (c & E & _). destruct (Ascii.eqb_spec c ","); [discriminate|auto].
Qed.
Lemma ffield_words f : ffield_ok f ->
  Words (uncomma (f_key f ++ $"=" ++ f_text f)) (g_words (Grp (f_key f) (f_val f) (f_more f))).
Proof.
  intros ((K0 & K1) & K2 & K3 & K4 & (r & Er) & K6). rewrite !uncomma_app, (uncomma_id (f_key f)) by auto.
  change (uncomma $"=") with ["="%char]. cbn [app].
  inversion K6 as [|sp w r' ws Hsp Hw Hr Hws E1 E2]; subst.
  assert (sp = []).
  { destruct sp as [|c sp]; auto. exfalso. pose proof (uncomma_no (f_text f)) as Hno. rewrite <- E1 in Hno.
    destruct Hw as [W1 W2]. destruct (f_val f) as [|v0 v] eqn:Ev; [congruence|].
    rewrite Er in E1. unfold uncomma in E1. cbn [app map] in E1. injection E1 as -> E1.
    inversion Hsp; subst. inversion W2; subst. destruct (Ascii.eqb_spec v0 ","); [subst|congruence].
    apply Hno. apply in_or_app. right. now left. }
  subst sp. unfold g_words. cbn [g_key g_val g_more app].
  replace (f_key f ++ "="%char :: f_val f ++ r') with ([] ++ (f_key f ++ "="%char :: f_val f) ++ r') by (rewrite <- app_assoc; reflexivity).
  apply Words_cons; [constructor| |assumption|assumption]. destruct Hw as [W1 W2]. split; [destruct (f_key f); [congruence|discriminate]|].
  apply Forall_app. split; auto.
Qed.
Lemma f2fs_words fs : Forall ffield_ok fs ->
  Words (uncomma (join $", " (map (fun f => f_key f ++ $"=" ++ f_text f) fs)))
        (flat_map g_words (map (fun f => Grp (f_key f) (f_val f) (f_more f)) fs)).
Proof.
  induction 1 as [|f fs Hf H IH]; [apply Words_nil; constructor|]. destruct fs as [|f2 fs].
  - cbn [map join flat_map]. rewrite app_nil_r. now apply ffield_words.
  - change (join $", " (map (fun f => f_key f ++ $"=" ++ f_text f) (f :: f2 :: fs))) with
      ((f_key f ++ $"=" ++ f_text f) ++ $", " ++ join $", " (map (fun f => f_key f ++ $"=" ++ f_text f) (f2 :: fs))).
    rewrite (uncomma_app (f_key f ++ $"=" ++ f_text f) _), (uncomma_app $", "). change (uncomma $", ") with [" "; " "]%char. cbn [app].
    change (flat_map g_words (map (fun f => Grp (f_key f) (f_val f) (f_more f)) (f :: f2 :: fs))) with
      (g_words (Grp (f_key f) (f_val f) (f_more f)) ++ [] ++ flat_map g_words (map (fun f => Grp (f_key f) (f_val f) (f_more f)) (f2 :: fs))).
    apply Words_blank; [now apply ffield_words|]. apply (Words_blank [] _ [] _); [apply Words_nil; constructor|exact IH].
Qed.
Lemma ffield_group f : ffield_ok f -> group_ok (Grp (f_key f) (f_val f) (f_more f)).
Proof.
  intros (K1 & K2 & K3 & K4 & K5 & K6). split; [exact K2|]. cbn [g_more].
  assert (F : forall s ws, Words s ws -> ~ In "="%char s -> Forall (fun w => ~ In "="%char w) ws).
  { clear. induction 1 as [|sp w r ws Hsp Hw Hr H IH]; intros Hn; constructor; [|apply IH]; intros Hi; apply Hn; apply in_or_app; right; apply in_or_app; auto. }
  apply F in K6.
  - now inversion K6.
  - intros Hi. apply in_map_iff in Hi as (c & E & Hi). destruct (Ascii.eqb c ","); [discriminate|subst; auto].
Qed.
Lemma f2fs_fields fs : fs <> [] -> Forall ffield_ok fs -> NoDup (map f_key fs) ->
  exists d, f2fs_dict (join $", " (map ffield_text fs)) = Ok d /\
    Forall2 (fun f kc => fst kc = f_key f /\ col_cell (f_val f) (f_more f) (snd kc)) fs d.
Proof.
  intros Hne Hf Hn. unfold f2fs_dict. rewrite f2fs_join, uncomma_replace by auto.
  destruct (gdd_round_trip_spec (uncomma (join $", " (map (fun f => f_key f ++ $"=" ++ f_text f) fs))) (map (fun f => Grp (f_key f) (f_val f) (f_more f)) fs)) as (d & E & F).
  - now apply f2fs_words.
  - apply Forall_map. eapply Forall_impl; [|exact Hf]. apply ffield_group.
  - rewrite map_map. exact Hn.
  - apply Forall_map. eapply Forall_impl; [|exact Hf]. intros f ((K & _) & _). exact K.
  - exists d. split; auto. apply Forall2_map_l in F. exact F.
Qed.
(** The checkpoint field of [f2fs_sync_file_exit] is printed with "is". *)
Lemma checkpoint_text a v b : contains $"checkpoint is " a = false -> contains $"checkpoint is " (v ++ b) = false ->
  replace $"checkpoint is " $"checkpoint = " (a ++ $"checkpoint is " ++ v ++ b) = a ++ $"checkpoint = " ++ v ++ b.
Proof.
  intros Ha Hb. rewrite replace_at; [|discriminate|].
  - rewrite replace_none; auto. intros a1 a2 E Hn. rewrite app_nil_r.
    destruct (is_prefix $"checkpoint is " a2) eqn:P; auto. apply is_prefix_spec in P as [r ->]. exfalso.
    enough (contains $"checkpoint is " (v ++ b) = true) by congruence. apply contains_spec. now exists a1, r.
  - apply no_start_border; auto.
Qed.
Lemma f2fs_exit_fields a v b fs : contains $"checkpoint is " a = false -> contains $"checkpoint is " (v ++ b) = false ->
  a ++ $"checkpoint = " ++ v ++ b = join $", " (map ffield_text fs) ->
  fs <> [] -> Forall ffield_ok fs -> NoDup (map f_key fs) ->
  exists d, f2fs_exit_dict (a ++ $"checkpoint is " ++ v ++ b) = Ok d /\
    Forall2 (fun f kc => fst kc = f_key f /\ col_cell (f_val f) (f_more f) (snd kc)) fs d.
Proof.
  intros Ha Hb E Hne Hf Hn. unfold f2fs_exit_dict. rewrite checkpoint_text by auto. rewrite E. now apply f2fs_fields.
Qed.

(** ** Idle states, renames *)
Lemma idle_literal (c : unit -> option cell) : match c tt with Some (CInt 4294967295) => Some (CInt (-1)) | o => o end =
  match c tt with Some (CInt z) => if (z =? 4294967295)%Z then Some (CInt (-1)) else Some (CInt z) | o => o end.
Proof.
  destruct (c tt) as [[z| |]|]; auto. destruct (Z.eqb_spec z 4294967295); [subst; reflexivity|].
  destruct z as [|p|]; auto. do 33 (try destruct p as [p|p|]; try reflexivity; try (exfalso; apply n; reflexivity)).
Qed.
Lemma idle_rows fr : Forall2 (fun r r' => fst r' = fst r /\ map fst (snd r') = map fst (snd r) /\
   forall k, dlookup k (snd r') = match dlookup k (snd r) with Some (CInt 4294967295) => Some (CInt (-1)) | o => o end) fr (idle_finalize fr).
Proof.
  unfold idle_finalize. induction fr as [|[t d] fr IH]; cbn [map]; constructor; auto. cbn [fst snd]. split; auto. split.
  - rewrite map_map. reflexivity.
  - intros k. etransitivity; [|symmetry; exact (idle_literal (fun _ => dlookup k d))]. unfold dlookup. clear IH. induction d as [|[k0 c0] d IH]; cbn [dget map fst snd]; auto.
    destruct (eqs k k0); [|exact IH]. unfold idle_cell. destruct c0 as [z| |]; auto. now destruct (z =? 4294967295)%Z.
Qed.
Lemma rename_lookup old new d : old <> new -> ~ In new (map fst d) -> forall k,
  dlookup k (map (fun kc : str * cell => (if eqs old (fst kc) then new else fst kc, snd kc)) d) =
  if eqs k new then dlookup old d else if eqs k old then None else dlookup k d.
Proof.
  intros Hne Hn k. unfold dlookup. induction d as [|[k0 c0] d IH]; cbn [map dget fst snd].
  - destruct (eqs k new), (eqs k old); reflexivity.
  - cbn [map fst] in Hn. rewrite IH by (intros Hi; apply Hn; now right). clear IH.
    destruct (eqs old k0) eqn:E1.
    + apply eqs_eq in E1. subst k0. rewrite (eqs_sym k new). rewrite (eqs_sym new k). destruct (eqs k new) eqn:E2; auto.
      destruct (eqs k old); auto.
    + apply eqs_neq in E1. destruct (eqs k k0) eqn:E2.
      * apply eqs_eq in E2. subst k0. replace (eqs k new) with false.
        2:{ symmetry. apply eqs_neq. intros ->. apply Hn. now left. }
        replace (eqs k old) with false; auto. symmetry. apply eqs_neq. auto.
      * destruct (eqs k new); auto.
Qed.
Lemma rename_rows old new fr : old <> new -> Forall (fun r => ~ In new (map fst (snd r))) fr ->
  Forall2 (fun r r' => fst r' = fst r /\ forall k, dlookup k (snd r') =
     if eqs k new then dlookup old (snd r) else if eqs k old then None else dlookup k (snd r)) fr (rename_col old new fr).
Proof.
  intros Hne H. unfold rename_col. induction H as [|[t d] fr Hd H IH]; cbn [map]; constructor; auto.
  cbn [fst snd]. split; auto. now apply rename_lookup.
Qed.
Lemma rename_names old new fr r' : In r' (rename_col old new fr) -> exists r, In r fr /\
  map fst (snd r') = map (fun k => if eqs old k then new else k) (map fst (snd r)).
Proof.
  unfold rename_col. rewrite in_map_iff. intros (r & <- & Hr). exists r. split; auto. cbn [snd]. now rewrite !map_map.
Qed.
Lemma rename_two o1 n1 o2 n2 fr : o1 <> n1 -> o2 <> n2 -> n1 <> n2 -> o2 <> n1 -> o1 <> o2 ->
  Forall (fun r => ~ In n1 (map fst (snd r)) /\ ~ In n2 (map fst (snd r))) fr ->
  Forall2 (fun r r' => fst r' = fst r /\ forall k, dlookup k (snd r') =
     if eqs k n1 then dlookup o1 (snd r) else if eqs k n2 then dlookup o2 (snd r) else
     if eqs k o1 || eqs k o2 then None else dlookup k (snd r)) fr (rename_col o2 n2 (rename_col o1 n1 fr)).
Proof.
  intros D1 D2 D3 D4 D5 H. unfold rename_col. induction H as [|[t d] fr [Ha Hb] H IH]; cbn [map]; constructor; auto.
  cbn [fst snd] in *. split; auto. intros k. rewrite rename_lookup; auto.
  - rewrite !rename_lookup by auto. assert (R : forall a b : str, a <> b -> eqs a b = false) by (intros a b Hab; destruct (eqs a b) eqn:E; auto; apply eqs_eq in E; easy).
    destruct (eqs k n1) eqn:E1.
    + apply eqs_eq in E1 as ->. rewrite (R n1 n2), (R n1 o2); auto.
    + destruct (eqs k n2) eqn:E2.
      * rewrite (R o2 n1), (R o2 o1); auto.
      * destruct (eqs k o2), (eqs k o1); auto.
  - rewrite map_map. cbn [fst]. intros Hi. apply in_map_iff in Hi as ([k' c] & E & Hk). cbn [fst] in E. destruct (eqs o1 k'); [congruence|].
    apply Hb. subst. apply in_map_iff. now exists (n2, c).
Qed.

(** ** CPU masks *)
Lemma fmt_fuel_enough b f : (2 <= b)%N -> forall f' n, (n < 2 ^ N.of_nat f)%N -> (n < 2 ^ N.of_nat f')%N -> f <> O -> f' <> O ->
  fmt_fuel b f n = fmt_fuel b f' n.
Proof.
  intros Hb. induction f as [|f IH]; intros f' n H H' Hf Hf'; [congruence|]. destruct f' as [|f']; [congruence|].
  cbn [fmt_fuel]. destruct (N.ltb_spec n b) as [Hl|Hl]; auto. f_equal.
  assert (D : forall g, (n < 2 ^ N.of_nat (S g))%N -> (n / b < 2 ^ N.of_nat g)%N /\ g <> O).
  { intros g Hg. split.
    - apply N.div_lt_upper_bound; [lia|].
      assert (2 ^ N.of_nat (S g) = 2 * 2 ^ N.of_nat g)%N by (rewrite Nat2N.inj_succ, N.pow_succ_r'; lia). nia.
    - intros ->. cbn in Hg. lia. }
  destruct (D f H), (D f' H'). apply IH; auto.
Qed.
Lemma fmt_snoc b n d : (2 <= b)%N -> (0 < n)%N -> (d < b)%N -> fmt_base b (n * b + d) = fmt_base b n ++ [digit_char d].
Proof.
  intros Hb Hn Hd. unfold fmt_base at 1. cbn [fmt_fuel]. destruct (N.ltb_spec (n * b + d) b) as [Hl|Hl]; [nia|].
  assert (Q : ((n * b + d) / b = n)%N) by (rewrite N.div_add_l, N.div_small by lia; lia).
  assert (R : ((n * b + d) mod b = d)%N) by (rewrite N.add_comm, N.mod_add, N.mod_small by lia; lia).
  rewrite Q, R. f_equal. unfold fmt_base. 
  assert (B : (n < 2 ^ N.of_nat (N.size_nat (n * b + d)))%N).
  { pose proof (size_nat_bound (n * b + d)) as S0. rewrite Nat2N.inj_succ, N.pow_succ_r' in S0. nia. }
  apply fmt_fuel_enough; auto; [apply size_nat_bound|]. intros E. rewrite E in B. cbn in B. lia.
Qed.
Lemma digit_char_of c d : digit_val c = Some d -> (d < 10)%N -> digit_char d = c.
Proof.
  revert d. destruct c as [[] [] [] [] [] [] [] []]; vm_compute; intros d H L; try discriminate; injection H as <-; auto; discriminate.
Qed.
(** Decimal numerals without leading zero are what [str] prints. *)
Lemma dec_canonical s n : digs 10 s n -> ~ In "_"%char s -> (forall r, s <> "0"%char :: r) -> str_of_N n = s /\ (0 < n)%N.
Proof.
  unfold str_of_N. induction 1 as [c d Hd Hl|s n c d H IH Hd Hl|s n c d H IH Hd Hl]; intros Hu H0.
  - assert (0 < d)%N.
    { destruct (N.eq_dec d 0); [|lia]. subst. exfalso. apply (H0 []). f_equal. apply digit_char_of in Hd; auto. }
    split; auto. unfold fmt_base. cbn [fmt_fuel]. rewrite (proj2 (N.ltb_lt d 10)) by auto. f_equal. now apply digit_char_of.
  - rewrite in_app_iff in Hu. destruct IH as [E P]; [tauto| |].
    { intros r ->. apply (H0 (r ++ [c])). reflexivity. }
    split; [|lia]. rewrite fmt_snoc by lia. rewrite E. f_equal. f_equal. now apply digit_char_of.
  - exfalso. apply Hu. apply in_or_app. right. now left.
Qed.
Lemma digs_zero_repeat s n : digs 10 s n -> n = 0%N -> ~ In "_"%char s -> s = zeros (List.length s).
Proof.
  induction 1 as [c d Hd Hl|s n c d H IH Hd Hl|s n c d H IH Hd Hl]; intros E Hu.
  - subst. cbn. unfold zeros. cbn. f_equal. apply digit_char_of in Hd; auto.
  - rewrite in_app_iff in Hu. assert (n = 0 /\ d = 0)%N as [-> ->] by lia.
    rewrite app_length. cbn [List.length]. unfold zeros in *. rewrite repeat_app. rewrite <- IH by (auto; tauto). f_equal. cbn. f_equal.
    apply digit_char_of in Hd; auto.
  - exfalso. apply Hu. apply in_or_app. right. now left.
Qed.
Lemma hexs_no c m : is_hex c = false -> Forall hex_digit m -> ~ In c m.
Proof. intros Hc H Hi. rewrite Forall_forall in H. apply H in Hi. apply hex_iff in Hi. congruence. Qed.
Lemma digs2_chars s n : digs 2 s n -> ~ In "_"%char s -> s <> [] /\ Forall (fun c => c = "0"%char \/ c = "1"%char) s.
Proof.
  assert (C : forall c d, digit_val c = Some d -> (d < 2)%N -> c = "0"%char \/ c = "1"%char).
  { intros c d. destruct c as [[] [] [] [] [] [] [] []]; vm_compute; intros H L; auto; try discriminate; injection H as <-; discriminate. }
  induction 1 as [c d Hd Hl|s n c d H IH Hd Hl|s n c d H IH Hd Hl]; intros Hu.
  - split; [discriminate|]. constructor; eauto.
  - rewrite in_app_iff in Hu. destruct IH as [I1 I2]; [tauto|]. split; [destruct s; discriminate|]. apply Forall_app. split; auto. constructor; eauto.
  - exfalso. apply Hu. apply in_or_app. right. now left.
Qed.
Lemma chars_digs2 s : s <> [] -> Forall (fun c => c = "0"%char \/ c = "1"%char) s -> exists n, digs 2 s n.
Proof.
  induction s as [|c s IH] using rev_ind; [congruence|]. intros _ H. apply Forall_app in H as [H1 H2]. inversion H2; subst.
  assert (D : exists d, digit_val c = Some d /\ (d < 2)%N) by (destruct H3; subst; eexists; split; reflexivity).
  destruct D as (d & D1 & D2). destruct s as [|c0 s].
  - exists d. now apply digs_one.
  - destruct IH as [n Hn]; [discriminate|auto|]. exists (n * 2 + d)%N. now apply digs_snoc.
Qed.
Lemma Z_of_N_str n : str_of_Z (Z.of_N n) = str_of_N n.
Proof. destruct n; reflexivity. Qed.
Lemma pad_int_no_b z : ~ In "b"%char (pad8 (CInt z)) /\ ~ In "B"%char (pad8 (CInt z)).
Proof.
  assert (H : forall n, ~ In "b"%char (str_of_N n) /\ ~ In "B"%char (str_of_N n)).
  { intros n. split; intros Hi; pose proof (str_of_N_digits n) as F; rewrite Forall_forall in F; apply F in Hi; discriminate. }
  assert (Hz : ~ In "b"%char (str_of_Z z) /\ ~ In "B"%char (str_of_Z z)).
  { unfold str_of_Z. destruct z; try apply H. destruct (H (Npos p)). split; intros [E|Hi]; try discriminate; auto. }
  unfold pad8. cbn [cell_text]. rewrite !in_app_iff. destruct Hz.
  split; intros [Hi|Hi]; auto; apply repeat_spec in Hi; discriminate.
Qed.
Lemma mask_iff m : hexs m -> List.length m <= 8 ->
  (pad8 (string_cast_int m) = zeros (8 - List.length m) ++ m <-> ~ binary_like m).
Proof.
  intros [Hn Hh] Hl.
  assert (Hns : no_space m) by now apply (Forall_nospace _ _ hex_space).
  assert (Hu : ~ In "_"%char m) by now apply hexs_no.
  split.
  - intros E (x & r & -> & Hx & Hr & Hb). destruct (chars_digs2 r Hr Hb) as [n Hd].
    assert (L : int_literal ("0"%char :: x :: r) (Z.of_N n)).
    { apply il_plain. apply (ulit_bin x [] r n); auto. }
    apply cast_int_iff in L; auto. rewrite L in E. destruct (pad_int_no_b (Z.of_N n)) as [N1 N2]. rewrite E in N1, N2.
    rewrite in_app_iff in N1, N2. cbn in N1, N2. destruct Hx; subst; tauto.
  - intros Hb. destruct (string_cast_int m) as [z|s|] eqn:E.
    + apply cast_int_iff in E; auto. inversion E as [s n U|s n U|s n U]; subst.
      2:{ exfalso. inversion Hh; subst. match goal with H : hex_digit _ |- _ => apply hex_iff in H; discriminate end. }
      2:{ exfalso. inversion Hh; subst. match goal with H : hex_digit _ |- _ => apply hex_iff in H; discriminate end. }
      unfold pad8. cbn [cell_text]. rewrite Z_of_N_str.
      inversion U as [x u s n' Hx Hu' Hd|x u s n' Hx Hu' Hd|x u s n' Hx Hu' Hd|c s n' Hc Hd|s Hd]; subst.
      * exfalso. inversion Hh; subst. inversion H2; subst. apply hex_iff in H3. destruct Hx; subst; discriminate.
      * exfalso. inversion Hh; subst. inversion H2; subst. apply hex_iff in H3. destruct Hx; subst; discriminate.
      * exfalso. apply Hb. destruct Hu' as [-> | ->]; [|exfalso; apply Hu; right; right; now left].
        cbn [app] in *. assert (Hu2 : ~ In "_"%char s) by (intros Hi; apply Hu; right; now right).
        destruct (digs2_chars s n Hd Hu2). exists x, s. auto.
      * destruct (dec_canonical _ _ Hd Hu) as [-> _]; [|reflexivity]. intros r Er. congruence.
      * rewrite (digs_zero_repeat m 0 Hd eq_refl Hu) at 2. change (str_of_N 0) with ["0"%char]. cbn [List.length].
        unfold zeros. rewrite <- repeat_app. replace (8 - List.length m + List.length m) with (7 + 1) by lia. rewrite repeat_app. reflexivity.
    + assert (s = m).
      { unfold string_cast_int in E. destruct (py_int0 m); [discriminate|]. now injection E. }
      subst. reflexivity.
    + unfold string_cast_int in E. destruct (py_int0 m); discriminate.
Qed.
Lemma mask_rows fr : Forall2 (fun r r' => fst r' = fst r /\ forall k, dlookup k (snd r') =
     if eqs k $"cpus" then option_map (fun c => CStr (pad8 c)) (dlookup k (snd r)) else dlookup k (snd r)) fr (mask_finalize fr).
Proof.
  unfold mask_finalize. induction fr as [|[t d] fr IH]; cbn [map]; constructor; auto. cbn [fst snd]. split; auto.
  intros k. unfold dlookup. clear IH. induction d as [|[k0 c0] d IH]; cbn [dget map fst snd]; [destruct (eqs k $"cpus"); reflexivity|].
  rewrite IH. destruct (eqs k k0) eqn:E; auto. apply eqs_eq in E. subst k0. rewrite (eqs_sym $"cpus" k). destruct (eqs k $"cpus"); reflexivity.
Qed.
