(** [re.sub(r"[A-Za-z0-9_]+=\{\} ", "", data)]. *)
From Coq Require Import List Ascii String ZArith NArith Bool Lia.
From Verif Require Import Lib.PyStr Lib.PyStrFacts Lib.Regex Lib.RegexFacts Lib.SearchFacts
  Model.Base Model.Populate Spec.Empties Proofs.ArraysP.
Import ListNotations.
Local Open Scope nat_scope.

Lemma pat_empty_inv s s' : mat pat_empty s s' -> exists n, s_rest s = n ++ $"={} " ++ s_rest s' /\ n <> [] /\
  Forall (fun c => is_ident c = true) n.
Proof.
  intros H. unfold pat_empty in H. cbn [RSeqs] in H. apply mat_seq_inv in H as (s1 & H & Hl).
  apply mat_plus_cls in H as (n & E & Hn & Hi & _). apply mat_lit in Hl as (El & _). exists n. now rewrite E, El.
Qed.
Lemma ident_not_blank : is_ident " " = false.
Proof. reflexivity. Qed.

(** No match starts inside an ordinary word. *)
Lemma nomatch_other t rest pv caps a b : pword_ok (Other t) -> t = a ++ b ->
  (rest = [] \/ exists r, rest = " "%char :: r) ->
  b ++ rest <> [] -> nomatch pat_empty (St pv (b ++ rest) caps) \/ b = [].
Proof.
  intros [Hsp Hno] -> Hr Hne. destruct b as [|b0 b]; [right; reflexivity|left].
  intros s' Hm. apply pat_empty_inv in Hm as (n & E & Hn & Hi). cbn [s_rest] in E.
  set (B := b0 :: b) in *. clearbody B.
  destruct (app_eq_app _ _ _ _ E) as (z & [[E1 E2]|[E1 E2]]).
  - (* B = n ++ z *)
    destruct z as [|z0 [|z1 [|z2 z]]].
    + cbn in E2. destruct Hr as [->|(r & ->)]; discriminate.
    + cbn in E2. injection E2 as <- E2. destruct Hr as [->|(r & ->)]; discriminate.
    + cbn in E2. injection E2 as <- <- E2. destruct Hr as [->|(r & ->)]; discriminate.
    + cbn in E2. injection E2 as <- <- <- E2. apply Hno. exists (a ++ n), z. rewrite E1, <- app_assoc. reflexivity.
  - (* n = B ++ z, rest = z ++ ... *)
    subst n. apply Forall_app in Hi as [_ Hi]. destruct Hr as [->|(r & ->)].
    + destruct z; discriminate.
    + destruct z as [|z0 z]; cbn in E2.
      * discriminate.
      * injection E2 as <- _. inversion Hi; discriminate.
Qed.
Lemma nomatch_blank r pv caps : nomatch pat_empty (St pv (" "%char :: r) caps).
Proof.
  intros s' Hm. apply pat_empty_inv in Hm as (n & E & Hn & Hi). cbn [s_rest] in E.
  destruct n as [|c n]; [congruence|]. injection E as <- _. inversion Hi; discriminate.
Qed.
Lemma nomatch_nil pv caps : nomatch pat_empty (St pv [] caps).
Proof. intros s' Hm. apply pat_empty_inv in Hm as (n & E & Hn & Hi). cbn in E. destruct n; [congruence|discriminate]. Qed.
(** ... nor in a final empty array, which has no blank after it *)
Lemma nomatch_last w pv caps a b : pword_ok w -> pword_str w = a ++ b -> nomatch pat_empty (St pv b caps).
Proof.
  intros Hw E s' Hm. apply pat_empty_inv in Hm as (n & En & Hn & Hi). cbn [s_rest] in En.
  assert (Hsp : In " "%char (pword_str w)).
  { rewrite E, En. rewrite !in_app_iff. right. right. left. cbn. auto. }
  destruct w as [m|t]; cbn [pword_str] in *.
  - destruct Hw as [_ Hm]. apply in_app_iff in Hsp as [Hs|Hs].
    + rewrite Forall_forall in Hm. apply Hm in Hs. discriminate.
    + cbn in Hs. destruct Hs as [H|[H|[H|[]]]]; discriminate.
  - destruct Hw as [Hw _]. exact (Hw Hsp).
Qed.

Definition txts (l : list pword) : Prop := Forall (fun w => pword_ok w /\ keep w = true) l.
Lemma nomatch_txts l : forall X pv a b, txts l -> flat_map (fun w => pword_str w ++ $" ") l = a ++ b -> b <> [] ->
  nomatch pat_empty (St pv (b ++ X) []).
Proof.
  induction l as [|w l IH]; intros X pv a b Hl E Hb.
  - cbn in E. symmetry in E. apply app_eq_nil in E as [_ ->]. congruence.
  - inversion Hl as [|? ? [Hw Hk] Hl']; subst. destruct w as [n|t]; [discriminate|]. cbn [flat_map pword_str] in E.
    rewrite <- app_assoc in E. destruct (app_eq_app _ _ _ _ E) as (z & [[E1 E2]|[E1 E2]]).
    + (* t = a ++ z *)
      subst b. rewrite <- !app_assoc. destruct (nomatch_other t (" "%char :: flat_map (fun w => pword_str w ++ $" ") l ++ X) pv [] a z Hw E1) as [N|N]; eauto.
      * destruct z; discriminate.
      * subst z. cbn [app]. apply nomatch_blank.
    + subst a. destruct z as [|z0 z].
      * cbn in E2. subst b. cbn [app]. apply nomatch_blank.
      * injection E2 as <- E2. eapply IH; eauto.
Qed.

Lemma first_empty l : Forall pword_ok l ->
  (txts l) \/ (exists l1 n l2, l = l1 ++ Empty n :: l2 /\ txts l1 /\ pword_ok (Empty n) /\ Forall pword_ok l2).
Proof.
  induction 1 as [|w l Hw Hl IH]; [left; constructor|]. destruct w as [n|t].
  - right. exists [], n, l. repeat split; auto; try constructor. all: apply Hw.
  - destruct IH as [IH|(l1 & n & l2 & -> & H1 & H2 & H3)].
    + left. constructor; auto.
    + right. exists (Other t :: l1), n, l2. split; [reflexivity|]. split; auto. constructor; auto.
Qed.
Lemma hit_empty n X pv : pword_ok (Empty n) ->
  mt pat_empty (St pv (n ++ $"={} " ++ X) []) (fun s' => Some s') = Some (adv (St pv (n ++ $"={} " ++ X) []) (n ++ $"={} ") X).
Proof.
  intros [Hn Hi]. unfold pat_empty. cbn [RSeqs mt].
  apply (plus_max is_ident _ n ($"={} " ++ X)); [reflexivity|auto|auto|reflexivity|].
  rewrite (lit_step $"={} " _ X) by reflexivity. now rewrite adv_adv.
Qed.
Lemma search_empty n X a pv : pword_ok (Empty n) ->
  search_from pat_empty a pv (n ++ $"={} " ++ X) = Some (MRes a (n ++ $"={} ") X []).
Proof.
  intros H. set (s := n ++ $"={} " ++ X).
  set (s' := adv (St pv s []) (n ++ $"={} ") X).
  assert (E : mk_res a s s' = MRes a (n ++ $"={} ") X []).
  { rewrite (mk_res_split a s (n ++ $"={} ") s'); [reflexivity|]. unfold s, s'. cbn [adv s_rest]. now rewrite <- app_assoc. }
  rewrite <- E. apply search_hit.
  unfold pat_empty. cbn [RSeqs mt]. destruct H as [Hn Hi].
  apply (plus_max is_ident _ n ($"={} " ++ X)); [reflexivity|auto|auto|reflexivity|].
  rewrite (lit_step $"={} " _ X) by reflexivity. rewrite adv_adv. reflexivity.
Qed.
Lemma keep_txts l : txts l -> filter keep l = l.
Proof. induction 1 as [|w l [_ Hk] _ IH]; auto. cbn. now rewrite Hk, IH. Qed.

Lemma sub_empties : forall m l last fuel pv, List.length l <= m -> m < fuel -> Forall pword_ok l -> pword_ok last ->
  sub_fuel pat_empty (fun _ => []) fuel pv (words_str l last) = words_str (filter keep l) last.
Proof.
  induction m as [|m IH]; intros l last fuel pv Hm Hf Hl Hlast; (destruct fuel as [|fuel]; [lia|]); cbn [sub_fuel];
  (destruct (first_empty l Hl) as [Ht|(l1 & n & l2 & -> & H1 & Hn & H2)]).
  - rewrite (keep_txts l Ht). rewrite search_none; auto. intros a b E. unfold words_str in E.
    destruct (app_eq_app _ _ _ _ E) as (z & [[E1 E2]|[E1 E2]]).
    + subst b. destruct z as [|z0 z].
      * cbn. apply (nomatch_last last _ _ [] (pword_str last)); auto.
      * eapply nomatch_txts; eauto. discriminate.
    + eapply (nomatch_last last _ _ z b); eauto.
  - rewrite app_length in Hm. cbn in Hm. lia.
  - rewrite (keep_txts l Ht). rewrite search_none; auto. intros a b E. unfold words_str in E.
    destruct (app_eq_app _ _ _ _ E) as (z & [[E1 E2]|[E1 E2]]).
    + subst b. destruct z as [|z0 z].
      * cbn. apply (nomatch_last last _ _ [] (pword_str last)); auto.
      * eapply nomatch_txts; eauto. discriminate.
    + eapply (nomatch_last last _ _ z b); eauto.
  - set (A := flat_map (fun w => pword_str w ++ $" ") l1).
    assert (E : words_str (l1 ++ Empty n :: l2) last = A ++ n ++ $"={} " ++ words_str l2 last).
    { unfold words_str, A. rewrite flat_map_app. cbn [flat_map pword_str]. rewrite <- !app_assoc. reflexivity. }
    rewrite E, search_skip.
    + rewrite search_empty by auto. cbn [m_pre m_all m_post app].
      rewrite IH; auto.
      * rewrite filter_app. cbn [filter keep]. rewrite (keep_txts l1 H1). unfold words_str. rewrite flat_map_app.
        rewrite <- app_assoc. reflexivity.
      * rewrite app_length in Hm. cbn in Hm. lia.
      * lia.
    + intros a1 a2 Ea Hne. eapply nomatch_txts; eauto.
Qed.
Lemma flat_len l : (List.length l <= List.length (flat_map (fun w => pword_str w ++ $" ") l))%nat.
Proof. induction l as [|w l IH]; [cbn; lia|]. cbn [flat_map List.length]. rewrite !app_length. change (List.length $" ") with 1. lia. Qed.

Theorem drop_empty_words l last : Forall pword_ok l -> pword_ok last ->
  drop_empty (words_str l last) = words_str (filter keep l) last.
Proof.
  intros Hl Hlast. unfold drop_empty. destruct (contains $"={}" (words_str l last)) eqn:E.
  - unfold re_sub. apply (sub_empties (List.length l)); auto.
    unfold words_str. rewrite app_length. pose proof (flat_len l). lia.
  - destruct (first_empty l Hl) as [Ht|(l1 & n & l2 & -> & H1 & Hn & H2)].
    + now rewrite keep_txts.
    + exfalso. assert (C : contains $"={}" (words_str (l1 ++ Empty n :: l2) last) = true); [|congruence].
      apply contains_spec. exists (flat_map (fun w => pword_str w ++ $" ") l1 ++ n), ($" " ++ words_str l2 last).
      unfold words_str. rewrite flat_map_app. cbn [flat_map pword_str]. rewrite <- !app_assoc. reflexivity.
Qed.
