(** Lines that the built-in classes take although they are of other events (C97). *)
From Coq Require Import List Ascii String ZArith NArith Bool Lia Permutation.
From Verif Require Import Lib.PyStr Lib.PyStrFacts Lib.F64
  Model.Base Model.Line Model.Registry Model.Builtin Model.Populate Model.Window Model.Cache Model.Events Model.Classes
  Spec.Lines Spec.Payload Spec.Select Spec.Names Spec.Trace Spec.Events Spec.Classes Spec.Readable
  Proofs.PayloadP Proofs.ScanP Proofs.FrameP Proofs.RegistryP Proofs.NamesP Proofs.PopulateP Proofs.ReadableP.
Import ListNotations.
Local Open Scope list_scope.

Lemma known_in scope a w c b : known_class scope a = Some (w, c, b) -> exists s, In (a, w, c, s) events_table.
Proof.
  unfold known_class. destruct (find _ events_table) as [[[[a' w'] c'] s]|] eqn:E; [|discriminate].
  apply find_some in E as [Hi E]. cbn [fst snd] in E. apply andb_prop in E as [E _]. apply eqs_eq in E as ->.
  intros [= <- <- _]. eauto.
Qed.
Lemma import_both regs : Permutation regs builtin_regs -> exists r, register_all (Reg [] [] []) regs = Ok r /\
  (forall scope a, option_map (fun k => (k_word k, k_pyname k, k_fallback k)) (dget eqs a (class_definitions r scope [])) = known_class scope a) /\
  forall scope, NoDup (map (fun d => k_word (snd d)) (class_definitions r scope [])).
Proof.
  intros P. destruct (import_table regs P) as (r & E & H). exists r. split; [exact E|]. split; [exact H|]. intros scope.
  destruct (import_ok regs) as (r' & E' & H'); [intros x; apply Permutation_in; exact P|]. assert (r' = r) by congruence. subst r'.
  specialize (H' scope). apply sanity_accept, unambiguous_words in H'. now rewrite map_map in H'.
Qed.
Theorem taken regs : Permutation regs builtin_regs -> exists r, register_all (Reg [] [] []) regs = Ok r /\
  forall scope a w c line, known_class scope a = Some (w, c, false) -> OnlyWord w line ->
    Dispatch (map (fun d => (k_word (snd d), d)) (class_definitions r scope [])) line a.
Proof.
  intros P. destruct (import_both regs P) as (r & E & H & N). exists r. split; [exact E|]. intros scope a w c line Hk [Ho Hn].
  pose proof (H scope a) as Ha. rewrite Hk in Ha. destruct (dget eqs a (class_definitions r scope [])) as [k|] eqn:Ed; [|discriminate].
  cbn [option_map] in Ha. injection Ha as Ew Ec Ef. apply (dget_In eqs eqs_eq) in Ed. specialize (N scope).
  apply in_split in Ed as (l1 & l2 & El). rewrite El. rewrite map_app. cbn [map]. cbn [snd].
  exists (map (fun d => (k_word (snd d), d)) l1), (k_word k), k, (map (fun d => (k_word (snd d), d)) l2).
  split; [reflexivity|]. rewrite Ew. split; [exact Ho|]. left. split; [exact Ef|].
  intros w' a' k' Hi _. apply in_map_iff in Hi as ([a2 k2] & E2 & Hi). cbn [snd] in E2. injection E2 as <- -> ->.
  pose proof (defs_NoDup r scope []) as Na.
  assert (Hin : In (a', k') (class_definitions r scope [])) by (rewrite El; apply in_or_app; now left).
  pose proof (H scope a') as Hb. rewrite (In_dget eqs eqs_eq _ _ _ Na Hin) in Hb.
  cbn [option_map] in Hb. symmetry in Hb. apply known_in in Hb as [s' Hs]. apply (Hn _ _ _ _ Hs).
  intros Ek. rewrite El, map_app in N. cbn [map snd] in N. apply NoDup_remove_2 in N. apply N. apply in_or_app. left.
  apply in_map_iff. exists (a', k'). cbn. split; congruence.
Qed.

Lemma words_in s ws w x : Words s ws -> In w ws -> In x w -> In x s.
Proof.
  induction 1 as [|sp w' r ws Hs Hw Hr _ IH]; [intros []|]. intros [->|Hi] Hx; rewrite !in_app_iff; auto.
Qed.
Lemma stray_words s : (exists x, In x s /\ is_space x = false) -> ~ In "="%char s -> ~ occurs $"FAILED TO PARSE" s -> Stray s.
Proof.
  intros (x & Hx & Sx) Heq Hf. split; [exact Hf|]. destruct (payload_decompose s) as (pre & gs & W & Hp & Hg).
  exists pre, gs. do 3 (split; [assumption|]). left. intros ->. cbn [app] in W. destruct gs as [|g gs].
  - cbn [flat_map] in W. inversion W as [sp Hs|]; subst. unfold all_space in Hs. rewrite Forall_forall in Hs. rewrite (Hs x Hx) in Sx. discriminate.
  - apply Heq. eapply (words_in s _ (g_key g ++ $"=" ++ g_val g)); [exact W| |].
    + cbn [flat_map]. apply in_or_app. left. now left.
    + apply in_or_app. right. now left.
Qed.
Lemma enter_needs s : ~ occurs $"NR " s -> Unreadable Enters s.
Proof.
  intros H a b c nr args -> HE. apply H. destruct HE as [ds a0 a1 a2 a3 a4 a5]. exists a. eexists. rewrite <- !app_assoc. reflexivity.
Qed.
Lemma exit_needs s : ~ occurs $"NR " s -> Unreadable Exits s.
Proof.
  intros H a b c nr args -> HE. apply H. destruct HE as [n r zn zr rest]. exists a. eexists. rewrite <- !app_assoc. reflexivity.
Qed.
Section Read.
  Context {content digest header csv : Type}.
  Variables (deq : digest -> digest -> bool) (md5 : content -> digest)
            (file : content -> list str) (head : content -> header)
            (enc : frame -> csv) (dec : csv -> option frame) (fuel : nat).
  Notation parse := (do_parse deq md5 (fun x => ftrace_body (file x)) head enc dec (class_frame fuel)).
  Theorem taken_lost regs : Permutation regs builtin_regs -> exists r, register_all (Reg [] [] []) regs = Ok r /\
    forall scope a w cl (c : config) (s : fsys) line f,
      known_class scope a = Some (w, cl, false) -> c_defs c = class_definitions r scope [] ->
      c_nocache c = true \/ f_cache s = None ->
      In line (ftrace_body (file (f_trace s))) -> parse_fields line = Ok (Some f) -> OnlyWord w line ->
      ~ In "{"%char (f_data f) -> (forall k, k_pyname k = cl -> Unreadable (fst (kind_of k)) (f_data f)) ->
      exists e, fst (parse c s) = Err e.
  Proof.
    intros P. destruct (import_both regs P) as (r & E & H & N). destruct (taken regs P) as (r' & E' & T).
    assert (r' = r) by congruence. subst r'. exists r. split; [exact E|].
    intros scope a w cl c s line f Hk Ed Hc Hl Hf Ho Hb Hu.
    pose proof (H scope a) as Ha. rewrite Hk in Ha. destruct (dget eqs a (class_definitions r scope [])) as [k|] eqn:Eg; [|discriminate].
    cbn [option_map] in Ha. injection Ha as Ew Ec Ef. apply (dget_In eqs eqs_eq) in Eg.
    apply (parse_lost deq md5 file head enc dec fuel c s a k line f); auto; rewrite ?Ed; auto.
    - destruct Hc as [Hc|Hc]; auto. right. split; auto. intros E0. rewrite E0 in Eg. destruct Eg.
    - eapply T; eauto.
  Qed.
End Read.

(** ** Examples *)
Definition only_word_b (w line : str) : bool :=
  contains w line && forallb (fun e => eqs (snd (fst (fst e))) w || negb (contains (snd (fst (fst e))) line)) events_table.
Lemma only_word_ok w line : only_word_b w line = true -> OnlyWord w line.
Proof.
  unfold only_word_b. intros H. apply andb_prop in H as [H1 H2]. split; [now apply contains_spec in H1|].
  intros a' w' c' s' Hi Hn Ho. rewrite forallb_forall in H2. apply H2 in Hi. cbn [fst snd] in Hi.
  apply orb_prop in Hi as [Hi|Hi]; [apply eqs_eq in Hi; contradiction|]. apply contains_spec in Ho. rewrite Ho in Hi. discriminate.
Qed.
