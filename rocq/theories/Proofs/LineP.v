(** SPECIAL_FIELDS_RE recovers the printed fields. *)
From Coq Require Import List Ascii String ZArith NArith Bool Lia.
From Verif Require Import Lib.PyStr Lib.PyStrFacts Lib.Regex Lib.RegexFacts Lib.SearchFacts Lib.F64
  Model.Line Spec.Lines Proofs.ArraysP.
Import ListNotations.

Lemma mat_cls_inv p s s' : mat (RCls p) s s' ->
  exists c r, s_rest s = c :: r /\ p c = true /\ s' = St (Some c) r (s_caps s).
Proof. intros H. inversion H; subst. cbn. eauto. Qed.

(** ** One unrolling of a general star *)
Lemma star_unroll {A} r s (k : st -> option A) :
  mt (RStar r) s k =
  match mt r s (fun s' => if (List.length (s_rest s') <? List.length (s_rest s))%nat
                          then mt (RStar r) s' k else None) with
  | Some x => Some x
  | None => k s
  end.
Proof.
  cbn [mt]. set (loop := fix loop (fuel : nat) (s : st) : option A :=
         match fuel with
         | O => k s
         | S f =>
             match mt r s (fun s' =>
                     if (List.length (s_rest s') <? List.length (s_rest s))%nat
                     then loop f s' else None) with
             | Some x => Some x
             | None => k s
             end
         end).
  assert (G : forall n f s, (List.length (s_rest s) <= n)%nat -> (List.length (s_rest s) <= f)%nat ->
              loop f s = loop (List.length (s_rest s)) s).
  { induction n as [|n IH]; intros f s0 Hn Hf.
    - replace (List.length (s_rest s0)) with 0 by lia. destruct f; auto. cbn [loop].
      rewrite mt_None; auto. intros s' Hm. replace (_ <? _)%nat with false; auto.
      symmetry. apply Nat.ltb_ge. lia.
    - destruct (List.length (s_rest s0)) as [|m] eqn:E.
      + destruct f; auto. cbn [loop]. rewrite E. rewrite mt_None; auto.
      + destruct f as [|f]; [lia|]. cbn [loop]. rewrite E.
        erewrite mt_ext; [reflexivity|]. intros s'. cbv beta.
        destruct (Nat.ltb_spec (List.length (s_rest s')) (S m)); auto.
        rewrite (IH f s') by lia. rewrite (IH m s') by lia. reflexivity. }
  destruct (List.length (s_rest s)) as [|m] eqn:E.
  - cbn [loop]. rewrite mt_None; auto.
  - cbn [loop]. rewrite E. erewrite mt_ext; [reflexivity|]. intros s'. cbv beta.
    destruct (Nat.ltb_spec (List.length (s_rest s')) (S m)); auto.
    rewrite (G m m s') by lia. reflexivity.
Qed.

Definition rest_ok (rest : str) : Prop := rest = [] \/ rest = [nl].

Definition G6 : re := RGrp 6 (RSeqs [RPlus (RCls is_word); RLit $":"; RPlus (RCls is_space)]).
Definition R_data : re := RGrp 7 (RPlus (RCls not_nl)).
Definition G4 : re := RGrp 4 (RSeq (RPlus (RCls is_digit))
                      (ROpt (RGrp 5 (RSeqs [RLit $"."; RPlus (RCls is_digit)])))).
Definition R_names : re := RSeq (RPlus G6) R_data.
Definition R_ts : re := RSeq G4 (RSeq (RLit $": ") R_names).
Definition R_sp_ts : re := RSeq (RPlus (RCls is_space)) R_ts.
Definition O_flags : re := RSeqs [RPlus (RCls is_space); RCls not_nl; RCls not_nl; RCls not_nl; RCls not_nl].
Definition R_flags : re := RSeq (ROpt O_flags) R_sp_ts.
Definition R_cpu : re := RSeq (RPlus (RCls is_space)) (RSeq (RLit $"[")
    (RSeq (RGrp 3 (RPlus (RCls is_digit))) (RSeq (RLit $"]") R_flags))).
Definition O_tgid : re := RSeqs [RPlus (RCls is_space); RLit $"("; RStar (RCls not_nl); RLit $")"].
Definition R_pid : re := RSeq (RGrp 2 (RPlus (RCls is_digit))) (RSeq (ROpt O_tgid) R_cpu).
Lemma pat_special_eq : pat_special =
  RSeq RBos (RSeq (RStar (RCls is_space)) (RSeq (RGrp 1 (RStar (RCls not_nl))) (RSeq (RLit $"-") R_pid))).
Proof. reflexivity. Qed.

Lemma Forall_not_nl s : ~ In nl s -> Forall (fun c => not_nl c = true) s.
Proof. intros H. apply Forall_forall. intros c Hc. apply not_nl_true. intros ->. auto. Qed.
Lemma word_not_space c : is_word c = true -> is_space c = false.
Proof. ascii_enum c. Qed.
Lemma digit_word c : is_digit c = true -> is_word c = true.
Proof. ascii_enum c. Qed.
Lemma rest_hd rest : rest_ok rest -> match rest with [] => True | c :: _ => not_nl c = false end.
Proof. intros [->| ->]; cbn; auto. Qed.

Lemma space_not_digit c : is_space c = true -> is_digit c = false.
Proof. ascii_enum c. Qed.
Lemma first_occ_sp (p q p' q' : str) c c' : all_space p -> all_space p' ->
  p ++ c :: q = p' ++ c' :: q' -> is_space c = false -> is_space c' = false ->
  p = p' /\ c = c' /\ q = q'.
Proof.
  revert p'. induction p as [|a p IH]; intros [|a' p'] Hp Hp' E Hc Hc'; cbn in E.
  - injection E as -> ->. auto.
  - injection E as -> ->. inversion Hp'; congruence.
  - injection E as -> E. inversion Hp; congruence.
  - injection E as -> E. inversion Hp; subst. inversion Hp'; subst.
    destruct (IH p') as (-> & -> & ->); auto.
Qed.

Section Stages.
  Context {A : Type}.
  Variable rest : str.
  Hypothesis Hrest : rest_ok rest.

  Lemma m_data data pv caps (k : st -> option A) x :
    data <> [] -> ~ In nl data ->
    (forall pv', k (St pv' rest ((7, data) :: caps)) = Some x) ->
    mt R_data (St pv (data ++ rest) caps) k = Some x.
  Proof.
    intros Hne Hnl Hk. unfold R_data. cbn [mt].
    apply (plus_max not_nl _ data rest); [reflexivity|auto|now apply Forall_not_nl|now apply rest_hd|].
    rewrite cap_add_adv by reflexivity. cbn [s_caps]. apply Hk.
  Qed.
  Lemma m_data_nil s (k : st -> option A) : s_rest s = [] -> mt R_data s k = None.
  Proof.
    intros H. unfold R_data. cbn [mt]. apply plus_None. intros u v E Hu _. rewrite H in E.
    symmetry in E. apply app_eq_nil in E as [E _]. congruence.
  Qed.

  Definition data_ok (data : str) : Prop :=
    data <> [] /\ ~ In nl data /\ (forall c r, data = c :: r -> is_space c = false) /\
    (forall w c r, data = w ++ $":" ++ c :: r -> word w -> is_space c = false).

  Lemma G6_inv s s' : mat G6 s s' -> exists w sp, s_rest s = w ++ $":" ++ sp ++ s_rest s' /\ word w /\ blanks sp.
  Proof.
    intros H. apply mat_grp_inv in H as (s1 & H & ->). cbn [s_rest cap_add].
    cbn [RSeqs] in H. apply mat_seq_inv in H as (s2 & Hw & H). apply mat_seq_inv in H as (s3 & Hl & Hs).
    apply mat_plus_cls in Hw as (w & Ew & Hwn & Hww & _). apply mat_lit in Hl as (El & _).
    apply mat_plus_cls in Hs as (sp & Es & Hsn & Hss & _).
    exists w, sp. rewrite Ew, El, Es. split; [reflexivity|]. split; split; auto.
  Qed.

  Lemma m_star6_data data pv caps (k : st -> option A) x : data_ok data ->
    (forall pv', k (St pv' rest ((7, data) :: caps)) = Some x) ->
    mt (RStar G6) (St pv (data ++ rest) caps) (fun s' => mt R_data s' k) = Some x.
  Proof.
    intros (Hne & Hnl & Hsp & Hnm) Hk. rewrite star_unroll.
    rewrite mt_None; [now apply m_data|].
    intros s' Hm. destruct (Nat.ltb_spec (List.length (s_rest s')) (List.length (s_rest (St pv (data ++ rest) caps)))); auto.
    apply G6_inv in Hm as (w & sp & E & Hw & Hspn & Hsps). cbn [s_rest] in E.
    assert (Er : s_rest s' = []).
    { destruct sp as [|c sp]; [congruence|]. inversion Hsps; subst.
      destruct (app_eq_app _ _ _ _ E) as (z & [[E1 E2]|[E1 E2]]).
      - (* data = w ++ z *)
        destruct z as [|z0 z].
        + rewrite app_nil_r in E1. cbn [app] in E2. subst rest. destruct Hrest as [Hr|Hr]; discriminate.
        + injection E2 as <- E2. change (sp ++ s_rest s') with (sp ++ s_rest s') in E2.
          destruct z as [|z1 z].
          * cbn [app] in E2. destruct Hrest as [Hr|Hr]; rewrite Hr in E2; [discriminate|].
            injection E2 as _ E2. apply app_eq_nil in E2. apply E2.
          * injection E2 as <- _. rewrite (Hnm w c z) in *; auto; discriminate.
      - (* w = data ++ z, rest = z ++ ... *)
        destruct Hrest as [->| ->].
        + destruct z; discriminate.
        + destruct z as [|z0 z]; [discriminate|]. injection E2 as <- E2.
          destruct z; discriminate. }
    apply mt_None. intros s'' Hm. apply mat_suffix in Hm as (u & Eu). rewrite Er in Eu.
    symmetry in Eu. apply app_eq_nil in Eu as [_ Eu]. now apply m_data_nil.
  Qed.

  Definition names_ok (l : list (str * str)) : Prop :=
    Forall (fun n => word (fst n) /\ blanks (snd n)) l.
  Definition six (c6 : list (nat * str)) : Prop := Forall (fun c => fst c = 6) c6.

  Lemma hd_not_space l data : names_ok l -> data_ok data ->
    match names_str l ++ data ++ rest with [] => True | c :: _ => is_space c = false end.
  Proof.
    intros Hl (Hne & Hnl & Hsp & _). destruct l as [|[w sp] l].
    - cbn [names_str flat_map app]. destruct data as [|c d]; [congruence|]. cbn. eapply Hsp. reflexivity.
    - inversion Hl as [|? ? [[Hw1 Hw2] _] _]; subst. cbn [fst] in *. destruct w as [|c w]; [congruence|].
      cbn. inversion Hw2; subst. now apply word_not_space.
  Qed.

  Lemma m_G6 w sp l data pv caps (k : st -> option A) x : names_ok l -> data_ok data -> word w -> blanks sp ->
    (forall pv', k (St pv' (names_str l ++ data ++ rest) ((6, w ++ $":" ++ sp) :: caps)) = Some x) ->
    mt G6 (St pv (w ++ $":" ++ sp ++ names_str l ++ data ++ rest) caps) k = Some x.
  Proof.
    intros Hl Hd [Hw1 Hw2] [Hs1 Hs2] Hk. unfold G6. cbn [RSeqs mt].
    apply (plus_max is_word _ w ($":" ++ sp ++ names_str l ++ data ++ rest)); [reflexivity|auto|auto|reflexivity|].
    rewrite (lit_step $":" _ (sp ++ names_str l ++ data ++ rest)) by reflexivity.
    apply (plus_max is_space _ sp (names_str l ++ data ++ rest)); [reflexivity|auto|exact Hs2|now apply hd_not_space|].
    rewrite !adv_adv. rewrite cap_add_adv by (cbn [s_rest]; rewrite <- !app_assoc; reflexivity).
    apply Hk.
  Qed.

  Lemma m_star6 l : forall data pv caps (k : st -> option A) x, names_ok l -> data_ok data ->
    (forall pv' c6, six c6 -> k (St pv' rest ((7, data) :: c6 ++ caps)) = Some x) ->
    mt (RStar G6) (St pv (names_str l ++ data ++ rest) caps) (fun s' => mt R_data s' k) = Some x.
  Proof.
    induction l as [|[w sp] l IH]; intros data pv caps k x Hl Hd Hk.
    - apply m_star6_data; auto. intros pv'. apply (Hk pv' []). constructor.
    - inversion Hl as [|? ? [Hw Hs] Hl']; subst. cbn [fst snd] in *. rewrite star_unroll.
      cbn [names_str flat_map fst snd]. fold (names_str l). rewrite <- !app_assoc.
      rewrite (m_G6 w sp l data _ _ _ x); auto.
      intros pv'. cbn [s_rest].
      replace (_ <? _)%nat with true.
      2:{ symmetry. apply Nat.ltb_lt. rewrite !app_length. destruct Hw as [Hw _].
          destruct w; [congruence|]. cbn [List.length]. lia. }
      apply IH; auto. intros pv'' c6 H6.
      replace (c6 ++ (6, w ++ $":" ++ sp) :: caps) with ((c6 ++ [(6, w ++ $":" ++ sp)]) ++ caps)
        by (rewrite <- app_assoc; reflexivity).
      apply Hk. apply Forall_app. split; auto. 
  Qed.
  Lemma m_names l data pv caps (k : st -> option A) x : l <> [] -> names_ok l -> data_ok data ->
    (forall pv' c6, six c6 -> k (St pv' rest ((7, data) :: c6 ++ caps)) = Some x) ->
    mt R_names (St pv (names_str l ++ data ++ rest) caps) k = Some x.
  Proof.
    intros Hne Hl Hd Hk. destruct l as [|[w sp] l]; [congruence|].
    inversion Hl as [|? ? [Hw Hs] Hl']; subst. cbn [fst snd] in *.
    unfold R_names, RPlus. cbn [mt]. cbn [names_str flat_map fst snd]. fold (names_str l).
    rewrite <- !app_assoc. apply m_G6; auto. intros pv'.
    apply (m_star6 l); auto. intros pv'' c6 H6.
    replace (c6 ++ (6, w ++ $":" ++ sp) :: caps) with ((c6 ++ [(6, w ++ $":" ++ sp)]) ++ caps)
      by (rewrite <- app_assoc; reflexivity).
    apply Hk. apply Forall_app. split; auto. 
  Qed.

  Definition us_caps (us : option str) (caps : list (nat * str)) :=
    match us with Some u => (5, $"." ++ u) :: caps | None => caps end.
  Definition us_ok (us : option str) : Prop := forall u, us = Some u -> digits u.

  Lemma m_ts sec us l data pv caps (k : st -> option A) x :
    digits sec -> us_ok us -> l <> [] -> names_ok l -> data_ok data ->
    (forall pv' c6, six c6 ->
       k (St pv' rest ((7, data) :: c6 ++ (4, time_str sec us) :: us_caps us caps)) = Some x) ->
    mt R_ts (St pv (time_str sec us ++ $": " ++ names_str l ++ data ++ rest) caps) k = Some x.
  Proof.
    intros [Hs1 Hs2] Hus Hne Hl Hd Hk. unfold R_ts, G4. cbn [mt].
    set (s0 := St pv (time_str sec us ++ $": " ++ names_str l ++ data ++ rest) caps).
    destruct us as [u|]; cbn [time_str us_caps] in *.
    - destruct (Hus u eq_refl) as [Hu1 Hu2].
      apply (plus_max is_digit s0 sec ($"." ++ u ++ $": " ++ names_str l ++ data ++ rest));
        [unfold s0, time_str; cbn [s_rest]; rewrite <- !app_assoc; reflexivity|auto|auto|reflexivity|].
      unfold ROpt. cbn [mt RSeqs].
      rewrite (lit_step $"." _ (u ++ $": " ++ names_str l ++ data ++ rest)) by reflexivity.
      erewrite (plus_max is_digit _ u ($": " ++ names_str l ++ data ++ rest)); 
        [reflexivity|reflexivity|auto|auto|reflexivity|].
      rewrite (adv_adv (adv s0 sec _)).
      rewrite (cap_add_adv 5 (adv s0 sec _)) by (cbn [adv s_rest]; rewrite <- ?app_assoc; reflexivity).
      (* outer group *)
      unfold cap_add. cbn [s_rest s_caps s_prev].
      replace (firstn _ (s_rest s0)) with (time_str sec (Some u)).
      2:{ unfold s0. cbn [s_rest]. rewrite app_length.
          replace (List.length (time_str sec (Some u)) + List.length ($": " ++ names_str l ++ data ++ rest) -
             List.length ($": " ++ names_str l ++ data ++ rest))%nat with (List.length (time_str sec (Some u))) by lia.
          now rewrite firstn_app, firstn_all, Nat.sub_diag, firstn_O, app_nil_r. }
      rewrite (lit_step $": " _ (names_str l ++ data ++ rest)) by reflexivity.
      apply m_names; auto.
    - assert (Es0 : s_rest s0 = sec ++ $": " ++ names_str l ++ data ++ rest)
        by (unfold s0, time_str; now rewrite app_nil_r).
      apply (plus_max is_digit s0 sec ($": " ++ names_str l ++ data ++ rest)); [exact Es0|auto|auto|reflexivity|].
      unfold ROpt. cbn [mt RSeqs].
      rewrite lit_None by (cbn [adv s_rest]; discriminate).
      rewrite cap_add_adv by exact Es0.
      rewrite (lit_step $": " _ (names_str l ++ data ++ rest)) by reflexivity.
      apply m_names; auto. unfold time_str in Hk. rewrite app_nil_r in Hk. exact Hk.
  Qed.

  (** The timestamp pattern does not match at an event name. *)
  Lemma ts_name_None w r pv caps (k : st -> option A) : word w -> ~ digits w ->
    mt R_ts (St pv (w ++ $":" ++ r) caps) k = None.
  Proof.
    intros [Hw1 Hw2] Hnd. apply mt_None. intros s' Hm. exfalso.
    unfold R_ts, G4 in Hm. apply mat_seq_inv in Hm as (s1 & Hg & Hm).
    apply mat_grp_inv in Hg as (s2 & Hg & ->). apply mat_seq_inv in Hg as (s3 & Hp & Ho).
    apply mat_plus_cls in Hp as (u & Eu & Hun & Hud & _). cbn [s_rest] in Eu.
    apply mat_seq_inv in Hm as (s4 & Hl & _). apply mat_lit in Hl as (El & _). cbn [cap_add s_rest] in El.
    (* next char after the digits *)
    assert (Hnext : exists c r', s_rest s3 = c :: r' /\ (c = "."%char \/ c = ":"%char)).
    { unfold ROpt in Ho. apply mat_alt_inv in Ho as [Ho|Ho].
      - apply mat_grp_inv in Ho as (s5 & Ho & ->). cbn [RSeqs] in Ho.
        apply mat_seq_inv in Ho as (s6 & Hd & _). apply mat_lit in Hd as (Ed & _).
        exists "."%char. eexists. split; [exact Ed|auto].
      - inversion Ho; subst. exists ":"%char. eexists. split; [exact El|auto]. }
    destruct Hnext as (c & r' & Ec & Hc). rewrite Ec in Eu.
    destruct (app_eq_app _ _ _ _ Eu) as (z & [[E1 E2]|[E1 E2]]).
    - (* w = u ++ z *)
      destruct z as [|z0 z].
      + rewrite app_nil_r in E1. subst. apply Hnd. split; auto.
      + injection E2 as <- _. subst w. apply Forall_app in Hw2 as [_ Hw2]. inversion Hw2; subst.
        destruct Hc as [->| ->]; discriminate.
    - (* u = w ++ z *)
      subst u. apply Forall_app in Hud as [Hud _]. apply Hnd. split; auto.
  Qed.

  Lemma m_sp_ts sp sec us l data pv caps (k : st -> option A) x :
    blanks sp -> digits sec -> us_ok us -> l <> [] -> names_ok l -> data_ok data ->
    (forall pv' c6, six c6 ->
       k (St pv' rest ((7, data) :: c6 ++ (4, time_str sec us) :: us_caps us caps)) = Some x) ->
    mt R_sp_ts (St pv (sp ++ time_str sec us ++ $": " ++ names_str l ++ data ++ rest) caps) k = Some x.
  Proof.
    intros [Hp1 Hp2] Hs Hus Hne Hl Hd Hk. unfold R_sp_ts. cbn [mt].
    apply (plus_max is_space _ sp (time_str sec us ++ $": " ++ names_str l ++ data ++ rest)); [reflexivity|auto|exact Hp2| |].
    - destruct Hs as [Hs1 Hs2]. unfold time_str. destruct sec as [|c sec]; [congruence|]. cbn.
      inversion Hs2; subst. now apply digit_no_space.
    - apply m_ts; auto.
  Qed.

  Lemma time_nospace sec us : digits sec -> us_ok us -> no_space (time_str sec us).
  Proof.
    intros [_ Hs] Hus. unfold time_str. apply Forall_app. split.
    - eapply Forall_impl; [|exact Hs]. apply digit_no_space.
    - destruct us as [u|]; [|constructor]. destruct (Hus u eq_refl) as [_ Hu].
      constructor; [reflexivity|]. eapply Forall_impl; [|exact Hu]. apply digit_no_space.
  Qed.

  Lemma first_blank T w X p b R : no_space T -> T <> [] -> word w -> is_space b = true ->
    T ++ $": " ++ w ++ $":" ++ X = p ++ b :: R -> (List.length p <= 4)%nat ->
    p = T ++ $":" /\ b = " "%char /\ w ++ $":" ++ X = R.
  Proof.
    intros HT HTn [Hw1 Hw2] Hb E Hlen.
    destruct (app_eq_app _ _ _ _ E) as (z & [[F1 F2]|[F1 F2]]).
    - exfalso. destruct z as [|z0 z].
      + cbn in F2. injection F2 as -> _. discriminate.
      + injection F2 as <- _. subst T. apply Forall_app in HT as [_ HT]. inversion HT; congruence.
    - destruct z as [|z0 z]; [cbn in F2; injection F2 as <- _; discriminate|].
      injection F2 as <- F2. destruct z as [|z1 z].
      + injection F2 as <- F2. auto.
      + exfalso. injection F2 as <- F2. subst p. rewrite app_length in Hlen. cbn [List.length] in Hlen.
        destruct T as [|t T]; [congruence|]. cbn [List.length] in Hlen.
        destruct w as [|w0 w]; [congruence|]. inversion Hw2 as [|? ? Hw0 Hw3]; subst.
        destruct z as [|z2 z].
        * injection F2 as -> _. apply word_not_space in Hw0. congruence.
        * destruct z; [|cbn [List.length] in Hlen; lia]. injection F2 as <- F2.
          destruct w as [|w1 w].
          -- injection F2 as <- _. discriminate.
          -- injection F2 as -> _. inversion Hw3 as [|? ? Hw1' _]; subst. apply word_not_space in Hw1'. congruence.
  Qed.
  Lemma sp_ts_name_None w X pv caps (k : st -> option A) : word w -> ~ digits w ->
    mt R_sp_ts (St pv (" "%char :: w ++ $":" ++ X) caps) k = None.
  Proof.
    intros [Hw1 Hw2] Hnd. unfold R_sp_ts. cbn [mt]. apply plus_None. intros q q' Eq Hqn Hqs. cbn [s_rest] in Eq.
    destruct q as [|q0 q]; [congruence|]. injection Eq as <- Eq.
    destruct q as [|q1 q].
    - cbn [app] in Eq. rewrite <- Eq. apply ts_name_None; auto. split; auto.
    - exfalso. destruct w as [|w0 w]; [congruence|]. injection Eq as -> _.
      inversion Hqs as [|? ? _ Hq]; subst. inversion Hq as [|? ? Hq1 _]; subst.
      inversion Hw2 as [|? ? Hw0 _]; subst. apply word_not_space in Hw0. congruence.
  Qed.

  Lemma m_flags fl sp sec us l data pv caps (k : st -> option A) x :
    (forall fsp f, fl = Some (fsp, f) ->
      blanks fsp /\ List.length f = 4 /\ ~ In nl f /\ (forall c r, f = c :: r -> is_space c = false)) ->
    blanks sp -> digits sec -> us_ok us -> l <> [] -> names_ok l -> data_ok data ->
    (forall n r, l = n :: r -> ~ digits (fst n)) ->
    (forall pv' c6, six c6 ->
       k (St pv' rest ((7, data) :: c6 ++ (4, time_str sec us) :: us_caps us caps)) = Some x) ->
    mt R_flags (St pv (flags_str fl ++ sp ++ time_str sec us ++ $": " ++ names_str l ++ data ++ rest) caps) k = Some x.
  Proof.
    intros Hfl Hsp Hs Hus Hne Hl Hd Hev Hk. unfold R_flags, ROpt. cbn [mt].
    destruct fl as [[fsp f]|]; cbn [flags_str app].
    - destruct (Hfl fsp f eq_refl) as ([Hf1 Hf2] & Hlen & Hfn & Hfh).
      destruct f as [|f0 [|f1 [|f2 [|f3 [|]]]]]; try discriminate.
      apply Forall_not_nl in Hfn. inversion Hfn as [|? ? N0 Hfn1]; subst. inversion Hfn1 as [|? ? N1 Hfn2]; subst.
      inversion Hfn2 as [|? ? N2 Hfn3]; subst. inversion Hfn3 as [|? ? N3 _]; subst.
      set (D := sp ++ time_str sec us ++ $": " ++ names_str l ++ data ++ rest).
      unfold O_flags. cbn [RSeqs mt].
      erewrite (plus_max is_space _ fsp (f0 :: f1 :: f2 :: f3 :: D)).
      + reflexivity.
      + cbn [s_rest]. rewrite <- app_assoc. reflexivity.
      + auto.
      + exact Hf2.
      + cbn. eapply Hfh. reflexivity.
      + cbn [adv s_rest s_caps]. rewrite N0. cbn [s_rest s_caps]. rewrite N1. cbn [s_rest s_caps].
        rewrite N2. cbn [s_rest s_caps]. rewrite N3. apply m_sp_ts; auto.
    - set (D := time_str sec us ++ $": " ++ names_str l ++ data ++ rest).
      assert (Hmain : mt R_sp_ts (St pv (sp ++ D) caps) k = Some x) by (apply m_sp_ts; auto).
      destruct (mt O_flags (St pv (sp ++ D) caps) (fun s' => mt R_sp_ts s' k)) as [y|] eqn:Ey; [|exact Hmain].
      enough (y = x) by congruence.
      apply mt_sound in Ey as (s' & Hm & Ey). unfold O_flags in Hm. cbn [RSeqs] in Hm.
      apply mat_seq_inv in Hm as (s1 & Hp & Hm). apply mat_plus_cls in Hp as (u & Eu & Hun & Hus' & _ & Hc1).
      apply mat_seq_inv in Hm as (s2 & Hm1 & Hm). apply mat_cls_inv in Hm1 as (c1 & r1 & Er1 & Hn1 & ->).
      apply mat_seq_inv in Hm as (s3 & Hm2 & Hm). apply mat_cls_inv in Hm2 as (c2 & r2 & Er2 & Hn2 & ->).
      apply mat_seq_inv in Hm as (s4 & Hm3 & Hm). apply mat_cls_inv in Hm3 as (c3 & r3 & Er3 & Hn3 & ->).
      apply mat_cls_inv in Hm as (c4 & r4 & Er4 & Hn4 & ->). cbn [s_rest s_caps] in *.
      rewrite Er1, Er2, Er3, Er4 in Eu. rewrite Hc1 in Ey. clear Hc1 Er1 Er2 Er3 Er4 r1 r2 r3.
      (* the remaining text starts with a blank *)
      destruct (mt_sound _ _ _ _ Ey) as (s5 & Hm5 & _). unfold R_sp_ts in Hm5.
      apply mat_seq_inv in Hm5 as (s6 & Hp & _). apply mat_plus_cls in Hp as (v & Ev & Hvn & Hvs & _).
      cbn [s_rest] in Ev. subst r4.
      destruct v as [|b v]; [congruence|]. inversion Hvs as [|? ? Hb Hvs']; subst.
      assert (HD0 : exists d0 D', D = d0 :: D' /\ is_space d0 = false).
      { unfold D, time_str. destruct Hs as [Hs1 Hs2]. destruct sec as [|d0 sec]; [congruence|].
        inversion Hs2; subst. exists d0. eexists. split; [reflexivity|]. now apply digit_no_space. }
      destruct HD0 as (d0 & D' & ED & Hd0).
      (* u is a prefix of sp *)
      assert (E1 : exists s2', sp = u ++ s2' /\ s2' ++ D = c1 :: c2 :: c3 :: c4 :: (b :: v) ++ s_rest s6).
      { destruct (app_eq_app _ _ _ _ Eu) as (z & [[E1 E2]|[E1 E2]]).
        - exists z. auto.
        - destruct z as [|z0 z].
          + exists []. rewrite app_nil_r in E1. cbn in E2. rewrite app_nil_r. auto.
          + rewrite ED in E2. injection E2 as <- _. subst u. apply Forall_app in Hus' as [_ Hz].
            inversion Hz; subst. congruence. }
      destruct E1 as (s2' & Esp & E2).
      assert (Hs2' : all_space s2').
      { destruct Hsp as [_ Hsp]. rewrite Esp in Hsp. apply Forall_app in Hsp. apply Hsp. }
      destruct s2' as [|e1 [|e2 [|e3 [|e4 [|e5 s2']]]]].
      5:{ injection E2 as _ _ _ _ E2. rewrite ED in E2. injection E2 as -> _. congruence. }
      5:{ injection E2 as -> -> -> -> -> E2. rewrite <- app_comm_cons, <- E2 in Ey.
          enough (Some y = Some x) by congruence. rewrite <- Ey. change (b :: s2' ++ D) with ((b :: s2') ++ D).
          apply m_sp_ts; auto. split; [discriminate|].
          inversion Hs2' as [|? ? _ T1]; subst. inversion T1 as [|? ? _ T2]; subst.
          inversion T2 as [|? ? _ T3]; subst. inversion T3; subst. assumption. }
      1-4: exfalso.
      (* the blank must be the one after the time stamp *)
      1-4: assert (Kill : forall p, D = p ++ (b :: v) ++ s_rest s6 -> (List.length p <= 4)%nat -> False).
      1,3,5,7: intros p Ep Hlen; destruct l as [|[w wsp] l']; [congruence|];
        inversion Hl as [|? ? [Hw _] _]; subst; cbn [fst snd] in *;
        unfold D in Ep; cbn [names_str flat_map fst snd] in Ep; rewrite <- !app_assoc in Ep;
        change ((b :: v) ++ s_rest s6) with (b :: (v ++ s_rest s6)) in Ep, Ey;
        apply (first_blank _ _ _ _ _ (v ++ s_rest s6)) in Ep as (-> & -> & Ep); auto using time_nospace;
        [ rewrite <- Ep in Ey; rewrite sp_ts_name_None in Ey;
          [discriminate|assumption|exact (Hev (w, wsp) l' eq_refl)]
        | unfold time_str; destruct Hs as [Hs1 _]; destruct sec; [congruence|discriminate] ].
      + apply (Kill [c1; c2; c3; c4]); [exact E2|cbn; lia].
      + injection E2 as _ E2. apply (Kill [c2; c3; c4]); [exact E2|cbn; lia].
      + injection E2 as _ _ E2. apply (Kill [c3; c4]); [exact E2|cbn; lia].
      + injection E2 as _ _ _ E2. apply (Kill [c4]); [exact E2|cbn; lia].
  Qed.

  Variable L : tline.
  Hypothesis HL : line_ok L.
  Let data_okL : data_ok (l_data L).
  Proof. destruct (ok_data L HL) as (H1 & H2 & H3 & _). repeat split; auto. exact (ok_data_name L HL). Qed.

  Definition end_caps (caps c6 : list (nat * str)) :=
    (7, l_data L) :: c6 ++ (4, time_str (l_sec L) (l_us L)) :: us_caps (l_us L) caps.

  Lemma m_cpu pv caps (k : st -> option A) x :
    (forall pv' c6, six c6 -> k (St pv' rest (end_caps ((3, l_cpu L) :: caps) c6)) = Some x) ->
    mt R_cpu (St pv (l_sp1 L ++ $"[" ++ l_cpu L ++ $"]" ++ tail_str L ++ rest) caps) k = Some x.
  Proof.
    intros Hk. unfold R_cpu. cbn [mt]. destruct (ok_sp1 L HL) as [H1 H2]. destruct (ok_cpu L HL) as [C1 C2].
    apply (plus_max is_space _ (l_sp1 L) ($"[" ++ l_cpu L ++ $"]" ++ tail_str L ++ rest));
      [reflexivity|auto|exact H2|reflexivity|].
    rewrite (lit_step $"[" _ (l_cpu L ++ $"]" ++ tail_str L ++ rest)) by reflexivity.
    apply (plus_max is_digit _ (l_cpu L) ($"]" ++ tail_str L ++ rest)); [reflexivity|auto|auto|reflexivity|].
    rewrite cap_add_adv by reflexivity.
    rewrite (lit_step $"]" _ (tail_str L ++ rest)) by reflexivity.
    unfold tail_str. rewrite <- !app_assoc. unfold adv. cbn [s_caps].
    destruct (ok_names L HL). apply m_flags; auto; try apply HL. exact (ok_us L HL).
  Qed.

  Lemma R_cpu_inv s s' : mat R_cpu s s' -> exists sp r, s_rest s = sp ++ $"[" ++ r /\ blanks sp.
  Proof.
    unfold R_cpu. intros H. apply mat_seq_inv in H as (s1 & H & Hm). apply mat_seq_inv in Hm as (s2 & Hl & _).
    apply mat_plus_cls in H as (sp & E & Hn & Hs & _). apply mat_lit in Hl as (El & _).
    exists sp, (s_rest s2). rewrite E, El. split; auto. split; auto.
  Qed.

  Lemma no_in_digits c s : digits s -> In c s -> is_digit c = true.
  Proof. intros [_ H] Hi. rewrite Forall_forall in H. auto. Qed.
  Lemma no_in_space c s : all_space s -> In c s -> is_space c = true.
  Proof. intros H Hi. unfold all_space in H. rewrite Forall_forall in H. auto. Qed.

  (** A suffix of the tail and the line end. *)
  Lemma tail_rest_split (P : str) b a : P <> [] -> tail_str L ++ rest = a ++ P ++ $"[" ++ b ->
    exists b', tail_str L = a ++ P ++ $"[" ++ b'.
  Proof.
    intros HP E. destruct Hrest as [Er|Er]; rewrite Er in E.
    - rewrite app_nil_r in E. eauto.
    - destruct (rev b) as [|c rb] eqn:Eb.
      + assert (b = []) by (rewrite <- (rev_involutive b), Eb; reflexivity). subst b.
        rewrite !app_assoc in E. rewrite app_nil_r in E. apply app_inj_tail in E as [_ E]. discriminate.
      + assert (Hb : b = rev rb ++ [c]) by (rewrite <- (rev_involutive b), Eb; reflexivity). subst b.
        rewrite !app_assoc in E. apply app_inj_tail in E as [E _]. exists (rev rb). rewrite E.
        now rewrite <- !app_assoc.
  Qed.
  Lemma rest_tail_par a sp r : tail_str L ++ rest = a ++ $")" ++ sp ++ $"[" ++ r -> blanks sp -> False.
  Proof.
    intros E Hs. rewrite (app_assoc $")" sp) in E. apply tail_rest_split in E as (b' & E); [|discriminate].
    rewrite <- app_assoc in E. exact (ok_tail_par L HL _ _ _ E Hs).
  Qed.
  Lemma rest_tail_pid a d sp r : tail_str L ++ rest = a ++ $"-" ++ d ++ sp ++ $"[" ++ r ->
    digits d -> blanks sp -> False.
  Proof.
    intros E Hd Hs. replace ($"-" ++ d ++ sp ++ $"[" ++ r) with (($"-" ++ d ++ sp) ++ $"[" ++ r) in E
      by (rewrite <- !app_assoc; reflexivity).
    apply tail_rest_split in E as (b' & E); [|discriminate].
    rewrite <- !app_assoc in E. exact (ok_tail_pid L HL _ _ _ _ E Hd Hs).
  Qed.

  (** Everything after the task name's dash and the pid. *)
  Definition after_pid : str := tgid_str (l_tgid L) ++ l_sp1 L ++ $"[" ++ l_cpu L ++ $"]" ++ tail_str L ++ rest.
  Definition after_cpu : str := tail_str L ++ rest.

  (** ')' never occurs between the group id and the tail *)
  Lemma mid_no c P r : (c = ")"%char \/ c = "-"%char) ->
    l_sp1 L ++ $"[" ++ l_cpu L ++ $"]" ++ tail_str L ++ rest = P ++ c :: r ->
    exists P', tail_str L ++ rest = P' ++ c :: r.
  Proof.
    intros Hc E.
    assert (Hno : ~ In c (l_sp1 L ++ $"[" ++ l_cpu L ++ $"]")).
    { intros Hi. rewrite !in_app_iff in Hi. destruct (ok_sp1 L HL) as [_ S].
      destruct Hi as [Hi|[Hi|[Hi|Hi]]].
      - apply (no_in_space _ _ S) in Hi. destruct Hc as [->| ->]; discriminate.
      - cbn in Hi. destruct Hi as [<-|[]]. destruct Hc; discriminate.
      - apply (no_in_digits _ _ (ok_cpu L HL)) in Hi. destruct Hc as [->| ->]; discriminate.
      - cbn in Hi. destruct Hi as [<-|[]]. destruct Hc; discriminate. }
    replace (l_sp1 L ++ $"[" ++ l_cpu L ++ $"]" ++ tail_str L ++ rest) with
      ((l_sp1 L ++ $"[" ++ l_cpu L ++ $"]") ++ tail_str L ++ rest) in E by (rewrite <- !app_assoc; reflexivity).
    destruct (app_eq_app _ _ _ _ E) as (z & [[F1 F2]|[F1 F2]]).
    - destruct z as [|z0 z].
      + exists []. exact (eq_sym F2).
      + injection F2 as <- _. exfalso. apply Hno. rewrite F1. apply in_or_app. right. left. reflexivity.
    - exists z. exact F2.
  Qed.

  Lemma m_tgid pv caps (k : st -> option A) x :
    (forall pv' c6, six c6 -> k (St pv' rest (end_caps ((3, l_cpu L) :: caps) c6)) = Some x) ->
    mt (RSeq (ROpt O_tgid) R_cpu) (St pv after_pid caps) k = Some x.
  Proof.
    intros Hk. unfold ROpt, after_pid. cbn [mt]. destruct (l_tgid L) as [[tsp t]|] eqn:Et; cbn [tgid_str].
    - destruct (ok_tgid L HL tsp t Et) as ([T1 T2] & Tn & _ & _).
      set (M := l_sp1 L ++ $"[" ++ l_cpu L ++ $"]" ++ tail_str L ++ rest).
      unfold O_tgid. cbn [RSeqs mt]. rewrite <- !app_assoc.
      erewrite (plus_max is_space _ tsp ($"(" ++ t ++ $")" ++ M)).
      + reflexivity.
      + reflexivity.
      + auto.
      + exact T2.
      + reflexivity.
      + rewrite (lit_step $"(" _ (t ++ $")" ++ M)) by reflexivity.
        apply (star_back not_nl _ t ($")" ++ M)).
        * reflexivity.
        * now apply Forall_not_nl.
        * rewrite (lit_step $")" _ M) by reflexivity. apply m_cpu; auto.
        * intros u v E Hu _. destruct (mt (RLit $")") _ _) as [y|] eqn:Ey; auto. exfalso.
          apply mt_sound in Ey as (s1 & H1 & Ey). apply mat_lit in H1 as (E1 & _). cbn [adv s_rest] in E1.
          apply mt_sound in Ey as (s2 & H2 & _). apply R_cpu_inv in H2 as (sp & r & E2 & Hs).
          rewrite E1, E2 in E. destruct u as [|u0 u]; [congruence|]. injection E as _ E.
          apply mid_no in E as (P' & E); auto. apply rest_tail_par in E; auto.
    - cbn [app]. rewrite mt_None.
      + apply m_cpu; auto.
      + intros s' Hm. exfalso. unfold O_tgid in Hm. cbn [RSeqs] in Hm.
        apply mat_seq_inv in Hm as (s1 & H1 & Hm). apply mat_seq_inv in Hm as (s2 & H2 & _).
        apply mat_plus_cls in H1 as (u & E & Hu & Hus & _). apply mat_lit in H2 as (E2 & _). cbn [s_rest] in E.
        rewrite E2 in E. destruct (ok_sp1 L HL) as [_ S].
        apply (first_occ_sp _ _ _ _ _ _ S Hus) in E as [_ [E _]]; [discriminate|reflexivity|reflexivity].
  Qed.

  Lemma m_pid pv caps (k : st -> option A) x :
    (forall pv' c6, six c6 -> k (St pv' rest (end_caps ((3, l_cpu L) :: (2, l_pid L) :: caps) c6)) = Some x) ->
    mt R_pid (St pv (l_pid L ++ after_pid) caps) k = Some x.
  Proof.
    intros Hk. unfold R_pid. destruct (ok_pid L HL) as [P1 P2]. cbn [mt].
    apply (plus_max is_digit _ (l_pid L) after_pid); [reflexivity|auto|auto| |].
    - unfold after_pid. destruct (l_tgid L) as [[tsp t]|] eqn:Et; cbn [tgid_str].
      + destruct (ok_tgid L HL tsp t Et) as ([T1 T2] & _). destruct tsp; [congruence|]. cbn.
        inversion T2; subst. now apply space_not_digit.
      + destruct (ok_sp1 L HL) as [T1 T2]. destruct (l_sp1 L); [congruence|]. cbn.
        inversion T2; subst. now apply space_not_digit.
    - rewrite cap_add_adv by reflexivity. apply m_tgid; auto.
  Qed.

  (** What a match of the pid part says about the text. *)
  Lemma R_pid_inv s s' : mat R_pid s s' -> exists d r, s_rest s = d ++ r /\ digits d /\
    ((exists sp b, r = sp ++ $"[" ++ b /\ blanks sp) \/
     (exists sp a sp' b, r = sp ++ $"(" ++ a ++ $")" ++ sp' ++ $"[" ++ b /\ blanks sp /\ blanks sp')).
  Proof.
    unfold R_pid. intros H. apply mat_seq_inv in H as (s1 & H & Hm). apply mat_grp_inv in H as (s2 & H & ->).
    apply mat_plus_cls in H as (d & Ed & Hd1 & Hd2 & _). exists d, (s_rest s2). split; auto. split; [split; auto|].
    apply mat_seq_inv in Hm as (s3 & Ho & Hc). apply R_cpu_inv in Hc as (sp & b & Eb & Hs).
    unfold ROpt in Ho. apply mat_alt_inv in Ho as [Ho|Ho].
    - right. unfold O_tgid in Ho. cbn [RSeqs] in Ho.
      apply mat_seq_inv in Ho as (s4 & H1 & Ho). apply mat_seq_inv in Ho as (s5 & H2 & Ho).
      apply mat_seq_inv in Ho as (s6 & H3 & Ho).
      apply mat_plus_cls in H1 as (q & E1 & Hq & Hqs & _). apply mat_lit in H2 as (E2 & _).
      apply mat_star_cls in H3 as (a & E3 & _). apply mat_lit in Ho as (E4 & _).
      cbn [cap_add s_rest] in E1. exists q, a, sp, b.
      rewrite E1, E2, E3, E4, Eb. split; [reflexivity|]. split; auto. split; auto.
    - left. inversion Ho; subst. cbn [cap_add s_rest] in Eb. exists sp, b. split; auto.
  Qed.

  (** No later dash can be taken for the one before the pid. *)
  Lemma later_dash u v pv caps (k : st -> option A) : $"-" ++ l_pid L ++ after_pid = u ++ v -> u <> [] ->
    mt (RSeq (RLit $"-") R_pid) (St pv v caps) k = None.
  Proof.
    intros E Hu. apply mt_None. intros s' Hm. exfalso.
    apply mat_seq_inv in Hm as (s1 & H1 & Hm). apply mat_lit in H1 as (E1 & _). cbn [s_rest] in E1.
    apply R_pid_inv in Hm as (d & r & Er & Hd & Hr). rewrite Er in E1.
    destruct u as [|u0 u]; [congruence|]. injection E as _ E. subst v. cbn [app] in E.
    (* the dash is in the group id or in the tail *)
    assert (Hpid : ~ In "-"%char (l_pid L)) by (intros Hi; apply (no_in_digits _ _ (ok_pid L HL)) in Hi; discriminate).
    assert (E' : exists u', after_pid = u' ++ "-"%char :: d ++ r).
    { destruct (app_eq_app _ _ _ _ E) as (z & [[F1 F2]|[F1 F2]]).
      - destruct z as [|z0 z]; [exists []; exact (eq_sym F2)|]. injection F2 as <- _. exfalso. apply Hpid.
        rewrite F1. apply in_or_app. right. left. reflexivity.
      - exists z. exact F2. }
    clear E u Hu. destruct E' as (u & E). unfold after_pid in E.
    assert (Htail : forall P, tail_str L ++ rest = P ++ "-"%char :: d ++ r -> False).
    { intros P Ep. destruct Hr as [(sp & b & -> & Hs)|(sp & a & sp' & b & -> & Hs & Hs')].
      - exact (rest_tail_pid P d sp b Ep Hd Hs).
      - apply (rest_tail_par (P ++ $"-" ++ d ++ sp ++ $"(" ++ a) sp' b); auto. rewrite Ep.
        rewrite <- !app_assoc. reflexivity. }
    destruct (l_tgid L) as [[tsp t]|] eqn:Et; cbn [tgid_str] in E.
    - destruct (ok_tgid L HL tsp t Et) as ([T1 T2] & Tn & Tp & Tb).
      rewrite <- !app_assoc in E.
      set (M := l_sp1 L ++ $"[" ++ l_cpu L ++ $"]" ++ tail_str L ++ rest) in *.
      destruct (app_eq_app _ _ _ _ E) as (z & [[F1 F2]|[F1 F2]]).
      + destruct z as [|z0 z]; [discriminate|]. injection F2 as <- _.
        assert (Hi : In "-"%char tsp) by (rewrite F1; apply in_or_app; right; left; reflexivity).
        apply (no_in_space _ _ T2) in Hi. discriminate.
      + destruct z as [|z0 z]; [discriminate|]. injection F2 as <- F2.
        destruct (app_eq_app _ _ _ _ F2) as (y & [[G1 G2]|[G1 G2]]).
        * destruct y as [|y0 y]; [discriminate|]. injection G2 as <- G2.
          (* t = z ++ "-" ++ y *)
          assert (Yb : ~ In "["%char (y ++ $")")).
          { intros Hi. apply in_app_iff in Hi as [Hi|[Hi|[]]]; [|discriminate]. apply Tb. rewrite G1.
            apply in_or_app. right. right. exact Hi. }
          assert (Yp : ~ In "("%char (y ++ $")")).
          { intros Hi. apply in_app_iff in Hi as [Hi|[Hi|[]]]; [|discriminate]. apply Tp. rewrite G1.
            apply in_or_app. right. right. exact Hi. }
          assert (Kill : forall c sp X, (c = "["%char \/ c = "("%char) -> blanks sp ->
                    d ++ sp ++ c :: X = y ++ $")" ++ M -> False).
          { intros c sp X Hc [_ Hs] Ex. rewrite app_assoc, (app_assoc y) in Ex.
            destruct (app_eq_app _ _ _ _ Ex) as (w & [[K1 K2]|[K1 K2]]).
            - (* d ++ sp = (y ++ ")") ++ w *)
              assert (Hi : In ")"%char (d ++ sp)).
              { rewrite K1. apply in_or_app. left. apply in_or_app. right. left. reflexivity. }
              apply in_app_iff in Hi as [Hi|Hi].
              + apply (no_in_digits _ _ Hd) in Hi. discriminate.
              + apply (no_in_space _ _ Hs) in Hi. discriminate.
            - destruct w as [|w0 w].
              + assert (Hi : In ")"%char (d ++ sp)).
                { rewrite app_nil_r in K1. rewrite <- K1. apply in_or_app. right. left. reflexivity. }
                apply in_app_iff in Hi as [Hi|Hi].
                * apply (no_in_digits _ _ Hd) in Hi. discriminate.
                * apply (no_in_space _ _ Hs) in Hi. discriminate.
              + injection K2 as <- _. destruct Hc as [->| ->].
                * apply Yb. rewrite K1. apply in_or_app. right. left. reflexivity.
                * apply Yp. rewrite K1. apply in_or_app. right. left. reflexivity. }
          destruct Hr as [(sp & b & -> & Hs)|(sp & a & sp' & b & -> & Hs & Hs')].
          -- exact (Kill "["%char sp b (or_introl eq_refl) Hs G2).
          -- exact (Kill "("%char sp (a ++ $")" ++ sp' ++ $"[" ++ b) (or_intror eq_refl) Hs G2).
        * destruct y as [|y0 y]; [discriminate|]. injection G2 as <- G2.
          apply mid_no in G2 as (P' & G2); auto. eapply Htail; eauto.
    - cbn [app] in E. apply mid_no in E as (P' & E); auto. eapply Htail; eauto.
  Qed.

  Lemma m_line (k : st -> option A) x :
    (forall pv' c6, six c6 ->
       k (St pv' rest (end_caps [(3, l_cpu L); (2, l_pid L); (1, l_comm L)] c6)) = Some x) ->
    mt pat_special (St None (line_str L ++ rest) []) k = Some x.
  Proof.
    intros Hk. rewrite pat_special_eq.
    set (X := $"-" ++ l_pid L ++ after_pid).
    assert (EX : line_str L ++ rest = l_lead L ++ l_comm L ++ X).
    { unfold line_str, X, after_pid. rewrite <- !app_assoc. reflexivity. }
    rewrite EX. clear EX. 
    change (mt (RSeq (RStar (RCls is_space)) (RSeq (RGrp 1 (RStar (RCls not_nl))) (RSeq (RLit $"-") R_pid)))
      (St None (l_lead L ++ l_comm L ++ X) []) k = Some x).
    cbn [mt]. apply (star_max is_space _ (l_lead L) (l_comm L ++ X)).
    - reflexivity.
    - exact (ok_lead L HL).
    - pose proof (ok_comm_hd L HL) as Hh. destruct (l_comm L) as [|c r]; cbn; [reflexivity|]. eapply Hh. reflexivity.
    - apply (star_back not_nl _ (l_comm L) X).
      + reflexivity.
      + apply Forall_not_nl, HL.
      + rewrite cap_add_adv by reflexivity. cbn [s_caps adv].
        unfold X. rewrite (lit_step $"-" _ (l_pid L ++ after_pid)) by reflexivity. apply m_pid; auto.
      + intros u v Eu Hu _. rewrite cap_add_adv.
        2:{ cbn [adv s_rest]. rewrite Eu. now rewrite app_assoc. }
        exact (later_dash u v _ _ k Eu Hu).
  Qed.
End Stages.

Lemma caps6 n (c6 : list (nat * str)) caps : n <> 6 -> six c6 ->
  dget Nat.eqb n (c6 ++ caps) = dget Nat.eqb n caps.
Proof.
  intros Hn H. induction H as [|[m t] c6 Hm _ IH]; auto. cbn [fst] in Hm. subst m. cbn [app dget].
  destruct (Nat.eqb_spec n 6); [congruence|]. exact IH.
Qed.

Lemma mt_map {A B} (g : A -> B) r : forall s (k : st -> option A),
  mt r s (fun s' => option_map g (k s')) = option_map g (mt r s k).
Proof.
  induction r as [|p|r1 IH1 r2 IH2|r1 IH1 r2 IH2|r IH|n r IH| |]; intros s k; cbn [mt]; auto.
  - destruct (s_rest s) as [|c t]; auto. now destruct (p c).
  - rewrite <- IH1. apply mt_ext. intros s'. apply IH2.
  - rewrite IH1, IH2. now destruct (mt r1 s k).
  - enough (G : forall n s, (List.length (s_rest s) <= n)%nat ->
        mt (RStar r) s (fun s' => option_map g (k s')) = option_map g (mt (RStar r) s k)) by (apply (G _ s (le_n _))).
    induction n as [|n IHn]; intros s0 Hn; rewrite (star_unroll r s0 k), star_unroll.
    + rewrite !mt_None; auto.
      all: intros s' _; destruct (Nat.ltb_spec (List.length (s_rest s')) (List.length (s_rest s0))); auto; lia.
    + erewrite mt_ext with (k' := fun s' => option_map g (if (List.length (s_rest s') <? List.length (s_rest s0))%nat
                        then mt (RStar r) s' k else None)).
      * rewrite IH. now destruct (mt r s0 _).
      * intros s'. destruct (Nat.ltb_spec (List.length (s_rest s')) (List.length (s_rest s0))); auto.
        apply IHn. lia.
  - now destruct (s_prev s).
  - now destruct (xorb _ _).
Qed.

Lemma digit_val_digit c : is_digit c = true -> digit_val c = Some (N_of_ascii c - 48)%N /\ (N_of_ascii c - 48 <? 10)%N = true /\
  Ascii.eqb c "_" = false.
Proof. ascii_enum c. Qed.
Lemma digits_loop10 s : forall acc p, Forall (fun c => is_digit c = true) s -> s <> [] \/ p = PDigit ->
  digits_loop 10 acc p s = Some (fold_left (fun n c => n * 10 + (N_of_ascii c - 48))%N s acc).
Proof.
  induction s as [|c s IH]; intros acc p H Hp.
  - destruct Hp as [Hp| ->]; [congruence|reflexivity].
  - inversion H; subst. destruct (digit_val_digit c) as (E1 & E2 & E3); auto.
    cbn [digits_loop fold_left]. rewrite E1, E2, E3. apply IH; auto.
Qed.
Lemma parse_digits_dec s : digits s -> parse_digits 10 s = Some (dec_val s).
Proof. intros [Hn Hd]. unfold parse_digits, dec_val. apply digits_loop10; auto. Qed.
Lemma digits_nospace s : digits s -> no_space s.
Proof. intros [_ H]. eapply Forall_impl; [|exact H]. apply digit_no_space. Qed.
Lemma py_int10_digits s : digits s -> py_int10 s = Some (Z.of_N (dec_val s)).
Proof.
  intros H. unfold py_int10. rewrite strip_no_space by now apply digits_nospace.
  assert (Es : sign_split s = (false, s)).
  { destruct s as [|c s]; auto. destruct H as [_ H]. inversion H; subst. cbn [sign_split].
    destruct (digit_not_sign c) as [-> ->]; auto. }
  rewrite Es, parse_digits_dec by auto. cbn [option_map apply_sign]. reflexivity.
Qed.
Lemma digits_no_dot s : digits s -> ~ In "."%char s.
Proof. intros H Hi. apply (no_in_digits _ _ H) in Hi. discriminate. Qed.
Lemma digits_app a b : digits a -> digits b -> digits (a ++ b).
Proof. intros [A1 A2] [B1 B2]. split; [destruct a; [congruence|discriminate]|]. apply Forall_app; auto. Qed.
Lemma py_float_int sec : digits sec -> py_float sec = Some (f_of_N (dec_val sec)).
Proof.
  intros H. unfold py_float. rewrite (proj2 (split_once_None "." sec)) by now apply digits_no_dot.
  now rewrite parse_digits_dec.
Qed.
Lemma py_float_frac sec u : digits sec -> digits u ->
  py_float (sec ++ $"." ++ u) =
  Some (f_of_ratio (dec_val (sec ++ u)) (Pos.pow 10 (Pos.of_nat (List.length u)))).
Proof.
  intros H Hu. unfold py_float. rewrite (proj2 (split_once_Some "." _ sec u)).
  - now rewrite parse_digits_dec by now apply digits_app.
  - split; [reflexivity|]. now apply digits_no_dot.
Qed.

From Coq Require Import Reals Lra.
From Flocq Require Import Core BinarySingleNaN.
From Verif Require Import Lib.F64Facts.
Local Open Scope R_scope.
Lemma nearest_iff t r : nn t = true ->
  (if Rlt_bool (rnd64 r) (bpow radix2 emax64) then finite t /\ B2R t = rnd64 r else t = finf) ->
  nearest t r.
Proof.
  intros _ H. unfold nearest. change (round_double r) with (rnd64 r).
  change 1024%Z with emax64. destruct (Rlt_bool_spec (rnd64 r) (bpow radix2 emax64)); split; intros; auto; lra.
Qed.
Lemma pow10 n : n <> O -> IZR (Zpos (Pos.pow 10 (Pos.of_nat n))) = IZR (10 ^ Z.of_nat n).
Proof.
  intros H. f_equal. rewrite Pos2Z.inj_pow. f_equal. rewrite <- (Nat2Pos.id n) at 2 by auto.
  now rewrite positive_nat_Z.
Qed.
Lemma f1e9_val : finite f1e9 /\ B2R f1e9 = 1000000000.
Proof.
  assert (E : B2SF f1e9 = SpecFloat.S754_finite false 8388608000000000 (-23)) by (vm_compute; reflexivity).
  split.
  - rewrite <- is_finite_SF_B2SF, E. reflexivity.
  - rewrite <- SF2R_B2SF, E. unfold SF2R, F2R. cbn. lra.
Qed.
Lemma div_1e9 t0 : nn t0 = true -> (finite t0 -> nearest (fdiv t0 f1e9) (B2R t0 / 1000000000)) /\
  (is_finite t0 = false -> fdiv t0 f1e9 = finf).
Proof.
  intros Hn. destruct f1e9_val as [Hf Hv]. split.
  - intros Ht. assert (C := Bdiv_correct prec64 emax64 _ _ mode_NE t0 f1e9). rewrite Hv in C.
    assert (Hnz : 1000000000 <> 0) by lra. specialize (C Hnz).
    apply nn_pos in Hn as Hp.
    assert (Rp : 0 <= rnd64 (B2R t0 / 1000000000)).
    { rewrite <- (round_0 radix2 fexp64 (round_mode mode_NE)). apply round_le; auto with typeclass_instances.
      apply Rmult_le_pos; lra. }
    rewrite Rabs_pos_eq in C by exact Rp.
    unfold nearest. change (round_double (B2R t0 / 1000000000)) with (rnd64 (B2R t0 / 1000000000)).
    change 1024%Z with emax64. fold (fdiv t0 f1e9) in C.
    destruct (Rlt_bool_spec (rnd64 (B2R t0 / 1000000000)) (bpow radix2 emax64)); split; intros; try lra.
    + destruct C as (C1 & C2 & _). split; auto. rewrite C2. exact Ht.
    + exfalso.
      (* the quotient of a finite double by 10^9 does not overflow *)
      assert (B2R t0 < bpow radix2 emax64).
      { eapply Rle_lt_trans; [apply Rle_abs|]. apply abs_B2R_lt_emax. }
      assert (rnd64 (B2R t0 / 1000000000) <= B2R t0).
      { rewrite <- (round_generic radix2 fexp64 (round_mode mode_NE) (B2R t0)) at 2 by apply generic_format_B2R.
        apply round_le; auto with typeclass_instances. lra. }
      lra.
  - intros Ht. apply nn_inf in Hn as ->; auto.
Qed.
Local Close Scope R_scope.

Definition line_time (L : tline) : F64.float :=
  match l_us L with
  | Some u => f_of_ratio (dec_val (l_sec L ++ u)) (Pos.pow 10 (Pos.of_nat (List.length u)))
  | None => fdiv (f_of_N (dec_val (l_sec L))) f1e9
  end.
Lemma line_time_gen L : (forall u, l_us L = Some u -> digits u) -> printed_time L (line_time L).
Proof.
  intros HL. unfold printed_time, line_time. destruct (l_us L) as [u|] eqn:Eu.
  - pose proof (HL u eq_refl) as [Hu _].
    rewrite <- pow10 by (destruct u; [congruence|discriminate]).
    apply nearest_iff; apply (f_of_ratio_spec (dec_val (l_sec L ++ u)) (Pos.pow 10 (Pos.of_nat (List.length u)))).
  - exists (f_of_N (dec_val (l_sec L))). split; [|apply div_1e9, f_of_ratio_nn].
    unfold f_of_N. replace (IZR (Z.of_N (dec_val (l_sec L)))) with (ratio (dec_val (l_sec L)) 1)
      by (unfold ratio; lra).
    apply nearest_iff; apply (f_of_ratio_spec (dec_val (l_sec L)) 1).
Qed.

Lemma line_time_printed L : line_ok L -> printed_time L (line_time L).
Proof. intros HL. apply line_time_gen. exact (ok_us L HL). Qed.

Definition groups (m : mres) :=
  (group 1 m, group 2 m, group 3 m, group 4 m, match group 5 m with Some _ => true | None => false end, group 7 m).
Lemma match_line L rest : line_ok L -> rest_ok rest ->
  option_map groups (re_match pat_special (line_str L ++ rest)) =
  Some (Some (l_comm L), Some (l_pid L), Some (l_cpu L), Some (time_str (l_sec L) (l_us L)),
        match l_us L with Some _ => true | None => false end, Some (l_data L)).
Proof.
  intros HL Hr. unfold re_match. rewrite <- (mt_map groups).
  apply (m_line rest Hr L HL). intros pv' c6 H6. cbn [option_map]. f_equal.
  unfold groups, group, mk_res, end_caps. cbn [m_caps s_caps].
  cbn [dget Nat.eqb]. rewrite !caps6 by (auto; discriminate).
  unfold us_caps. now destruct (l_us L).
Qed.

Lemma rstrip_app s sp : all_space sp -> (forall c r, s = r ++ [c] -> is_space c = false) -> rstrip (s ++ sp) = s.
Proof.
  intros Hsp Hl. unfold rstrip. rewrite rev_app_distr.
  assert (D : forall a b, all_space a -> drop_while is_space (a ++ b) = drop_while is_space b).
  { induction a as [|c a IH]; intros b Ha; auto. inversion Ha; subst. cbn [app drop_while].
    match goal with H : is_space c = true |- _ => rewrite H end. auto. }
  rewrite D by now apply Forall_rev.
  destruct (rev s) as [|c r] eqn:E.
  - rewrite <- (rev_involutive s), E. reflexivity.
  - cbn [drop_while]. rewrite (Hl c (rev r)).
    + now rewrite <- E, rev_involutive.
    + rewrite <- (rev_involutive s), E. reflexivity.
Qed.
Lemma line_last L : line_ok L -> forall c r, line_str L = r ++ [c] -> is_space c = false.
Proof.
  intros HL c r E. destruct (ok_data L HL) as (Hn & _ & _ & Hd).
  destruct (exists_last Hn) as (d & e & Ed).
  unfold line_str, tail_str in E. rewrite Ed, !app_assoc in E. apply app_inj_tail in E as [_ <-]. eauto.
Qed.
Theorem parse_line L sp : line_ok L -> all_space sp ->
  parse_fields (line_str L ++ sp) =
  Ok (Some (Flds (l_comm L) (Z.of_N (dec_val (l_pid L))) (Z.of_N (dec_val (l_cpu L))) (line_time L) (l_data L))).
Proof.
  intros HL Hsp. unfold parse_fields. rewrite rstrip_app by (auto; now apply line_last).
  pose proof (match_line L [] HL (or_introl eq_refl)) as M. rewrite app_nil_r in M.
  destruct (re_match pat_special (line_str L)) as [m|]; [|discriminate]. cbn [option_map] in M.
  unfold groups in M. injection M as -> -> -> -> M5 ->.
  rewrite (py_int10_digits (l_pid L)) by apply HL. rewrite (py_int10_digits (l_cpu L)) by apply HL.
  unfold line_time, time_str. destruct (l_us L) as [u|] eqn:Eu.
  - rewrite py_float_frac; [|apply HL|exact (ok_us L HL u Eu)]. destruct (group 5 m); [reflexivity|discriminate].
  - rewrite app_nil_r, py_float_int by apply HL. destruct (group 5 m); [discriminate|reflexivity].
Qed.
Lemma trace_line L rest : line_ok L -> rest = [] \/ rest = [nl] -> is_trace_line (line_str L ++ rest) = true.
Proof.
  intros HL Hr. pose proof (match_line L rest HL Hr) as M. unfold is_trace_line.
  destruct (re_match pat_special (line_str L ++ rest)); auto. discriminate.
Qed.

(** ** A decidable sufficient condition, for concrete lines *)
Definition ne (s : str) : bool := match s with [] => false | _ => true end.
Definition blanksb s := ne s && forallb is_space s.
Definition digitsb s := ne s && forallb is_digit s.
Definition wordb s := ne s && forallb is_word s.
Definition noinb (c : ascii) (s : str) := negb (existsb (Ascii.eqb c) s).
Definition hd_ns (s : str) := match s with [] => true | c :: _ => negb (is_space c) end.
Definition line_okb (l : tline) : bool :=
  forallb is_space (l_lead l) && noinb nl (l_comm l) && hd_ns (l_comm l) && digitsb (l_pid l) &&
  match l_tgid l with Some (sp, t) => blanksb sp && noinb nl t && noinb "(" t && noinb "[" t | None => true end &&
  blanksb (l_sp1 l) && digitsb (l_cpu l) &&
  match l_flags l with Some (sp, f) => blanksb sp && Nat.eqb (List.length f) 4 && noinb nl f && hd_ns f | None => true end &&
  blanksb (l_sp2 l) && digitsb (l_sec l) && match l_us l with Some u => digitsb u | None => true end &&
  match l_names l with n :: _ => negb (digitsb (fst n)) | [] => false end &&
  forallb (fun n => wordb (fst n) && blanksb (snd n)) (l_names l) &&
  ne (l_data l) && noinb nl (l_data l) && hd_ns (l_data l) && hd_ns (rev (l_data l)) && noinb ":" (l_data l) &&
  noinb "[" (tail_str l).
Lemma ne_ok s : ne s = true -> s <> [].
Proof. destruct s; [discriminate|discriminate]. Qed.
Lemma blanksb_ok s : blanksb s = true -> blanks s.
Proof. intros H. apply andb_true_iff in H as [H1 H2]. split; [now apply ne_ok|]. apply Forall_forall, forallb_forall, H2. Qed.
Lemma digitsb_ok s : digitsb s = true -> digits s.
Proof. intros H. apply andb_true_iff in H as [H1 H2]. split; [now apply ne_ok|]. apply Forall_forall, forallb_forall, H2. Qed.
Lemma digitsb_no s : digitsb s = false -> ~ digits s.
Proof.
  intros H [H1 H2]. unfold digitsb in H. destruct s; [congruence|]. cbn [ne andb] in H.
  rewrite (proj2 (forallb_forall is_digit _)) in H; [discriminate|]. now apply Forall_forall.
Qed.
Lemma wordb_ok s : wordb s = true -> word s.
Proof. intros H. apply andb_true_iff in H as [H1 H2]. split; [now apply ne_ok|]. apply Forall_forall, forallb_forall, H2. Qed.
Lemma noinb_ok c s : noinb c s = true -> ~ In c s.
Proof.
  intros H Hi. apply negb_true_iff in H. assert (existsb (Ascii.eqb c) s = true); [|congruence].
  apply existsb_exists. exists c. split; auto. apply Ascii.eqb_refl.
Qed.
Lemma hd_ns_ok s : hd_ns s = true -> forall c r, s = c :: r -> is_space c = false.
Proof. intros H c r ->. now apply negb_true_iff in H. Qed.
Lemma line_okb_ok l : line_okb l = true -> line_ok l.
Proof.
  unfold line_okb. intros H.
  repeat match type of H with _ && _ = true => let h := fresh "H" in apply andb_true_iff in H as [H h] end.
  match goal with h : noinb "[" _ = true |- _ => apply noinb_ok in h; rename h into Hbr end.
  match goal with h : noinb ":" _ = true |- _ => apply noinb_ok in h; rename h into Hcol end.
  constructor; try (solve [auto using blanksb_ok, digitsb_ok, noinb_ok]).
  - apply Forall_forall, forallb_forall, H.
  - now apply hd_ns_ok.
  - intros sp t E. rewrite E in *.
    match goal with h : blanksb sp && _ && _ && _ = true |- _ => rename h into Ht end.
    apply andb_true_iff in Ht as [Ht T4]. apply andb_true_iff in Ht as [Ht T3]. apply andb_true_iff in Ht as [T1 T2].
    split; [now apply blanksb_ok|]. split; [now apply noinb_ok|]. split; now apply noinb_ok.
  - intros sp f E. rewrite E in *.
    match goal with h : blanksb sp && _ && _ && _ = true |- _ => rename h into Ht end.
    apply andb_true_iff in Ht as [Ht T4]. apply andb_true_iff in Ht as [Ht T3]. apply andb_true_iff in Ht as [T1 T2].
    split; [now apply blanksb_ok|]. split; [now apply Nat.eqb_eq|]. split; [now apply noinb_ok|now apply hd_ns_ok].
  - intros u E. rewrite E in *. now apply digitsb_ok.
  - split.
    + destruct (l_names l); [discriminate|discriminate].
    + apply Forall_forall. intros n Hn.
      match goal with h : forallb (fun n => wordb _ && _) _ = true |- _ => rename h into Hf end.
      rewrite forallb_forall in Hf. apply Hf in Hn. apply andb_true_iff in Hn as [N1 N2].
      split; [now apply wordb_ok|now apply blanksb_ok].
  - intros n r E. rewrite E in *. match goal with h : negb (digitsb _) = true |- _ => apply negb_true_iff in h; now apply digitsb_no in h end.
  - split; [now apply ne_ok|]. split; [now apply noinb_ok|]. split; [now apply hd_ns_ok|].
    intros c r E. match goal with h : hd_ns (rev _) = true |- _ => eapply (hd_ns_ok _ h c (rev r)) end.
    rewrite E, rev_app_distr. reflexivity.
  - intros w c r E _. exfalso. apply Hcol. rewrite E. apply in_or_app. right. left. reflexivity.
  - intros a d sp b E _ _. apply Hbr. rewrite E. rewrite !in_app_iff. cbn. tauto.
  - intros a sp b E _. apply Hbr. rewrite E. rewrite !in_app_iff. cbn. tauto.
Qed.
