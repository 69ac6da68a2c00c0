(** CSV text and tables. *)
From Coq Require Import List Ascii String ZArith NArith Bool Lia.
From Verif Require Import Lib.PyStr Lib.PyStrFacts Spec.Lines Model.Csv Spec.Tables.
From Verif Require Proofs.LineP.
Import ListNotations.
Local Open Scope list_scope.

Lemma is_ch_eq a b : is_ch a b = true <-> a = b.
Proof. unfold is_ch. apply Ascii.eqb_eq. Qed.
Lemma special_split c : special c = false -> is_ch comma c = false /\ is_ch dq c = false /\ is_eol c = false.
Proof.
  unfold special, is_eol. destruct (is_ch comma c), (is_ch dq c), (is_ch nl c), (is_ch cr c); cbn; auto; discriminate.
Qed.
Lemma tok_quoted s : forall cur row rest,
  tok SQuoted cur row (flat_map (fun c => if is_ch dq c then [dq; dq] else [c]) s ++ dq :: rest) =
  tok SQuoteEnd (rev s ++ cur) row rest.
Proof.
  induction s as [|c s IH]; intros cur row rest.
  - reflexivity.
  - cbn [flat_map rev]. destruct (is_ch dq c) eqn:E.
    + apply is_ch_eq in E as <-. cbn [app tok]. change (is_ch dq dq) with true. cbn iota. rewrite IH. now rewrite <- app_assoc.
    + cbn [app tok]. rewrite E. rewrite IH. now rewrite <- app_assoc.
Qed.
Lemma tok_plain s : existsb special s = false -> forall cur row rest,
  tok SPlain cur row (s ++ rest) = tok SPlain (rev s ++ cur) row rest.
Proof.
  induction s as [|c s IH]; intros H cur row rest; auto. cbn [existsb] in H. apply orb_false_iff in H as [Hc Hs].
  destruct (special_split c Hc) as (E1 & E2 & E3). cbn [app tok]. rewrite E1, E3. rewrite IH by auto. cbn [rev]. now rewrite <- app_assoc.
Qed.
(** One field, as the tokenizer leaves it before the separator. *)
Lemma tok_field f st row rest sep : st = SRec \/ st = SField -> sep = comma \/ sep = nl -> (st = SRec -> sep = nl -> f <> []) ->
  tok st [] row (csv_field f ++ sep :: rest) =
  if is_ch comma sep then tok SField [] (f :: row) rest else rev (f :: row) :: tok SRec [] [] rest.
Proof.
  intros Hst Hsep Hne. unfold csv_field. destruct (existsb special f) eqn:Eq.
  - assert (E : tok st [] row (([dq] ++ flat_map (fun c => if is_ch dq c then [dq; dq] else [c]) f ++ [dq]) ++ sep :: rest)
                = tok SQuoteEnd (rev f) row (sep :: rest)).
    { rewrite <- (app_nil_r (rev f)). rewrite <- tok_quoted. rewrite <- !app_assoc. cbn [app tok].
      change (is_ch dq dq) with true. destruct Hst as [->| ->]; reflexivity. }
    rewrite E. cbn [tok]. destruct Hsep as [->| ->].
    + change (is_ch dq comma) with false. change (is_ch comma comma) with true. cbn iota. now rewrite rev_involutive.
    + change (is_ch dq nl) with false. change (is_ch comma nl) with false. change (is_eol nl) with true. cbn iota. now rewrite rev_involutive.
  - destruct f as [|c f].
    + cbn [app]. destruct Hsep as [->| ->].
      * destruct Hst as [->| ->]; reflexivity.
      * destruct Hst as [->| ->]; [exfalso; now apply Hne|reflexivity].
    + cbn [existsb] in Eq. apply orb_false_iff in Eq as [Hc Hs]. destruct (special_split c Hc) as (E1 & E2 & E3).
      assert (E : tok st [] row ((c :: f) ++ sep :: rest) = tok SPlain (rev (c :: f)) row (sep :: rest)).
      { cbn [rev]. rewrite <- tok_plain by auto. cbn [app tok]. rewrite E1, E2, E3. destruct Hst as [->| ->]; reflexivity. }
      rewrite E. generalize (c :: f). intros g. cbn [tok]. rewrite rev_involutive. destruct Hsep as [->| ->].
      * change (is_ch comma comma) with true. reflexivity.
      * change (is_ch comma nl) with false. change (is_eol nl) with true. reflexivity.
Qed.
Lemma join_cons2 sep (a b : str) l : join sep (a :: b :: l) = a ++ sep ++ join sep (b :: l).
Proof. reflexivity. Qed.
Lemma tok_fields fs : forall st row rest, fs <> [] -> st = SRec \/ st = SField -> (st = SRec -> fs <> [[]]) ->
  tok st [] row (join [comma] (map csv_field fs) ++ nl :: rest) = (rev row ++ fs) :: tok SRec [] [] rest.
Proof.
  induction fs as [|f fs IH]; intros st row rest Hne Hst Hne'; [congruence|]. destruct fs as [|g fs].
  - cbn [map join]. rewrite (tok_field f st row rest nl Hst (or_intror eq_refl)); [reflexivity|]. intros E _ ->. now apply Hne'.
  - cbn [map]. rewrite join_cons2. rewrite <- app_assoc. cbn [app]. rewrite (tok_field f st row _ comma Hst (or_introl eq_refl)); [|intros _ E; discriminate].
    change (is_ch comma comma) with true. cbn iota.
    change (csv_field g :: map csv_field fs) with (map csv_field (g :: fs)).
    rewrite IH; auto; try discriminate. cbn [rev]. now rewrite <- app_assoc.
Qed.
Lemma tok_row fs rest : fs <> [] -> tok SRec [] [] (csv_row fs ++ rest) = fs :: tok SRec [] [] rest.
Proof.
  intros Hne. assert (G : fs <> [[]] -> tok SRec [] [] ((join [comma] (map csv_field fs) ++ [nl]) ++ rest) = fs :: tok SRec [] [] rest).
  { intros H. rewrite <- app_assoc. cbn [app]. rewrite tok_fields; auto. }
  unfold csv_row. destruct fs as [|[|c f] [|g fs]]; try (apply G; congruence); try congruence. reflexivity.
Qed.
Theorem text_round rows : Forall (fun r => r <> []) rows -> csv_parse (csv_text rows) = rows.
Proof.
  unfold csv_parse, csv_text. induction 1 as [|r rows Hr _ IH]; auto. cbn [map List.concat]. rewrite tok_row by auto. now rewrite IH.
Qed.

(** ** Integers *)
Lemma int_text_csv s : csv_int s <> None -> int_text s.
Proof.
  unfold csv_int, sign_split. intros H. assert (G : exists sign d, s = sign ++ d /\ In sign [[]; $"-"; $"+"] /\ (if forallb is_digit d then parse_digits 10 d else None) <> None).
  { destruct s as [|c r]; [exists [], []; cbn in *; auto|]. destruct (Ascii.eqb c "-") eqn:E1.
    - apply Ascii.eqb_eq in E1 as ->. exists $"-", r. split; auto. split; [cbn; auto|]. destruct (forallb is_digit r); auto. now destruct (parse_digits 10 r).
    - destruct (Ascii.eqb c "+") eqn:E2.
      + apply Ascii.eqb_eq in E2 as ->. exists $"+", r. split; auto. split; [cbn; auto|]. destruct (forallb is_digit r); auto. now destruct (parse_digits 10 r).
      + exists [], (c :: r). split; auto. split; [cbn; auto|]. destruct (forallb is_digit (c :: r)); auto. now destruct (parse_digits 10 (c :: r)). }
  destruct G as (sign & d & -> & Hs & Hd). exists sign, d. split; auto. split; auto.
  destruct (forallb is_digit d) eqn:E; [|congruence]. split; [intros ->; now apply Hd|]. now apply Forall_forall, forallb_forall.
Qed.
Lemma digits_all n : forallb is_digit (str_of_N n) = true.
Proof. apply forallb_forall. apply Forall_forall. apply str_of_N_digits. Qed.
Lemma digit_not_sign c : is_digit c = true -> Ascii.eqb c "-" = false /\ Ascii.eqb c "+" = false.
Proof.
  intros H. split; apply Bool.not_true_is_false; intros E; apply Ascii.eqb_eq in E; subst c; discriminate.
Qed.
Lemma int64_iff z : int64 z = true <-> (-2^63 <= z < 2^63)%Z.
Proof. unfold int64. rewrite andb_true_iff, !Z.leb_le. change (2^63)%Z with 9223372036854775808%Z. lia. Qed.
Lemma csv_int_of z : (-2^63 <= z < 2^63)%Z -> csv_int (str_of_Z z) = Some z.
Proof.
  intros Hz. apply int64_iff in Hz.
  assert (P : forall n, sign_split (str_of_N n) = (false, str_of_N n)).
  { intros n. pose proof (str_of_N_digits n) as D. pose proof (str_of_N_nonnil n) as N. destruct (str_of_N n) as [|c r]; [congruence|].
    inversion D as [|? ? Hc _]; subst. destruct (digit_not_sign c Hc) as [E1 E2]. cbn [sign_split]. now rewrite E1, E2. }
  unfold csv_int. destruct z as [|p|p]; cbn [str_of_Z].
  - rewrite P, digits_all, str_of_N_parse. cbn [apply_sign Z.to_N Z.of_N]. reflexivity.
  - rewrite P, digits_all, str_of_N_parse. unfold apply_sign. rewrite Z2N.id by lia. now rewrite Hz.
  - change (sign_split ("-"%char :: str_of_N (N.pos p))) with (true, str_of_N (N.pos p)). cbn iota. rewrite digits_all, str_of_N_parse.
    unfold apply_sign. change (- Z.of_N (N.pos p))%Z with (Z.neg p). now rewrite Hz.
Qed.
Lemma csv_int_iff s z : csv_int s = Some z <-> int_value s z /\ (-2^63 <= z < 2^63)%Z.
Proof.
  assert (G : forall neg d, (if forallb is_digit d then match parse_digits 10 d with Some n => let z := apply_sign neg n in if int64 z then Some z else None | None => None end else None) = Some z <->
    digits d /\ z = (if neg then - Z.of_N (dec_val d) else Z.of_N (dec_val d))%Z /\ (-2^63 <= z < 2^63)%Z).
  { intros neg d. destruct (forallb is_digit d) eqn:E.
    - destruct d as [|c d]; [split; [discriminate|intros [[H _] _]; congruence]|]. assert (D : digits (c :: d)) by (split; [discriminate|now apply Forall_forall, forallb_forall]).
      rewrite (LineP.parse_digits_dec _ D). cbv zeta. unfold apply_sign. rewrite <- int64_iff. destruct neg.
      + destruct (int64 (- Z.of_N (dec_val (c :: d)))) eqn:B; split; try discriminate; [intros [= <-]; auto|intros (_ & -> & _); reflexivity|intros (_ & -> & ?); congruence].
      + destruct (int64 (Z.of_N (dec_val (c :: d)))) eqn:B; split; try discriminate; [intros [= <-]; auto|intros (_ & -> & _); reflexivity|intros (_ & -> & ?); congruence].
    - split; [discriminate|]. intros [[_ H] _]. assert (X : forallb is_digit d = true) by (apply forallb_forall; now apply Forall_forall). congruence. }
  unfold csv_int, sign_split, int_value. destruct s as [|c r].
  - rewrite G. split; [intros [[H _] _]; congruence|]. intros [(sign & ds & E & [N _] & _) _]. destruct sign, ds; discriminate || congruence.
  - destruct (Ascii.eqb_spec c "-") as [->|N1]; [|destruct (Ascii.eqb_spec c "+") as [->|N2]]; rewrite G; split.
    + intros (D & -> & R). split; auto. exists $"-", r. auto.
    + intros [(sign & ds & E & D & Hz) R]. destruct Hz as [[[<-|[<-|[]]] _]|[-> Hz]].
      * cbn [app] in E. subst ds. destruct D as [_ D]. inversion D; subst. discriminate.
      * discriminate.
      * injection E as ->. auto.
    + intros (D & -> & R). split; auto. exists $"+", r. split; auto. split; auto. left. split; auto. cbn. auto.
    + intros [(sign & ds & E & D & Hz) R]. destruct Hz as [[[<-|[<-|[]]] Hz]|[-> Hz]].
      * cbn [app] in E. subst ds. destruct D as [_ D]. inversion D; subst. discriminate.
      * injection E as ->. auto.
      * discriminate.
    + intros (D & -> & R). split; auto. exists [], (c :: r). split; auto. split; auto. left. split; auto. cbn. auto.
    + intros [(sign & ds & E & D & Hz) R]. destruct Hz as [[[<-|[<-|[]]] Hz]|[-> Hz]].
      * cbn [app] in E. subst ds. auto.
      * injection E as -> _. congruence.
      * injection E as -> _. congruence.
Qed.
Lemma whole_iff s : csv_int s <> None <-> whole s.
Proof.
  unfold whole. destruct (csv_int s) as [z|] eqn:E.
  - apply csv_int_iff in E. split; [eauto|discriminate].
  - split; [congruence|]. intros (z & Hz). apply csv_int_iff in Hz. congruence.
Qed.
Lemma not_whole s : csv_int s = None <-> ~ whole s.
Proof. rewrite <- whole_iff. destruct (csv_int s); split; try congruence. intros H. exfalso. apply H. discriminate. Qed.
Lemma is_na_iff s : is_na s = true <-> na_text s.
Proof.
  unfold is_na, na_text. rewrite existsb_exists. split.
  - intros (x & Hx & E). apply eqs_eq in E as ->. exact Hx.
  - intros H. exists s. split; auto. now apply eqs_eq.
Qed.
Lemma na_not_int s : na_text s -> csv_int s = None.
Proof.
  assert (G : Forall (fun s => csv_int s = None) na_words) by (repeat constructor). rewrite Forall_forall in G. apply G.
Qed.

(** ** Columns *)
Section Tables.
  Context {T F : Type}.
  Variables (trepr : T -> str) (tparse : str -> option T) (frepr : F -> str) (fparse : str -> option F).
  Notation infer := (infer fparse).
  Notation col_text := (col_text frepr).
  Notation col_ok := (col_ok frepr fparse).

  Lemma all_some_map {A B C} (f : B -> option C) (g : A -> B) l : all_some f (map g l) = all_some (fun a => f (g a)) l.
  Proof. induction l as [|a l IH]; auto. cbn. now rewrite IH. Qed.
  Lemma all_some_id {A B} (f : A -> option B) (g : A -> B) l : Forall (fun a => f a = Some (g a)) l -> all_some f l = Some (map g l).
  Proof. induction 1 as [|a l Ha _ IH]; auto. cbn. now rewrite Ha, IH. Qed.
  Lemma all_some_none {A B} (f : A -> option B) l a : In a l -> f a = None -> all_some f l = None.
  Proof.
    induction l as [|x l IH]; intros Hi Ha; [destruct Hi|]. cbn. destruct Hi as [->|Hi]; [now rewrite Ha|]. rewrite IH by auto. now destruct (f x).
  Qed.
  Lemma infer_ne cells : cells <> [] -> infer cells =
    match all_some (fun s => if is_na s then None else csv_int s) cells with
    | Some zs => ColInt zs
    | None => match all_some (fun s => if is_na s then Some None else option_map Some (fparse s)) cells with
              | Some xs => ColFloat xs
              | None => match all_some (fun s => dget eqs s bool_words) cells with
                        | Some bs => ColBool bs
                        | None => ColObj (map (fun s => if is_na s then ONone else OStr s) cells)
                        end end end.
  Proof. destruct cells; [congruence|reflexivity]. Qed.
  Theorem col_round c : col_ok c -> col_len c <> 0%nat -> infer (col_text c) = c.
  Proof.
    intros Hc Hl. rewrite infer_ne by (intros E; apply (f_equal (@List.length _)) in E; destruct c; cbn in E; rewrite map_length in E; auto).
    destruct c as [zs|xs|bs|os]; cbn [Csv.col_text Tables.col_ok] in *.
    - rewrite all_some_map. rewrite (all_some_id _ (fun z => z)).
      + now rewrite map_id.
      + eapply Forall_impl; [|exact Hc]. cbv beta. intros z Hz. assert (E := csv_int_of z Hz).
        destruct (is_na (str_of_Z z)) eqn:En; [|exact E]. apply is_na_iff, na_not_int in En. congruence.
    - destruct xs as [|x xs]; [now cbn in Hl|].
      rewrite (all_some_none _ _ (match x with Some y => frepr y | None => [] end)).
      + rewrite all_some_map. rewrite (all_some_id _ (fun x => x)); [now rewrite map_id|].
        eapply Forall_impl; [|exact Hc]. cbv beta. intros [y|]; [|reflexivity]. intros (H1 & H2 & _). rewrite H1. cbn [option_map].
        destruct (is_na (frepr y)) eqn:En; auto. now apply is_na_iff in En.
      + now left.
      + inversion Hc as [|? ? Hx _]; subst. destruct x as [y|]; [|reflexivity]. destruct Hx as (_ & _ & Hx).
        destruct (is_na (frepr y)); auto. destruct (csv_int (frepr y)) eqn:E; auto. exfalso. apply Hx. apply int_text_csv. congruence.
    - destruct Hc as [Ht Hf]. destruct bs as [|b bs]; [now cbn in Hl|].
      set (w := fun b : bool => if b then $"True" else $"False").
      rewrite (all_some_none _ _ (w b)); [|now left|destruct b; reflexivity].
      rewrite (all_some_none _ _ (w b)); [|now left|destruct b; cbn [w is_na na_words existsb]; unfold w; [rewrite Ht|rewrite Hf]; reflexivity].
      rewrite all_some_map. rewrite (all_some_id _ (fun x => x)); [now rewrite map_id|].
      apply Forall_forall. intros [] _; reflexivity.
    - destruct Hc as [Hc (s & Hs & H1 & H2 & H3)]. apply not_whole in H2.
      assert (Hn : is_na s = false).
      { apply not_true_is_false. intros En. apply is_na_iff in En. rewrite Forall_forall in Hc. now apply Hc in Hs. }
      assert (Hi : In s (map obj_text os)) by (apply in_map_iff; exists (OStr s); auto).
      rewrite (all_some_none _ _ s Hi) by (now rewrite Hn). rewrite (all_some_none _ _ s Hi) by (now rewrite Hn, H1).
      rewrite (all_some_none _ _ s Hi).
      + f_equal. rewrite map_map. rewrite <- (map_id os) at 2. apply map_ext_in. intros o Ho. rewrite Forall_forall in Hc. specialize (Hc o Ho).
        destruct o as [z|t|]; [destruct Hc| |reflexivity]. cbn [obj_text]. destruct (is_na t) eqn:En; auto. now apply is_na_iff in En.
      + destruct (dget eqs s bool_words) eqn:E; auto. exfalso. apply H3. apply (dget_In eqs eqs_eq) in E. apply (in_map fst) in E. exact E.
  Qed.
  (** A text column is read back unchanged in exactly these cases. *)
  Lemma all_some_total {A B} (f : A -> option B) l : Forall (fun a => f a <> None) l -> all_some f l <> None.
  Proof.
    induction 1 as [|a l Ha _ IH]; cbn; [discriminate|]. destruct (f a); [|congruence]. destruct (all_some f l); congruence.
  Qed.
  Lemma Forall_not_ex {A} (P : A -> Prop) (Q : A -> bool) l : (forall a, Q a = true <-> P a) -> ~ Forall P l -> exists a, In a l /\ Q a = false.
  Proof.
    intros HQ. induction l as [|a l IH]; intros H; [exfalso; apply H; constructor|].
    destruct (Q a) eqn:E; [|exists a; split; auto; now left]. destruct IH as (x & Hx & E'); [|exists x; split; auto; now right].
    intros Hl. apply H. constructor; auto. now apply HQ.
  Qed.
  Theorem text_iff os : os <> [] -> Forall (fun o => match o with OInt _ => False | _ => True end) os ->
    let cells := map obj_text os in
    (infer cells = ColObj os <->
     Forall (fun o => match o with OStr s => ~ na_text s | _ => True end) os /\
     ~ Forall (fun s => ~ na_text s /\ whole s) cells /\
     ~ Forall (fun s => na_text s \/ fparse s <> None) cells /\
     ~ Forall bool_text cells).
  Proof.
    intros Hne Ht cells. assert (Hc : cells <> []) by (intros E; apply Hne; now apply map_eq_nil in E).
    rewrite infer_ne by exact Hc. split.
    - destruct (all_some _ cells) as [zs|] eqn:E1; [discriminate|].
      destruct (all_some (fun s => if is_na s then Some None else option_map Some (fparse s)) cells) as [xs|] eqn:E2; [discriminate|].
      destruct (all_some (fun s => dget eqs s bool_words) cells) as [bs|] eqn:E3; [discriminate|]. intros H. injection H as H.
      split; [|split; [|split]].
      + unfold cells in H. rewrite map_map in H. apply Forall_forall. intros o Ho.
        assert (G : (if is_na (obj_text o) then ONone else OStr (obj_text o)) = o).
        { clear - H Ho. revert H. induction os as [|x os IH]; [destruct Ho|]. cbn [map]. intros H. injection H as H1 H2. destruct Ho as [<-|Ho]; auto. }
        destruct o as [z|s|]; auto. cbn [obj_text] in G. intros Hn. apply is_na_iff in Hn. rewrite Hn in G. discriminate.
      + intros G. revert E1. apply all_some_total.
        eapply Forall_impl; [|exact G]. cbv beta. intros s [H1 H2]. apply whole_iff in H2. destruct (is_na s) eqn:En; auto. now apply is_na_iff in En.
      + intros G. revert E2. apply all_some_total. eapply Forall_impl; [|exact G]. cbv beta. intros s Hs.
        destruct (is_na s) eqn:En; [discriminate|]. destruct Hs as [Hs|Hs]; [apply is_na_iff in Hs; congruence|]. now destruct (fparse s).
      + intros G. revert E3. apply all_some_total. eapply Forall_impl; [|exact G]. cbv beta. intros s Hs.
        intros E. apply (dget_None eqs eqs_eq) in E. apply E. exact Hs.
    - intros (H1 & H2 & H3 & H4).
      edestruct (fun Q => Forall_not_ex (fun s => ~ na_text s /\ whole s) (fun s => negb (is_na s) && match csv_int s with Some _ => true | None => false end) cells Q H2) as (s1 & I1 & Q1).
      { intros s. rewrite andb_true_iff, negb_true_iff, <- is_na_iff, <- whole_iff. destruct (is_na s), (csv_int s); intuition congruence. }
      edestruct (fun Q => Forall_not_ex (fun s => na_text s \/ fparse s <> None) (fun s => is_na s || match fparse s with Some _ => true | None => false end) cells Q H3) as (s2 & I2 & Q2).
      { intros s. rewrite orb_true_iff, <- is_na_iff. destruct (is_na s), (fparse s); intuition congruence. }
      edestruct (fun Q => Forall_not_ex bool_text (fun s => match dget eqs s bool_words with Some _ => true | None => false end) cells Q H4) as (s3 & I3 & Q3).
      { intros s. unfold bool_text. split.
        - destruct (dget eqs s bool_words) eqn:E; [|discriminate]. intros _. apply (dget_In eqs eqs_eq) in E. apply (in_map fst) in E. exact E.
        - intros Hi. destruct (dget eqs s bool_words) eqn:E; auto. apply (dget_None eqs eqs_eq) in E. contradiction. }
      rewrite (all_some_none _ _ s1 I1) by (destruct (is_na s1), (csv_int s1); cbn in Q1; congruence).
      rewrite (all_some_none _ _ s2 I2) by (destruct (is_na s2), (fparse s2); cbn in Q2; cbn; congruence).
      rewrite (all_some_none _ _ s3 I3) by (destruct (dget eqs s3 bool_words); congruence).
      f_equal. unfold cells. rewrite map_map. rewrite <- (map_id os) at 2. apply map_ext_in. intros o Ho.
      rewrite Forall_forall in H1, Ht. specialize (H1 o Ho). specialize (Ht o Ho). destruct o as [z|t|]; [destruct Ht| |reflexivity].
      cbn [obj_text]. destruct (is_na t) eqn:En; auto. now apply is_na_iff in En.
  Qed.

  (** ** Tables *)
  Lemma col_text_len c : List.length (col_text c) = col_len c.
  Proof. destruct c; cbn; apply map_length. Qed.
  Lemma zip_len ts : forall cols, List.length (zip_rows ts cols) = List.length ts.
  Proof. induction ts as [|t ts IH]; intros cols; cbn; auto. Qed.
  Lemma zip_hd ts : forall cols, map (fun r => hd [] r) (zip_rows ts cols) = ts.
  Proof. induction ts as [|t ts IH]; intros cols; cbn; auto. now rewrite IH. Qed.
  Lemma zip_row ts : forall cols, Forall (fun r => List.length r = S (List.length cols)) (zip_rows ts cols).
  Proof.
    induction ts as [|t ts IH]; intros cols; cbn [zip_rows]; constructor.
    - cbn. now rewrite map_length.
    - specialize (IH (map (fun c => tl c) cols)). now rewrite map_length in IH.
  Qed.
  Lemma nth_map_hd (cols : list (list str)) i : nth i (map (fun c => hd [] c) cols) [] = hd [] (nth i cols []).
  Proof. revert i. induction cols as [|c cols IH]; intros [|i]; cbn; auto. Qed.
  Lemma nth_map_tl (cols : list (list str)) i : nth i (map (fun c => tl c) cols) [] = tl (nth i cols []).
  Proof. revert i. induction cols as [|c cols IH]; intros [|i]; cbn; auto. Qed.
  Lemma zip_col ts : forall cols i, List.length (nth i cols []) = List.length ts ->
    map (fun r => nth (S i) r []) (zip_rows ts cols) = nth i cols [].
  Proof.
    induction ts as [|t ts IH]; intros cols i H; cbn [zip_rows map].
    - destruct (nth i cols []); [reflexivity|discriminate].
    - rewrite IH.
      + cbn [nth]. rewrite nth_map_hd. rewrite nth_map_tl. destruct (nth i cols []); [discriminate|reflexivity].
      + rewrite nth_map_tl. destruct (nth i cols []); [discriminate|]. cbn in *. congruence.
  Qed.
  Lemma name_cols_id names : Forall (fun n => n <> []) names -> forall i seen, NoDup (seen ++ names) -> name_cols i seen names = names.
  Proof.
    induction 1 as [|n l Hn _ IH]; intros i seen Hd; auto. cbn [name_cols].
    assert (E : filter (eqs n) seen = []).
    { destruct (filter (eqs n) seen) as [|x r] eqn:Ex; auto. exfalso.
      assert (Hx : In x (filter (eqs n) seen)) by (rewrite Ex; now left). apply filter_In in Hx as [Hx Hq]. apply eqs_eq in Hq as <-.
      apply NoDup_remove_2 in Hd. apply Hd. apply in_or_app. now left. }
    rewrite E. rewrite IH; [destruct n; [congruence|reflexivity]|].
    apply (NoDup_Add (a := n) (l := seen ++ l)); [apply Add_head|]. apply NoDup_remove in Hd. tauto.
  Qed.
  (** Columns of truth values in any of their spellings. *)
  Theorem bool_read cells : cells <> [] -> Forall bool_text cells -> (forall s, bool_text s -> fparse s = None) ->
    infer cells = ColBool (map stands_for cells).
  Proof.
    intros Hne H Hf. rewrite infer_ne by exact Hne. destruct cells as [|c cells]; [congruence|].
    assert (Hc : bool_text c) by now inversion H.
    assert (Hn : is_na c = false) by (destruct Hc as [<-|[<-|[<-|[<-|[<-|[<-|[]]]]]]]; reflexivity).
    assert (Hi : csv_int c = None) by (destruct Hc as [<-|[<-|[<-|[<-|[<-|[<-|[]]]]]]]; reflexivity).
    rewrite (all_some_none _ _ c); [|now left|now rewrite Hn]. rewrite (all_some_none _ _ c); [|now left|now rewrite Hn, (Hf c Hc)].
    rewrite <- (map_id (c :: cells)) at 1. rewrite all_some_map. rewrite (all_some_id _ stands_for); auto.
    eapply Forall_impl; [|exact H]. cbv beta. intros s [<-|[<-|[<-|[<-|[<-|[<-|[]]]]]]]; reflexivity.
  Qed.
  Lemma filter_count n (l : list str) : List.length (filter (eqs n) l) = count_occ (list_eq_dec ascii_dec) l n.
  Proof.
    induction l as [|x l IH]; auto. cbn [filter count_occ]. destruct (list_eq_dec ascii_dec x n) as [->|Hx].
    - rewrite (proj2 (eqs_eq n n) eq_refl). cbn. now rewrite IH.
    - destruct (eqs n x) eqn:E; auto. apply eqs_eq in E. congruence.
  Qed.
  Lemma name_cols_named names : forall before seen, (forall x, count_occ (list_eq_dec ascii_dec) seen x = count_occ (list_eq_dec ascii_dec) before x) ->
    List.length (name_cols (List.length before) seen names) = List.length names /\
    forall j n, nth_error names j = Some n -> exists n', nth_error (name_cols (List.length before) seen names) j = Some n' /\
      Named (before ++ firstn j names) n n'.
  Proof.
    induction names as [|x names IH]; intros before seen Hs; [split; auto; intros [|j] n; discriminate|].
    assert (Hs' : forall y, count_occ (list_eq_dec ascii_dec) (x :: seen) y = count_occ (list_eq_dec ascii_dec) (before ++ [x]) y).
    { intros y. rewrite count_occ_app. cbn [count_occ]. rewrite Hs. destruct (list_eq_dec ascii_dec x y); rewrite ?Nat.add_0_r, ?Nat.add_1_r; reflexivity. }
    destruct (IH (before ++ [x]) (x :: seen) Hs') as [IL IN]. rewrite app_length, Nat.add_1_r in IL, IN. cbn [name_cols]. split; [cbn; now rewrite IL|].
    intros [|j] n Hn.
    - injection Hn as <-. eexists. split; [reflexivity|]. cbn [firstn]. rewrite app_nil_r. unfold Named. split; [|split].
      + now intros ->.
      + intros Hx Hb. destruct x as [|c x]; [congruence|]. rewrite filter_count, Hs.
        destruct (count_occ (list_eq_dec ascii_dec) before (c :: x)) eqn:E; auto. exfalso. apply Hb. apply (count_occ_In (list_eq_dec ascii_dec)). rewrite E. apply Nat.lt_0_succ.
      + intros Hx Hb. destruct x as [|c x]; [congruence|]. rewrite filter_count, Hs. apply (count_occ_In (list_eq_dec ascii_dec)) in Hb.
        destruct (count_occ (list_eq_dec ascii_dec) before (c :: x)) eqn:E; [inversion Hb|reflexivity].
    - cbn [nth_error] in *. destruct (IN j n Hn) as (n' & H1 & H2). exists n'. split; auto. cbn [firstn]. now rewrite <- app_assoc in H2.
  Qed.
  Lemma tok_ne s : forall st cur row, ~ In [] (tok st cur row s).
  Proof.
    assert (R : forall (a : str) row, [] <> rev (a :: row)) by (intros a row H; apply (f_equal (@List.length str)) in H; rewrite rev_length in H; discriminate).
    induction s as [|c s IH]; intros st cur row; cbn [tok].
    - destruct st; cbn [In]; intros H; try tauto; destruct H as [H|[]]; symmetry in H; exact (R _ _ H).
    - destruct st; repeat (match goal with |- context [if ?b then _ else _] => destruct b end); try apply IH;
        cbn [In]; intros [H|H]; try (symmetry in H; exact (R _ _ H)); exact (IH _ _ _ H).
  Qed.
  Lemma csv_parse_ne text body : csv_parse text <> [] :: body.
  Proof. unfold csv_parse. intros H. apply (tok_ne text SRec [] []). rewrite H. now left. Qed.
  Lemma all_some_length {A B} (f : A -> option B) l : forall bs, all_some f l = Some bs -> List.length bs = List.length l.
  Proof.
    induction l as [|a l IH]; cbn; intros bs H; [now injection H as <-|].
    destruct (f a); [|discriminate]. destruct (all_some f l) as [r|]; [|discriminate]. injection H as <-. cbn. now rewrite (IH r).
  Qed.
  Lemma map_fst_combine {A B} (a : list A) : forall b : list B, List.length a = List.length b -> map fst (combine a b) = a.
  Proof. induction a as [|x a IH]; intros [|y b] H; try discriminate; auto. cbn. rewrite IH; auto. Qed.
  Theorem names_read text t : read_csv tparse fparse text = Some t -> exists first names body, csv_parse text = (first :: names) :: body /\
    List.length (tb_cols t) = List.length names /\ List.length (tb_times t) = List.length body /\
    forall j n, nth_error names j = Some n -> exists n', nth_error (map fst (tb_cols t)) j = Some n' /\ Named (first :: firstn j names) n n'.
  Proof.
    unfold read_csv. destruct (csv_parse text) as [|header body] eqn:E; [discriminate|]. intros H.
    destruct (forallb _ body); [|discriminate].
    destruct (all_some (fun r => tparse (hd [] r)) body) as [times|] eqn:Et; [|discriminate]. injection H as <-.
    assert (Hh : header <> []).
    { intros ->. revert E. apply csv_parse_ne. }
    destruct header as [|first names]; [congruence|]. exists first, names, body. split; auto. cbn [tb_cols tb_times tl hd].
    destruct (name_cols_named names [first] [first] (fun _ => eq_refl)) as [HL HN].
    split; [|split].
    - rewrite combine_length, map_length, seq_length. apply Nat.min_r, Nat.eq_le_incl. symmetry. exact HL.
    - eapply all_some_length; eauto.
    - intros j n Hn. destruct (HN j n Hn) as (n' & H1 & H2). exists n'. split; auto.
      rewrite map_fst_combine; auto. rewrite map_length, seq_length. exact HL.
  Qed.
  Theorem table_round t : table_ok trepr tparse frepr fparse t -> read_csv tparse fparse (write_csv trepr frepr t) = Some t.
  Proof.
    destruct t as [times cols]. intros (Ht & Hc & Hnd & Hp & Hall). cbn [tb_times tb_cols] in *. unfold read_csv, write_csv. cbn [tb_times tb_cols].
    set (hdr := match times with [] => [] | _ => $"Time" end). set (zr := zip_rows _ _).
    assert (Hzr : Forall (fun r => List.length r = S (List.length cols)) zr).
    { pose proof (zip_row (map trepr times) (map (fun c => col_text (snd c)) cols)) as Z. now rewrite map_length in Z. }
    rewrite text_round.
    2: { constructor; [discriminate|]. eapply Forall_impl; [|exact Hzr]. intros r Hr ->. discriminate. }
    cbn [tl hd List.length]. rewrite map_length.
    assert (Eh : hdr = $"Time") by (unfold hdr; destruct times; [congruence|reflexivity]).
    replace (forallb _ zr) with true.
    2: { symmetry. apply forallb_forall. intros r Hr. rewrite Forall_forall in Hzr. rewrite (Hzr r Hr). apply Nat.leb_refl. }
    assert (E1 : all_some (fun r => tparse (hd [] r)) zr = Some times).
    { rewrite <- (all_some_map tparse (fun r => hd [] r)). unfold zr. rewrite zip_hd, all_some_map.
      rewrite (all_some_id _ (fun x => x)); [now rewrite map_id|exact Hp]. }
    rewrite E1. f_equal. f_equal.
    rewrite name_cols_id.
    2: { apply Forall_map. eapply Forall_impl; [|exact Hall]. cbv beta. tauto. }
    2: { rewrite Eh. exact Hnd. }
    assert (E2 : map (fun i => infer (map (fun r => nth (S i) r []) zr)) (seq 0 (List.length cols)) = map snd cols).
    { apply nth_ext with (d := ColObj []) (d' := ColObj []); [now rewrite !map_length, seq_length|].
      intros i Hi. rewrite map_length, seq_length in Hi.
      rewrite (nth_indep _ (ColObj []) (infer (map (fun r => nth (S (List.length cols)) r []) zr))) by now rewrite map_length, seq_length.
      rewrite (map_nth (fun i => infer (map (fun r => nth (S i) r []) zr)) (seq 0 (List.length cols)) (List.length cols) i).
      rewrite seq_nth by exact Hi. cbn [Nat.add].
      destruct (nth_error cols i) as [[n c]|] eqn:En; [|apply nth_error_None in En; lia].
      assert (Hin : In (n, c) cols) by (eapply nth_error_In; eauto).
      rewrite Forall_forall in Hall. destruct (Hall _ Hin) as (_ & Hlen & Hok). cbn [snd] in *.
      assert (Ec : nth i (map (fun c => col_text (snd c)) cols) [] = col_text c).
      { erewrite nth_error_nth; [reflexivity|]. now rewrite nth_error_map, En. }
      unfold zr. rewrite zip_col by (rewrite Ec, col_text_len, map_length; exact Hlen).
      rewrite Ec. rewrite col_round; auto.
      - erewrite nth_error_nth; [reflexivity|]. now rewrite nth_error_map, En.
      - rewrite Hlen. destruct times; [congruence|discriminate]. }
    rewrite E2. clear. induction cols as [|[n c] cols IH]; auto. cbn. now rewrite IH.
  Qed.
  Theorem empty_round : read_csv tparse fparse (write_csv trepr frepr (Tab [] [])) = Some (Tab [] []).
  Proof. reflexivity. Qed.
End Tables.
