(** Texts of expressions parse to their values. *)
From Coq Require Import List Ascii String ZArith NArith Bool Lia.
From Verif Require Import Lib.PyStr Lib.PyStrFacts Model.Grammar Spec.Grammar Proofs.GrammarT.
Import ListNotations.
Local Open Scope list_scope.

(** ** Characters *)
Ltac all_chars c := destruct c as [[] [] [] [] [] [] [] []]; vm_compute; try reflexivity; try discriminate; try (intros; discriminate).
Lemma start_facts c : id_start c = true -> is_ws c = false /\ is_digit c = false /\ is_ch "+" c || is_ch "-" c = false /\ Ascii.eqb "(" c = false /\ Ascii.eqb c "." = false.
Proof. all_chars c; intros; repeat split; reflexivity. Qed.
Lemma digit_facts c : is_digit c = true -> is_ws c = false /\ id_start c = false /\ is_ch "+" c || is_ch "-" c = false /\ Ascii.eqb "(" c = false /\ id_char c = true.
Proof. all_chars c; intros; repeat split; reflexivity. Qed.
Lemma ws_facts c : is_ws c = true -> id_char c = false /\ Ascii.eqb c "." = false /\ is_ch "+" c || is_ch "-" c = false.
Proof. all_chars c; intros; repeat split; reflexivity. Qed.
Definition opfree (d : ascii) : bool := negb (existsb (Ascii.eqb d) $"*/%<>=!&|").
Lemma ws_opfree c : is_ws c = true -> opfree c = true.
Proof. all_chars c. Qed.
Lemma id_opfree c : id_char c = true -> opfree c = true.
Proof. all_chars c. Qed.

(** ** Skipping *)
Lemma span_all p a r : Forall (fun c => p c = true) a -> match r with c :: _ => p c = false | [] => True end -> span p (a ++ r) = (a, r).
Proof.
  induction 1 as [|c a Hc H IH]; intros Hr; cbn [app span].
  - destruct r as [|c r]; cbn [span]; auto. now rewrite Hr.
  - rewrite Hc, IH by auto. reflexivity.
Qed.
Lemma skip_white w s : white w -> skip (w ++ s) = skip s.
Proof.
  intros H. unfold skip. induction H as [|c w Hc H IH]; auto. cbn [app span]. rewrite Hc. destruct (span is_ws (w ++ s)). exact IH.
Qed.
Lemma skip_head c s : is_ws c = false -> skip (c :: s) = c :: s.
Proof. intros H. unfold skip. cbn [span]. now rewrite H. Qed.
Lemma white_app a b : white a -> white b -> white (a ++ b).
Proof. intros. apply Forall_app. auto. Qed.

(** What may follow. *)
Definition head_ok (s : str) : Prop := match s with c :: _ => id_char c = false /\ c <> "."%char | [] => True end.
Definition Stop (s : str) : Prop := head_ok s /\ head_not $":(" (skip s).
Definition ops_of (k : nat) : list str :=
  match k with 1 => pow_ops | 3 => mult_ops | 4 => sum_ops | 5 => rel_ops | 6 => logical_ops | _ => [] end.
Definition NoOp (l : nat) (s : str) : Prop := forall k, (k <= l)%nat -> one_of (ops_of k) s = None.
Lemma NoOp_le l l' s : (l' <= l)%nat -> NoOp l s -> NoOp l' s.
Proof. intros H N k Hk. apply N. lia. Qed.
Lemma eat_one_head ps c r : Forall (fun p => exists x p', p = x :: p' /\ x <> c) ps -> eat_one ps (c :: r) = None.
Proof.
  induction 1 as [|p ps (x & p' & -> & Hx) H IH]; cbn [eat_one]; auto. cbn [eat]. destruct (Ascii.eqb x c) eqn:E; auto.
  apply Ascii.eqb_eq in E. congruence.
Qed.
Lemma eat_one_nil ps : Forall (fun p => p <> []) ps -> eat_one ps [] = None.
Proof. induction 1 as [|p ps Hp H IH]; cbn [eat_one]; auto. destruct p; [easy|]. exact IH. Qed.
Lemma ops_nonempty k : Forall (fun p => p <> []) (ops_of k).
Proof. destruct k as [|[|[|[|[|[|[|k]]]]]]]; repeat constructor; discriminate. Qed.
Lemma noop_head s : head_not $"*/%+-<>=!&|" (skip s) -> NoOp 6 s.
Proof.
  intros H k _. unfold one_of. destruct (skip s) as [|c r]; [apply eat_one_nil, ops_nonempty|]. apply eat_one_head.
  cbn [head_not] in H. assert (H' : forall x, In x $"*/%+-<>=!&|" -> x <> c) by (intros x Hx ->; auto). clear H.
  destruct k as [|[|[|[|[|[|[|k]]]]]]]; repeat constructor; eexists _, _; (split; [reflexivity|]); apply H'; cbn; tauto.
Qed.
Lemma ends_stop s : Ends s -> Stop s /\ NoOp 6 s.
Proof.
  intros [H1 H2]. split.
  - split; [exact H1|]. destruct (skip s); auto. cbn in *. tauto.
  - apply noop_head. destruct (skip s); auto. cbn in *. tauto.
Qed.
Lemma closing c w s : white w -> c = ")"%char \/ c = ","%char -> Stop (w ++ c :: s) /\ NoOp 6 (w ++ c :: s).
Proof.
  intros Hw Hc. assert (Hs : skip (w ++ c :: s) = c :: s) by (rewrite skip_white by auto; apply skip_head; destruct Hc as [-> | ->]; reflexivity).
  split; [split|].
  - destruct Hw as [|d w Hd Hw]; cbn [app head_ok]; [destruct Hc as [-> | ->]; split; [reflexivity|discriminate|reflexivity|discriminate]|].
    apply ws_facts in Hd as (A & B & _). split; auto. intros ->. discriminate.
  - rewrite Hs. cbn. destruct Hc as [-> | ->]; intuition discriminate.
  - apply noop_head. rewrite Hs. cbn. destruct Hc as [-> | ->]; intuition discriminate.
Qed.

(** ** Operators *)
Definition bin (l : nat) : Prop := l = 1%nat \/ l = 3%nat \/ l = 4%nat \/ l = 5%nat \/ l = 6%nat.
Lemma op_bin op l : op_level op l -> bin l.
Proof. intros (ops & H & _). unfold bin. cbn in H. intuition congruence. Qed.
Lemma op_ok op l w d r : op_level op (S l) -> white w -> opfree d = true ->
  one_of (ops_of (S l)) (w ++ op ++ d :: r) = Some (op, d :: r) /\ NoOp l (w ++ op ++ d :: r) /\ Stop (w ++ op ++ d :: r).
Proof.
  intros (ops & Hl & Ho) Hw Hd.
  assert (Hd' : forall x, In x $"*/%<>=!&|" -> Ascii.eqb x d = false).
  { intros x Hx. destruct (Ascii.eqb x d) eqn:E; auto. apply Ascii.eqb_eq in E as ->. unfold opfree in Hd. apply negb_true_iff in Hd.
    rewrite <- not_true_iff_false in Hd. elim Hd. apply existsb_exists. exists d. split; auto. apply Ascii.eqb_refl. }
  assert (D1 := Hd' "*"%char ltac:(cbn; tauto)). assert (D2 := Hd' "/"%char ltac:(cbn; tauto)).
  assert (D3 := Hd' "="%char ltac:(cbn; tauto)). assert (D4 := Hd' "&"%char ltac:(cbn; tauto)). assert (D5 := Hd' "|"%char ltac:(cbn; tauto)).
  cbn in D1, D2, D3, D4, D5.
  assert (Hhead : exists c op', op = c :: op' /\ is_ws c = false /\ id_char c = false /\ c <> "."%char /\ ~ In c $":(").
  { cbn in Hl. repeat destruct Hl as [Hl|Hl]; try easy; injection Hl as <- <-; cbn in Ho; repeat destruct Ho as [Ho|Ho]; try easy; subst op;
      eexists _, _; (split; [reflexivity|]); repeat split; try reflexivity; try discriminate; cbn; intuition discriminate. }
  destruct Hhead as (c & op' & Eop & Hc1 & Hc2 & Hc3 & Hc4).
  assert (Hs : skip (w ++ op ++ d :: r) = op ++ d :: r) by (rewrite skip_white by auto; rewrite Eop; now apply skip_head).
  split; [|split; [|split]].
  - unfold one_of. rewrite Hs. clear Hs Eop. cbn in Hl. repeat destruct Hl as [Hl|Hl]; try easy; injection Hl as <- <-; cbn in Ho;
      repeat destruct Ho as [Ho|Ho]; try easy; subst op; cbn; rewrite ?D1, ?D2, ?D3, ?D4, ?D5; reflexivity.
  - intros k Hk. unfold one_of. rewrite Hs. clear Hs Eop. cbn in Hl. repeat destruct Hl as [Hl|Hl]; try easy; injection Hl as <- <-; cbn in Ho;
      repeat destruct Ho as [Ho|Ho]; try easy; subst op; destruct k as [|[|[|[|[|[|k]]]]]]; try lia; cbn; rewrite ?D1, ?D2, ?D3, ?D4, ?D5; reflexivity.
  - destruct Hw as [|x w Hx Hw]; cbn [app head_ok].
    + rewrite Eop. cbn. auto.
    + apply ws_facts in Hx as (A & B & _). split; auto. intros ->. discriminate.
  - rewrite Hs, Eop. exact Hc4.
Qed.

(** ** Tokens *)
Lemma head_span r : head_ok r -> match r with c :: _ => id_char c = false | [] => True end.
Proof. destruct r; cbn; tauto. Qed.
Lemma head_digit r : head_ok r -> match r with c :: _ => is_digit c = false | [] => True end.
Proof. destruct r as [|c r]; cbn; auto. intros [H _]. destruct (is_digit c) eqn:E; auto. apply digit_facts in E as (_ & _ & _ & _ & E). congruence. Qed.
Lemma ident_name s r : Name s -> match r with c :: _ => id_char c = false | [] => True end -> ident (s ++ r) = Some (s, r).
Proof. intros (c & s' & -> & Hc & Hs) Hr. cbn [app ident]. rewrite Hc, (span_all id_char s' r) by auto. reflexivity. Qed.
Lemma dotted_parse ev : Dotted ev -> forall r, head_ok r -> exists a x b, ident (ev ++ r) = Some (a, b) /\ ev = a ++ x /\
  forall n, (List.length b <= n)%nat -> dotted n b = (x, r).
Proof.
  induction 1 as [s Hs|s t Hs Ht IH]; intros r Hr.
  - exists s, [], r. split; [apply ident_name; auto; now apply head_span|]. split; [now rewrite app_nil_r|].
    intros n Hn. destruct n, r as [|c r]; cbn in Hn; try lia; try reflexivity. cbn [dotted]. destruct Hr as [_ Hr]. now rewrite match_dot.
  - destruct (IH r Hr) as (a & x & b & E & -> & Hd). exists s, ("."%char :: a ++ x), ("."%char :: (a ++ x) ++ r).
    split; [rewrite <- app_assoc; cbn [app]; apply ident_name; auto; reflexivity|]. split; auto.
    intros n Hn. destruct n as [|n]; [cbn in Hn; lia|]. cbn [dotted]. rewrite E. rewrite Hd; [reflexivity|].
    apply ident_len in E. cbn in Hn. lia.
Qed.
Lemma dotted_start ev : Dotted ev -> exists c r, ev = c :: r /\ id_start c = true.
Proof. intros H. destruct H as [s (c & r & -> & H & _)|s t (c & r & -> & H & _) _]; eauto. cbn. eauto. Qed.
Lemma func_name_dotted w ev r : white w -> Dotted ev -> head_ok r -> func_name (w ++ ev ++ r) = Some (ev, r).
Proof.
  intros Hw He Hr. unfold func_name. rewrite skip_white by auto. destruct (dotted_start ev He) as (c & ev' & Ec & Hc).
  assert (Hs : skip (ev ++ r) = ev ++ r). { rewrite Ec. cbn [app]. apply skip_head. now apply start_facts. }
  rewrite Hs. destruct (dotted_parse ev He r Hr) as (a & x & b & E & -> & Hd). rewrite E, Hd by lia. reflexivity.
Qed.
Lemma func_name_head w c r : white w -> is_ws c = false -> id_start c = false -> func_name (w ++ c :: r) = None.
Proof. intros Hw H1 H2. unfold func_name. rewrite skip_white, skip_head by auto. cbn [ident]. now rewrite H2. Qed.
Lemma lit_head w c r : white w -> is_ws c = false -> literal [c] (w ++ c :: r) = Some r.
Proof. intros Hw Hc. unfold literal. rewrite skip_white, skip_head by auto. cbn [eat]. now rewrite Ascii.eqb_refl. Qed.
Lemma lit_none c r : head_not [c] (skip r) -> literal [c] r = None.
Proof.
  unfold literal. destruct (skip r) as [|d s]; cbn; auto. intros H. destruct (Ascii.eqb c d) eqn:E; auto. apply Ascii.eqb_eq in E. subst. tauto.
Qed.
Lemma stop_colon r : Stop r -> literal $":" r = None /\ literal $"(" r = None.
Proof. intros [_ H]. split; apply lit_none; destruct (skip r); cbn in *; tauto. Qed.
Lemma digits1_ok d r : digits d -> match r with c :: _ => is_digit c = false | [] => True end -> digits1 (d ++ r) = Some (d, r).
Proof. intros [Hn Hd] Hr. unfold digits1. rewrite span_all by auto. destruct d; easy. Qed.
Lemma digits_head d : digits d -> exists c d', d = c :: d' /\ is_digit c = true.
Proof. intros [Hn Hd]. destruct d as [|c d]; [easy|]. inversion Hd; subst. eauto. Qed.
Definition optsign (g : str) : Prop := In g [[]; ["+"%char]; ["-"%char]].
Lemma sign_ok g c r : optsign g -> is_digit c = true -> sign (g ++ c :: r) = (g, c :: r).
Proof.
  intros [<-|[<-|[<-|[]]]] H; cbn [app sign]; try reflexivity. apply digit_facts in H as (_ & _ & -> & _). reflexivity.
Qed.
Lemma exponent_none r : head_ok r -> exponent r = ([], r).
Proof.
  destruct r as [|c r]; cbn [head_ok exponent]; auto. intros [H _]. replace (is_ch "e" c || is_ch "E" c) with false; auto.
  symmetry. apply not_true_iff_false. intros E. apply orb_true_iff in E as [E|E]; unfold is_ch in E; apply Ascii.eqb_eq in E; subst; discriminate.
Qed.
Lemma number_head n : Number n -> exists c r, n = c :: r /\ is_digit c = true.
Proof.
  intros H. destruct H as [d Hd|d f Hd _|d f e g x Hd _ _ _ _]; destruct (digits_head _ Hd) as (c & d' & -> & Hc); cbn; eauto.
Qed.
Lemma number_tokens g n r : optsign g -> Number n -> head_ok r ->
  real (g ++ n ++ r) = Some (g ++ n, r) \/ (real (g ++ n ++ r) = None /\ integer (g ++ n ++ r) = Some (g ++ n, r)).
Proof.
  intros Hg Hn Hr. destruct (number_head n Hn) as (c & n' & En & Hc).
  assert (Hs : skip (g ++ n ++ r) = g ++ n ++ r).
  { rewrite En. destruct Hg as [<-|[<-|[<-|[]]]]; cbn [app]; apply skip_head; try reflexivity. now apply digit_facts in Hc as (-> & _). }
  assert (Hsg : sign (g ++ n ++ r) = (g, n ++ r)) by (rewrite En; now apply sign_ok).
  unfold real, integer. rewrite Hs, Hsg. clear Hs Hsg En Hc c n'.
  destruct Hn as [d Hd|d f Hd Hf|d f e h x Hd Hf He Hh Hx].
  - right. rewrite digits1_ok by (auto; now apply head_digit). split; auto. destruct r as [|c r]; auto. destruct Hr as [_ Hr]. now rewrite match_dot.
  - left. rewrite <- app_assoc. cbn [app]. rewrite digits1_ok by (auto; reflexivity). rewrite span_all by (auto; now apply head_digit).
    rewrite exponent_none by auto. now rewrite app_nil_r.
  - left. rewrite <- app_assoc. cbn [app]. rewrite digits1_ok by (auto; reflexivity). rewrite <- app_assoc. cbn [app].
    rewrite span_all; [|auto|destruct He as [<-|[<-|[]]]; reflexivity].
    destruct (digits_head x Hx) as (c & x' & Ex & Hc).
    assert (E : exponent (e :: (h ++ x) ++ r) = (e :: h ++ x, r)).
    { cbn [exponent]. replace (is_ch "e" e || is_ch "E" e) with true by (destruct He as [<-|[<-|[]]]; reflexivity).
      rewrite <- app_assoc. rewrite Ex at 1. cbn [app]. rewrite sign_ok by auto. change (c :: x' ++ r) with ((c :: x') ++ r). rewrite <- Ex.
      rewrite digits1_ok by (auto; now apply head_digit). reflexivity. }
    rewrite E. reflexivity.
Qed.
Lemma real_white w s : white w -> real (w ++ s) = real s.
Proof. intros H. unfold real. now rewrite skip_white. Qed.
Lemma integer_white w s : white w -> integer (w ++ s) = integer s.
Proof. intros H. unfold integer. now rewrite skip_white. Qed.
Section Atoms.
  Context (rec : parser) {V : Type} (en : env V) (vrec : vparser V).
  Lemma name_numbers w x r : white w -> Name x -> real (w ++ x ++ r) = None /\ integer (w ++ x ++ r) = None.
  Proof.
    intros Hw (c & x' & -> & Hc & _). rewrite real_white, integer_white by auto. apply start_facts in Hc as (C1 & C2 & C3 & _).
    unfold real, integer. cbn [app]. rewrite skip_head by auto. cbn [sign]. rewrite C3. unfold digits1. cbn [span]. rewrite C2. auto.
  Qed.
  (** What [s] starts with is an operand of [var_id]. *)
  Definition Var (s : str) (t : ast) (r : str) : Prop := p_call rec s = PNo /\ v_call en vrec s = VNo /\ p_var s = PYes t r.
  Lemma var_base s t r : Var s t r -> p_base rec s = PYes t r.
  Proof. intros (A & _ & B). unfold p_base. now rewrite A, B. Qed.
  Lemma var_number w g n r : white w -> optsign g -> Number n -> Stop r -> Var (w ++ g ++ n ++ r) (ANum (g ++ n)) r.
  Proof.
    intros Hw Hg Hn Hr. destruct (number_head n Hn) as (c & n' & En & Hc). apply digit_facts in Hc as (C1 & C2 & _).
    assert (Hf : func_name (w ++ g ++ n ++ r) = None).
    { rewrite En. destruct Hg as [<-|[<-|[<-|[]]]]; cbn [app]; apply func_name_head; auto; reflexivity. }
    unfold Var, p_call, v_call, p_var, p_acc. rewrite Hf, real_white, integer_white by auto.
    destruct (number_tokens g n r Hg Hn (proj1 Hr)) as [->|[-> ->]]; auto.
  Qed.
  Lemma var_name w x r : white w -> Name x -> Stop r -> Var (w ++ x ++ r) (AId x) r.
  Proof.
    intros Hw Hx Hr. destruct (stop_colon r Hr) as [Hc Hp]. unfold Var, p_call, v_call, p_var, p_acc.
    rewrite func_name_dotted by (auto using D_one; apply Hr). rewrite Hp, Hc. destruct (name_numbers w x r Hw Hx) as [-> ->].
    rewrite skip_white by auto. assert (Hs : skip (x ++ r) = x ++ r).
    { destruct Hx as (c & x' & -> & H & _). apply skip_head. now apply start_facts. }
    rewrite Hs, ident_name by (auto; apply head_span; apply Hr). auto.
  Qed.
  Lemma ws_head_ok w c r : white w -> id_char c = false -> c <> "."%char -> head_ok (w ++ c :: r).
  Proof.
    intros Hw H1 H2. destruct Hw as [|x w Hx Hw]; cbn [app head_ok]; auto. apply ws_facts in Hx as (A & B & _). split; auto. intros ->. discriminate.
  Qed.
  Lemma var_acc w ev w1 w2 c r : white w -> Dotted ev -> white w1 -> white w2 -> Name c -> head_ok r ->
    Var (w ++ (ev ++ w1 ++ ":"%char :: w2 ++ c) ++ r) (AAcc ev c) r.
  Proof.
    intros Hw He H1 H2 Hc Hr. replace (w ++ (ev ++ w1 ++ ":"%char :: w2 ++ c) ++ r) with (w ++ ev ++ (w1 ++ ":"%char :: w2 ++ c ++ r)) by (repeat (rewrite <- app_assoc; cbn [app]); reflexivity).
    unfold Var, p_call, v_call, p_var, p_acc. rewrite func_name_dotted by (auto; apply ws_head_ok; auto; discriminate).
    rewrite (lit_none "("%char) by (rewrite skip_white, skip_head by auto; cbn; intuition discriminate).
    rewrite (lit_head w1 ":"%char) by auto. rewrite skip_white by auto.
    assert (Hs : skip (c ++ r) = c ++ r). { destruct Hc as (x & x' & -> & H & _). apply skip_head. now apply start_facts. }
    rewrite Hs, ident_name by (auto; now apply head_span). auto.
  Qed.
  Lemma base_paren w s : white w -> p_base rec (w ++ "("%char :: s) = p_paren rec (w ++ "("%char :: s) /\
    v_base en vrec (w ++ "("%char :: s) = v_paren vrec (w ++ "("%char :: s).
  Proof.
    intros Hw. unfold p_base, v_base, v_var, p_call, v_call, p_var, p_acc. rewrite func_name_head by auto. rewrite real_white, integer_white, skip_white by auto.
    unfold real, integer. rewrite skip_head by auto. split; reflexivity.
  Qed.
End Atoms.

(** ** Starts *)
Scheme Text_ind2 := Minimality for Text Sort Prop with Texts_ind2 := Minimality for Texts Sort Prop.
Lemma text_start l e s : Text l e s -> exists w c r, s = w ++ c :: r /\ white w /\ is_ws c = false /\ opfree c = true /\ ((l <= 1)%nat -> is_ch "+" c || is_ch "-" c = false).
Proof.
  induction 1 as [n Hn|x Hx|ev w1 w2 c He|e s w|f w1 a s l t w2 Hf|op e s Hop H IH|l op a s b t w Ho Ha IHa Hb IHb Hw|a s w1 w2 g n Ha IHa|l e s Hl H IH|l e s w Hw H IH].
  - destruct (number_head n Hn) as (c & r & -> & Hc). exists [], c, r. apply digit_facts in Hc as (A & B & C & D & E). repeat split; auto; [constructor|now apply id_opfree].
  - destruct Hx as (c & r & -> & Hc & _). exists [], c, r. pose proof (start_facts c Hc) as (A & B & C & D & E). repeat split; auto; [constructor|apply id_opfree; unfold id_char; now rewrite Hc].
  - destruct (dotted_start ev He) as (c' & r & -> & Hc). exists [], c', (r ++ w1 ++ ":"%char :: w2 ++ c). pose proof (start_facts c' Hc) as (A & B & C & D & E). repeat split; auto; [constructor|apply id_opfree; unfold id_char; now rewrite Hc].
  - exists [], "("%char, (s ++ w ++ [")"%char]). repeat split; auto. constructor.
  - destruct (dotted_start f Hf) as (c & r & -> & Hc). exists [], c, (r ++ w1 ++ "("%char :: s ++ t ++ w2 ++ [")"%char]). pose proof (start_facts c Hc) as (A & B & C & D & E). repeat split; auto; [constructor|apply id_opfree; unfold id_char; now rewrite Hc].
  - exists [], op, s. destruct Hop as [-> | ->]; repeat split; auto; try constructor; lia.
  - destruct IHa as (w' & c & r & -> & A & B & C & D). exists w', c, (r ++ w ++ op ++ t). rewrite <- app_assoc. repeat split; auto.
  - destruct IHa as (w' & c & r & -> & A & B & C & D). exists w', c, (r ++ w1 ++ $"**" ++ w2 ++ g :: n). rewrite <- app_assoc. repeat split; auto.
  - destruct IH as (w' & c & r & -> & A & B & C & D). exists w', c, r. repeat split; auto. intros. apply D. lia.
  - destruct IH as (w' & c & r & -> & A & B & C & D). exists (w ++ w'), c, r. rewrite app_assoc. repeat split; auto. now apply white_app.
Qed.
Lemma text_first l e s : Text l e s -> exists d r, s = d :: r /\ opfree d = true.
Proof.
  intros H. destruct (text_start l e s H) as (w & c & r & -> & Hw & _ & Hc & _). destruct Hw as [|x w Hx Hw]; cbn; eauto using ws_opfree.
Qed.

(** ** Chains *)
Inductive Chain (ops : list str) (term : parser) : str -> list (str * ast) -> str -> Prop :=
| C_nil s : Chain ops term s [] s
| C_cons s o s1 t s2 l r : one_of ops s = Some (o, s1) -> term s1 = PYes t s2 -> (List.length s2 < List.length s)%nat ->
    Chain ops term s2 l r -> Chain ops term s ((o, t) :: l) r.
Lemma chain_snoc ops term s l r o s1 t s2 : Chain ops term s l r -> one_of ops r = Some (o, s1) -> term s1 = PYes t s2 -> (List.length s2 < List.length r)%nat ->
  Chain ops term s (l ++ [(o, t)]) s2.
Proof. induction 1; intros; cbn [app]; econstructor; eauto. constructor. Qed.
Lemma chain_rest ops term s l r : Chain ops term s l r -> one_of ops r = None -> forall n, (List.length s < n)%nat -> p_rest ops term n s = PYes l r.
Proof.
  induction 1 as [s|s o s1 t s2 l r E1 E2 L C IH]; intros Hr n Hn; destruct n as [|n]; try lia; cbn [p_rest].
  - now rewrite Hr.
  - rewrite E1, E2, IH by (auto; lia). reflexivity.
Qed.
Lemma level_bin rec l : bin (S l) -> level rec (S l) = p_binary (ops_of (S l)) (level rec l).
Proof. intros [E|[E|[E|[E|E]]]]; injection E as ->; reflexivity. Qed.
Lemma v_level_bin {V} (en : env V) rec syn l : bin (S l) -> v_level en rec syn (S l) = v_binary en (ops_of (S l)) (level syn l) (v_level en rec syn l).
Proof. intros [E|[E|[E|[E|E]]]]; injection E as ->; reflexivity. Qed.

Section Main.
  Context {V : Type} (en : env V).
  (** The outcome [y] followed by [rest]; if there is no IndexError, an exception
      is one. *)
  Definition gives (x : vres V) (y : res V) (rest : str) : Prop :=
    match y with Ok v => x = VYes v rest | Err _ => NoIndex en -> exists e, x = VErr e end.
  Lemma gives_act y rest : (NoIndex en -> y <> Err EIndex) -> gives (act y rest) y rest.
  Proof. intros H. destruct y as [v|e]; [reflexivity|]. intros N. specialize (H N). destruct e; cbn; eauto. easy. Qed.
  Lemma gives_else x y z rest : gives x y rest -> gives (match x with VNo => z | VFuel => VFuel | VErr e => VErr e | VYes v r => VYes v r end) y rest.
  Proof. destruct y as [v|e]; cbn; [now intros ->|]. intros H N. destruct (H N) as [e' ->]. eauto. Qed.
  (** The terms of a chain with their values, or one of them raises. *)
  Inductive VChain (ops : list str) (term : vparser V) : str -> option (list (str * V)) -> str -> Prop :=
  | VC_nil s : VChain ops term s (Some []) s
  | VC_cons s o s1 v s2 l r : one_of ops s = Some (o, s1) -> term s1 = VYes v s2 -> (List.length s2 < List.length s)%nat ->
      VChain ops term s2 l r -> VChain ops term s (option_map (cons (o, v)) l) r
  | VC_err s o s1 e r : one_of ops s = Some (o, s1) -> term s1 = VErr e -> VChain ops term s None r.
  Lemma vchain_snoc ops term s l0 r o s1 v s2 : VChain ops term s l0 r -> forall l, l0 = Some l -> one_of ops r = Some (o, s1) -> term s1 = VYes v s2 -> (List.length s2 < List.length r)%nat ->
    VChain ops term s (Some (l ++ [(o, v)])) s2.
  Proof.
    induction 1 as [s|s o' s1' v' s2' l0 r E1 E2 L C IH|s o' s1' e r E1 E2]; intros l El H1 H2 H3.
    - injection El as <-. cbn [app]. change (Some [(o, v)]) with (option_map (cons (o, v)) (Some (@nil (str * V)))). econstructor; eauto. constructor.
    - destruct l0 as [l0|]; [|discriminate]. injection El as <-. cbn [app]. change (Some ((o', v') :: l0 ++ [(o, v)])) with (option_map (cons (o', v')) (Some (l0 ++ [(o, v)]))). econstructor; eauto.
    - discriminate.
  Qed.
  Lemma vchain_raise ops term s l0 r o s1 e r' : VChain ops term s l0 r -> one_of ops r = Some (o, s1) -> term s1 = VErr e -> VChain ops term s None r'.
  Proof.
    induction 1 as [s|s o' s1' v' s2' l0 r E1 E2 L C IH|s o' s1' x r E1 E2]; intros H1 H2.
    - econstructor; eauto.
    - change (@None (list (str * V))) with (option_map (cons (o', v')) None). econstructor; eauto.
    - econstructor; eauto.
  Qed.
  Lemma vchain_none ops term s l0 r r' : VChain ops term s l0 r -> l0 = None -> VChain ops term s None r'.
  Proof.
    induction 1 as [s|s o' s1' v' s2' l0 r E1 E2 L C IH|s o' s1' x r E1 E2]; intros E; [discriminate| |].
    - destruct l0; [discriminate|]. change (@None (list (str * V))) with (option_map (cons (o', v')) None). econstructor; eauto.
    - econstructor; eauto.
  Qed.
  Lemma vchain_rest ops term s l0 r : VChain ops term s l0 r -> one_of ops r = None -> forall n, (List.length s < n)%nat ->
    match l0 with Some l => v_rest ops term n s = VYes l r | None => exists e, v_rest ops term n s = VErr e end.
  Proof.
    induction 1 as [s|s o s1 t s2 l r E1 E2 L C IH|s o s1 e r E1 E2]; intros Hr n Hn; destruct n as [|n]; try lia; cbn [v_rest].
    - now rewrite Hr.
    - rewrite E1, E2. specialize (IH Hr n ltac:(lia)). destruct l as [l|]; cbn [option_map]; [now rewrite IH|]. destruct IH as [e ->]. eauto.
    - rewrite E1, E2. eauto.
  Qed.
  Lemma vchain_op ops term s l0 r : VChain ops term s l0 r -> l0 = None -> one_of ops s <> None.
  Proof. destruct 1; intros E; [discriminate|congruence|congruence]. Qed.
  Lemma fold_app v l o w : fold_ops en v (l ++ [(o, w)]) = do x <- fold_ops en v l ;; e_op en o x w.
  Proof.
    revert v. induction l as [|[o' b] l IH]; intros v; cbn [app fold_ops bind].
    - destruct (e_op en o v w); reflexivity.
    - destruct (e_op en o' v b); cbn [bind]; auto.
  Qed.
  Lemma fold_index v l : NoIndex en -> fold_ops en v l <> Err EIndex.
  Proof.
    intros N. revert v. induction l as [|[o w] l IH]; intros v; cbn [fold_ops]; [discriminate|].
    destruct (e_op en o v w) as [x|e] eqn:E; cbn [bind]; auto. intros [= ->]. destruct N as (_ & _ & _ & _ & _ & N). now apply N in E.
  Qed.
  (** The values of a chain whose terms are [l0]. *)
  Definition chain_gives (ops : list str) (term : vparser V) (s s1 rest : str) (l0 : list (str * ast)) (y : res V) : Prop :=
    match y with
    | Ok v => exists v0 vl, term s = VYes v0 s1 /\ VChain ops term s1 (Some vl) rest /\ List.length vl = List.length l0 /\ fold_ops en v0 vl = Ok v
    | Err _ => NoIndex en -> (exists e, term s = VErr e) \/
        exists v0, term s = VYes v0 s1 /\ (VChain ops term s1 None rest \/
          exists vl e, VChain ops term s1 (Some vl) rest /\ List.length vl = List.length l0 /\ fold_ops en v0 vl = Err e)
    end.
  Lemma chain_gives_nil ops term s rest y : gives (term s) y rest -> chain_gives ops term s rest rest [] y.
  Proof.
    destruct y as [v|e]; cbn.
    - intros E. exists v, []. repeat split; auto. constructor.
    - intros H N. left. auto.
  Qed.
  Lemma chain_gives_snoc ops term s s1 r l0 y o s2 t z rest : chain_gives ops term s s1 r l0 y -> one_of ops r = Some (o, s2) ->
    gives (term s2) z rest -> (List.length rest < List.length r)%nat ->
    chain_gives ops term s s1 rest (l0 ++ [(o, t)]) (do v <- y ;; do w <- z ;; e_op en o v w).
  Proof.
    intros H1 Ho H2 L. destruct y as [v|e]; cbn [bind].
    - destruct H1 as (v0 & vl & E1 & C & Ll & F). destruct z as [w|e]; cbn [bind].
      + pose proof (vchain_snoc _ _ _ _ _ _ _ _ _ C vl eq_refl Ho H2 L) as C'.
        assert (F' : fold_ops en v0 (vl ++ [(o, w)]) = e_op en o v w) by (rewrite fold_app, F; reflexivity).
        destruct (e_op en o v w) as [x|e] eqn:E.
        * exists v0, (vl ++ [(o, w)]). rewrite !app_length, Ll. cbn. auto.
        * intros N. right. exists v0. split; auto. right. exists (vl ++ [(o, w)]), e. rewrite !app_length, Ll. cbn. auto.
      + intros N. right. exists v0. split; auto. left. destruct (H2 N) as [x Ex]. eapply vchain_raise; eauto.
    - intros N. destruct (H1 N) as [Hx|(v0 & E1 & [C|(vl & x & C & Ll & F)])].
      + now left.
      + right. exists v0. split; auto. left. eapply vchain_none; eauto.
      + right. exists v0. split; auto. destruct z as [w|e']; cbn in H2.
        * right. exists (vl ++ [(o, w)]), x. repeat split; [eapply vchain_snoc; eauto|rewrite !app_length, Ll; reflexivity|]. rewrite fold_app, F. reflexivity.
        * left. destruct (H2 N) as [x' Ex]. eapply vchain_raise; eauto.
  Qed.
  (** A chain at its level. *)
  Lemma binary_gives ops syn term s t0 s1 l0 rest y : syn s = PYes t0 s1 -> Chain ops syn s1 l0 rest -> one_of ops rest = None ->
    chain_gives ops term s s1 rest l0 y -> gives (v_binary en ops syn term s) y rest.
  Proof.
    intros E C Ho H. unfold v_binary, look. rewrite E. destruct C as [r|s1 o s2 t s3 l r E1 E2 L C].
    - rewrite Ho. destruct y as [v|e]; cbn in *.
      + destruct H as (v0 & vl & E0 & C & Ll & F). destruct vl; [|discriminate]. injection F as ->. exact E0.
      + intros N. destruct (H N) as [Hx|(v0 & E0 & [C|(vl & x & C & Ll & F)])]; auto.
        * now apply vchain_op in C.
        * destruct vl; discriminate.
    - rewrite E1, E2. apply gives_else. destruct y as [v|e]; cbn [gives chain_gives] in *.
      + destruct H as (v0 & vl & E0 & C' & Ll & F). rewrite E0. pose proof (vchain_rest _ _ _ _ _ C' Ho _ (Nat.lt_succ_diag_r _)) as R. cbv beta iota in R |- *. rewrite R.
        destruct vl as [|x vl]; [discriminate|]. rewrite F. reflexivity.
      + intros N. destruct (H N) as [[x Hx]|(v0 & E0 & [C'|(vl & x & C' & Ll & F)])].
        * rewrite Hx. eauto.
        * rewrite E0. destruct (vchain_rest _ _ _ _ _ C' Ho _ (Nat.lt_succ_diag_r _)) as [x R]. cbv beta iota. rewrite R. eauto.
        * rewrite E0. pose proof (vchain_rest _ _ _ _ _ C' Ho _ (Nat.lt_succ_diag_r _)) as R. cbv beta iota in R |- *. rewrite R. destruct vl as [|p vl]; [discriminate|].
          rewrite F. pose proof (fold_index v0 (p :: vl) N) as Nx. destruct x; cbn; eauto. congruence.
  Qed.

  Definition MainOk (l : nat) (e : exp) (s : str) : Prop := forall n w rest, white w -> (List.length (w ++ s ++ rest) <= n)%nat -> Stop rest -> NoOp l rest ->
    (exists t, level (arith n) l (w ++ s ++ rest) = PYes t rest) /\ gives (v_level en (v_arith en n) (arith n) l (w ++ s ++ rest)) (value en e) rest.
  Definition ChainOk (l : nat) (e : exp) (s : str) : Prop := forall n w rest, white w -> (List.length (w ++ s ++ rest) <= n)%nat -> Stop rest -> NoOp (l - 1) rest ->
    exists t0 l0 s1, level (arith n) (l - 1) (w ++ s ++ rest) = PYes t0 s1 /\ Chain (ops_of l) (level (arith n) (l - 1)) s1 l0 rest /\
      chain_gives (ops_of l) (v_level en (v_arith en n) (arith n) (l - 1)) (w ++ s ++ rest) s1 rest l0 (value en e).
  Definition UnaryOk (e : exp) (s : str) : Prop := forall n m w rest, white w -> (List.length (w ++ s ++ rest) <= n)%nat -> (List.length (w ++ s ++ rest) < m)%nat -> Stop rest -> NoOp 1 rest ->
    (exists t, p_unary (level (arith n) 1) m (w ++ s ++ rest) = PYes t rest) /\
    gives (v_unary en (level (arith n) 1) (v_level en (v_arith en n) (arith n) 1) m (w ++ s ++ rest)) (value en e) rest.
  Definition TextOk (l : nat) (e : exp) (s : str) : Prop := MainOk l e s /\ (bin l -> ChainOk l e s) /\ (l = 2%nat -> UnaryOk e s).
  Definition values (l : list exp) : res (list V) :=
    (fix values (l : list exp) : res (list V) :=
       match l with [] => Ok [] | a :: r => do v <- value en a ;; do vs <- values r ;; Ok (v :: vs) end) l.
  Definition ArgsOk (l : list exp) (s : str) : Prop := forall n w rest, white w -> (List.length (s ++ w ++ ")"%char :: rest) < n)%nat ->
    forall m, (List.length (s ++ w ++ ")"%char :: rest) < m)%nat ->
    (exists ts, p_more (arith n) m (s ++ w ++ ")"%char :: rest) = PYes ts (w ++ ")"%char :: rest)) /\
    match values l with
    | Ok vs => v_more (v_arith en n) m (s ++ w ++ ")"%char :: rest) = VYes vs (w ++ ")"%char :: rest)
    | Err _ => NoIndex en -> exists e, v_more (v_arith en n) m (s ++ w ++ ")"%char :: rest) = VErr e
    end.

  Lemma main_of_chain l e s : bin l -> ChainOk l e s -> MainOk l e s.
  Proof.
    intros B C n w rest Hw L Hs Hn. destruct l as [|l]; [destruct B as [E|[E|[E|[E|E]]]]; discriminate|].
    destruct (C n w rest Hw L Hs) as (t0 & l0 & s1 & E & Hc & A). { apply (NoOp_le (S l)); auto. lia. }
    replace (S l - 1)%nat with l in * by lia. rewrite level_bin, v_level_bin by auto. split; [|eapply binary_gives; eauto].
    unfold p_binary. rewrite E.
    rewrite (chain_rest _ _ _ _ _ Hc) by (auto; apply Hn; lia). destruct l0 as [|x l0]; eauto.
  Qed.
  Lemma main_of_unary e s : UnaryOk e s -> MainOk 2 e s.
  Proof.
    intros U n w rest Hw L Hs Hn. apply (U n (S (List.length (w ++ s ++ rest))) w rest); auto.
    apply (NoOp_le 2); auto.
  Qed.
  Lemma arith_level n : (0 < n)%nat -> exists n', n = S n' /\ arith n = level (arith n') 6 /\ v_arith en n = v_level en (v_arith en n') (arith n') 6.
  Proof. intros H. destruct n as [|n]; [lia|]. eauto. Qed.
  Lemma base_var rec s : v_call en rec s = VNo -> forall y rest, gives (v_var en s) y rest -> gives (v_base en rec s) y rest.
  Proof. intros E y rest H. unfold v_base. rewrite E. now apply gives_else. Qed.
  Ltac lens := rewrite ?app_length in *; cbn [List.length] in *; rewrite ?app_length in *; cbn [List.length] in *; try lia.
  Ltac assoc := cbn [app]; repeat (rewrite <- app_assoc; cbn [app]).
  Lemma not_bin0 : ~ bin 0. Proof. intros [E|[E|[E|[E|E]]]]; discriminate. Qed.
  Lemma atom e s : MainOk 0 e s -> TextOk 0 e s.
  Proof. intros H. split; auto. split; [intros B; now apply not_bin0 in B|discriminate]. Qed.
  Lemma text_ok : forall l e s, Text l e s -> TextOk l e s.
  Proof.
    apply (Text_ind2 TextOk ArgsOk).
    - (* number *) intros x Hx. apply atom. intros n w rest Hw L Hs Hn. cbn [level v_level].
      pose proof (var_number (arith n) en (v_arith en n) w [] x rest Hw ltac:(now left) Hx Hs) as Hv. split; [eauto using var_base|].
      destruct Hv as (_ & A & B). apply base_var; [exact A|]. unfold v_var. cbn [app] in B. rewrite B. reflexivity.
    - (* variable *) intros x Hx. apply atom. intros n w rest Hw L Hs Hn. cbn [level v_level].
      pose proof (var_name (arith n) en (v_arith en n) w x rest Hw Hx Hs) as Hv. split; [eauto using var_base|].
      destruct Hv as (_ & A & B). apply base_var; [exact A|]. unfold v_var. rewrite B. apply gives_act. intros N. apply N.
    - (* accessor *) intros evn w1 w2 c He H1 H2 Hc. apply atom. intros n w rest Hw L Hs Hn. cbn [level v_level].
      pose proof (var_acc (arith n) en (v_arith en n) w evn w1 w2 c rest Hw He H1 H2 Hc (proj1 Hs)) as Hv. split; [eauto using var_base|].
      destruct Hv as (_ & A & B). apply base_var; [exact A|]. unfold v_var. rewrite B. apply gives_act. intros N. apply N.
    - (* parentheses *) intros e s w0 Ht (M & _ & _) Hw0. apply atom. intros n w rest Hw L Hs Hn. cbn [level v_level].
      assoc. destruct (base_paren (arith n) en (v_arith en n) w (s ++ w0 ++ ")"%char :: rest) Hw) as [-> ->]. unfold p_paren, v_paren. rewrite (lit_head w "("%char) by auto.
      destruct (arith_level n) as (n' & -> & -> & ->); [lens|]. destruct (closing ")"%char w0 rest Hw0 ltac:(auto)) as [S1 S2].
      destruct (M n' [] (w0 ++ ")"%char :: rest)) as ((t & E) & A); [constructor|lens|auto|auto|]. cbn [app] in E, A. rewrite E.
      split; [exists t; unfold close; now rewrite (lit_head w0 ")"%char)|].
      destruct (value en e) as [v|x]; cbn [gives] in A |- *.
      + rewrite A, (lit_head w0 ")"%char) by auto. reflexivity.
      + intros N. destruct (A N) as [y ->]. eauto.
    - (* call *) intros f w1 a s l t w2 Hf H1 Ha (M & _ & _) Hl IHl H2. apply atom. intros n w rest Hw L Hs Hn. cbn [level v_level].
      assoc. unfold p_base, v_base, p_call, v_call. rewrite func_name_dotted by (auto; apply ws_head_ok; auto; discriminate).
      rewrite (lit_head w1 "("%char) by auto. unfold p_args, v_args. destruct (arith_level n) as (n' & -> & E0 & E0'); [lens|].
      assert (SN : Stop (t ++ w2 ++ ")"%char :: rest) /\ NoOp 6 (t ++ w2 ++ ")"%char :: rest)).
      { destruct Hl as [|w' e' s' l' t' Hw' _ _]; [apply closing; auto|]. assoc. apply closing; auto. }
      destruct (M n' [] (t ++ w2 ++ ")"%char :: rest)) as ((ta & E) & A); [constructor|lens|apply SN|apply SN|]. cbn [app] in E, A. rewrite <- E0 in E. rewrite <- E0' in A. rewrite E.
      destruct (IHl (S n') w2 rest H2 ltac:(lens) (S (List.length (t ++ w2 ++ ")"%char :: rest))) ltac:(lia)) as ((ts & E2) & F). rewrite E2.
      split; [exists (ACall f (ta :: ts)); unfold close; now rewrite (lit_head w2 ")"%char)|].
      apply gives_else. cbn [value]. fold (values l).
      destruct (value en a) as [x|x]; cbn [bind]; [|intros N; destruct (A N) as [y ->]; eauto]. cbn [gives] in A. rewrite A.
      destruct (values l) as [vs|x']; cbn [bind]; [|intros N; destruct (F N) as [y ->]; eauto]. rewrite F, (lit_head w2 ")"%char) by auto.
      apply gives_act. intros N. destruct (e_fun en f) as [fn|y] eqn:Ef; cbn [bind]; [now apply N with (f := f)|]. intros [= ->]. destruct N as (_ & _ & N & _). now apply N in Ef.
    - (* unary *) intros op e s Hop Ht (_ & _ & U). specialize (U eq_refl).
      assert (UO : UnaryOk (EUn [op] e) (op :: s)).
      { intros n m w rest Hw L Lm Hs Hn. destruct m as [|m]; [lia|]. cbn [p_unary v_unary app]. unfold one_of. rewrite skip_white by auto.
        assert (Hws : is_ws op = false) by (destruct Hop as [-> | ->]; reflexivity). rewrite skip_head by auto.
        assert (E1 : eat_one unary_ops (op :: s ++ rest) = Some ([op], s ++ rest)) by (destruct Hop as [-> | ->]; reflexivity). rewrite E1.
        destruct (U n m [] rest) as ((t & E) & A); [constructor|lens|lens|auto|auto|]. cbn [app] in E, A. rewrite E. split; [exists (AUn [op] t); auto|].
        apply gives_else. cbn [value]. destruct (value en e) as [v|x]; cbn [bind]; cbn [gives] in A.
        - rewrite A. apply gives_act. intros N. destruct (eqs [op] $"-"); [apply N|discriminate].
        - intros N. destruct (A N) as [y ->]. eauto. }
      split; [now apply main_of_unary|]. split; [intros [B|[B|[B|[B|B]]]]; discriminate|auto].
    - (* binary *) intros l op a s b t w0 Ho Ha (_ & Ca & _) Hb (Mb & _ & _) Hw0. assert (B := op_bin _ _ Ho). specialize (Ca B).
      assert (C : ChainOk (S l) (EBin op a b) (s ++ w0 ++ op ++ t)).
      { intros n w rest Hw L Hs Hn. destruct (text_first _ _ _ Hb) as (d & t' & Et & Hd). destruct (op_ok op l w0 d (t' ++ rest) Ho Hw0 Hd) as (O1 & O2 & O3).
        assert (Ed : d :: t' ++ rest = t ++ rest) by (rewrite Et; reflexivity). rewrite Ed in O1, O2, O3.
        replace (S l - 1)%nat with l in * by lia. assoc.
        destruct (Ca n w (w0 ++ op ++ t ++ rest)) as (t0 & l0 & s1 & E & Hc & A); [auto|lens|auto|now replace (S l - 1)%nat with l by lia|].
        replace (S l - 1)%nat with l in * by lia.
        destruct (Mb n [] rest) as ((tb & Eb) & Ab); [constructor|lens|auto|auto|]. cbn [app] in Eb, Ab.
        assert (Lr : (List.length rest < List.length (w0 ++ op ++ t ++ rest))%nat) by (rewrite Et; lens).
        exists t0, (l0 ++ [(op, tb)]), s1. split; auto. split.
        - eapply chain_snoc; eauto.
        - cbn [value]. eapply chain_gives_snoc; eauto. }
      split; [now apply main_of_chain|]. split; auto. intros E. rewrite E in B. destruct B as [B|[B|[B|[B|B]]]]; discriminate.
    - (* power of a signed number *) intros a s w1 w2 g x Ha (_ & Ca & _) H1 H2 Hg Hx. assert (B : bin 1) by now left. specialize (Ca B).
      assert (C : ChainOk 1 (EBin $"**" a (ENum (g :: x))) (s ++ w1 ++ $"**" ++ w2 ++ g :: x)).
      { intros n w rest Hw L Hs Hn. cbn [Nat.sub] in *.
        assert (Hd : exists d r, w2 ++ g :: x ++ rest = d :: r /\ opfree d = true).
        { destruct H2 as [|c w2 Hc H2]; cbn [app]; [exists g; eexists; split; [reflexivity|destruct Hg as [-> | ->]; reflexivity]|eexists _, _; split; [reflexivity|now apply ws_opfree]]. }
        destruct Hd as (d & r & Ed & Hd). destruct (op_ok $"**" 0 w1 d r) as (O1 & O2 & O3); auto. { exists [$"**"]. cbn. auto. }
        rewrite <- Ed in O1, O2, O3. assoc. change ("*"%char :: "*"%char :: w2 ++ g :: x ++ rest) with ($"**" ++ w2 ++ g :: x ++ rest).
        destruct (Ca n w (w1 ++ $"**" ++ w2 ++ g :: x ++ rest)) as (t0 & l0 & s1 & E & Hc & A); [auto|lens|auto|auto|].
        assert (Hg' : optsign [g]) by (destruct Hg as [-> | ->]; cbn; auto).
        pose proof (var_number (arith n) en (v_arith en n) w2 [g] x rest H2 Hg' Hx Hs) as Hv. cbn [app] in Hv.
        assert (Lr : (List.length rest < List.length (w1 ++ $"**" ++ w2 ++ g :: x ++ rest))%nat) by lens.
        exists t0, (l0 ++ [($"**", ANum (g :: x))]), s1. split; auto. split.
        - eapply chain_snoc; eauto. cbn [level Nat.sub]. eapply var_base; eauto.
        - cbn [value]. change (Ok (e_num en (g :: x))) with (value en (ENum (g :: x))). eapply chain_gives_snoc; eauto.
          cbn [v_level Nat.sub]. destruct Hv as (_ & A' & B'). apply base_var; [exact A'|]. unfold v_var. rewrite B'. reflexivity. }
      split; [now apply main_of_chain|]. split; auto. discriminate.
    - (* looser *) intros l e s Hl Ht (M & C & U).
      assert (CB : bin (S l) -> ChainOk (S l) e s).
      { intros B n w rest Hw L Hs Hn. replace (S l - 1)%nat with l in * by lia. destruct (M n w rest Hw L Hs Hn) as ((t & E) & A).
        exists t, [], rest. split; auto. split; [constructor|]. now apply chain_gives_nil. }
      destruct (Nat.eq_dec l 1) as [->|N1].
      + assert (UO : UnaryOk e s).
        { intros n m w rest Hw L Lm Hs Hn. destruct m as [|m]; [lia|]. destruct (text_start _ _ _ Ht) as (w' & c & r & -> & A1 & A2 & A3 & A4). specialize (A4 ltac:(lia)).
          cbn [p_unary v_unary]. unfold one_of. rewrite skip_white by auto. assert (Hk : skip ((w' ++ c :: r) ++ rest) = c :: r ++ rest) by (assoc; rewrite skip_white by auto; now apply skip_head).
          rewrite Hk, eat_one_head; [now apply M|]. apply orb_false_iff in A4 as [P1 P2]. unfold is_ch in P1, P2.
          repeat constructor; eexists _, _; (split; [reflexivity|]); intros <-; discriminate. }
        split; [now apply main_of_unary|]. split; auto.
      + assert (B : bin (S l)) by (unfold bin; lia). split; [now apply main_of_chain; auto|]. split; auto. intros E. lia.
    - (* white *) intros l e s w0 Hw0 Ht (M & C & U).
      assert (R : forall w rest, w ++ (w0 ++ s) ++ rest = (w ++ w0) ++ s ++ rest) by (intros; assoc; reflexivity).
      split; [|split].
      + intros n w rest Hw. rewrite R. apply M. now apply white_app.
      + intros B n w rest Hw. rewrite R. apply (C B). now apply white_app.
      + intros E n m w rest Hw. rewrite R. apply (U E). now apply white_app.
    - (* no more arguments *) intros n w rest Hw L m Lm. destruct m as [|m]; [lia|]. cbn [app p_more v_more].
      rewrite (lit_none ","%char); [cbn; eauto|]. rewrite skip_white, skip_head by auto. cbn. intuition discriminate.
    - (* one more *) intros w0 e s l t Hw0 Ht (M & _ & _) Hl IHl n w rest Hw L m Lm. destruct m as [|m]; [lia|]. cbn [p_more v_more].
      assoc. rewrite (lit_head w0 ","%char) by auto.
      destruct (arith_level n) as (n' & -> & E0 & E0'); [lens|].
      assert (SN : Stop (t ++ w ++ ")"%char :: rest) /\ NoOp 6 (t ++ w ++ ")"%char :: rest)).
      { destruct Hl as [|w' e' s' l' t' Hw' _ _]; [apply closing; auto|]. assoc. apply closing; auto. }
      destruct (M n' [] (t ++ w ++ ")"%char :: rest)) as ((ta & E) & A); [constructor|lens|apply SN|apply SN|]. cbn [app] in E, A. rewrite <- E0 in E. rewrite <- E0' in A. rewrite E.
      destruct (IHl (S n') w rest Hw ltac:(lens) m ltac:(lens)) as ((ts & E2) & F). rewrite E2. split; [eauto|].
      cbn [values]. fold (values l). destruct (value en e) as [x|x]; cbn [bind]; [|intros N; destruct (A N) as [y ->]; eauto]. cbn [gives] in A. rewrite A.
      destruct (values l) as [vs|x']; cbn [bind]; [|intros N; destruct (F N) as [y ->]; eauto]. now rewrite F.
  Qed.
  Lemma solve_gives e s tail : Text 6 e s -> Ends tail -> gives (run en (s ++ tail)) (value en e) tail.
  Proof.
    intros Ht He. destruct (text_ok _ _ _ Ht) as (M & _ & _). destruct (ends_stop tail He) as [S1 S2].
    destruct (M (List.length (s ++ tail)) [] tail) as (_ & A); [constructor|cbn; lia|auto|auto|]. exact A.
  Qed.
  Lemma solve_value e s tail v : Text 6 e s -> Ends tail -> value en e = Ok v -> solve en (s ++ tail) = Ok v.
  Proof. intros Ht He Hv. pose proof (solve_gives e s tail Ht He) as H. rewrite Hv in H. unfold solve. now rewrite H. Qed.
  Lemma solve_ok e s tail : NoIndex en -> Text 6 e s -> Ends tail -> agree (solve en (s ++ tail)) (value en e).
  Proof.
    intros N Ht He v. pose proof (solve_gives e s tail Ht He) as H. unfold solve. destruct (value en e) as [x|x]; cbn [gives] in H.
    - rewrite H. tauto.
    - destruct (H N) as [y ->]. split; discriminate.
  Qed.
End Main.
