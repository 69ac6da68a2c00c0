(** The parser consumes text and never runs out of fuel. *)
From Coq Require Import List Ascii String ZArith NArith Bool Lia.
From Verif Require Import Lib.PyStr Lib.PyStrFacts Model.Grammar.
Import ListNotations.
Local Open Scope list_scope.

Lemma span_len p s : forall a b, span p s = (a, b) -> (List.length a + List.length b = List.length s)%nat.
Proof.
  induction s as [|c s IH]; cbn [span]; intros a b; [intros [= <- <-]; reflexivity|].
  destruct (p c); [|intros [= <- <-]; reflexivity]. destruct (span p s) as [x y] eqn:E. intros [= <- <-]. specialize (IH _ _ eq_refl). cbn. lia.
Qed.
Lemma skip_len s : (List.length (skip s) <= List.length s)%nat.
Proof. unfold skip. destruct (span is_ws s) as [a b] eqn:E. apply span_len in E. cbn. lia. Qed.
Lemma eat_len p : forall s r, eat p s = Some r -> (List.length p + List.length r = List.length s)%nat.
Proof.
  induction p as [|x p IH]; intros s r; cbn [eat]; [intros [= <-]; reflexivity|]. destruct s as [|y s]; [discriminate|].
  destruct (Ascii.eqb x y); [|discriminate]. intros H. apply IH in H. cbn. lia.
Qed.
Lemma literal_len p s r : literal p s = Some r -> (List.length p + List.length r <= List.length s)%nat.
Proof. unfold literal. intros H. apply eat_len in H. pose proof (skip_len s). lia. Qed.
Lemma one_of_len ps s o r : Forall (fun p => p <> []) ps -> one_of ps s = Some (o, r) -> (List.length r < List.length s)%nat.
Proof.
  unfold one_of. pose proof (skip_len s) as L. intros F. induction F as [|p ps Hp F IH]; cbn [eat_one]; [discriminate|].
  destruct (eat p (skip s)) as [x|] eqn:E; [|exact IH]. intros [= <- <-]. apply eat_len in E. destruct p; [easy|]. cbn in E. lia.
Qed.
Lemma ident_len s a r : ident s = Some (a, r) -> (List.length r < List.length s)%nat.
Proof.
  destruct s as [|c s]; cbn [ident]; [discriminate|]. destruct (id_start c); [|discriminate].
  destruct (span id_char s) as [x y] eqn:E. intros [= <- <-]. apply span_len in E. cbn. lia.
Qed.
Lemma dotted_len n : forall s a r, dotted n s = (a, r) -> (List.length r <= List.length s)%nat.
Proof.
  induction n as [|n IH]; intros s a r.
  - cbn [dotted]. intros [= <- <-]. lia.
  - cbn [dotted]. destruct s as [|c s]; [intros [= <- <-]; lia|].
    destruct (Ascii.eqb c "."%char) eqn:E.
    + apply Ascii.eqb_eq in E as ->. destruct (ident s) as [[x y]|] eqn:E; [|intros [= <- <-]; lia].
      destruct (dotted n y) as [u v] eqn:E2. intros [= <- <-]. apply IH in E2. apply ident_len in E. cbn. lia.
    + assert (forall (A : Type) (u v : A), match c with "."%char => u | _ => v end = v) as R.
      { intros A u v. destruct c as [[] [] [] [] [] [] [] []]; try reflexivity. discriminate. }
      rewrite R. intros [= <- <-]. lia.
Qed.
Lemma func_name_len s a r : func_name s = Some (a, r) -> (List.length r < List.length s)%nat.
Proof.
  unfold func_name. destruct (ident (skip s)) as [[x y]|] eqn:E; [|discriminate]. destruct (dotted (List.length y) y) as [u v] eqn:E2.
  intros [= <- <-]. apply ident_len in E. apply dotted_len in E2. pose proof (skip_len s). lia.
Qed.
Lemma sign_len s a r : sign s = (a, r) -> (List.length r <= List.length s)%nat.
Proof. destruct s as [|c s]; cbn [sign]; [intros [= <- <-]; lia|]. destruct (_ || _); intros [= <- <-]; cbn; lia. Qed.
Lemma digits1_len s a r : digits1 s = Some (a, r) -> (List.length r < List.length s)%nat.
Proof.
  unfold digits1. destruct (span is_digit s) as [[|d x] y] eqn:E; [discriminate|]. intros [= <- <-]. apply span_len in E. cbn in E. lia.
Qed.
Lemma exponent_len s a r : exponent s = (a, r) -> (List.length r <= List.length s)%nat.
Proof.
  destruct s as [|c s]; cbn [exponent]; [intros [= <- <-]; lia|]. destruct (_ || _); [|intros [= <- <-]; lia].
  destruct (sign s) as [g r'] eqn:E. destruct (digits1 r') as [[d r'']|] eqn:E2; intros [= <- <-]; [|lia].
  apply sign_len in E. apply digits1_len in E2. cbn. lia.
Qed.
Lemma integer_len s a r : integer s = Some (a, r) -> (List.length r < List.length s)%nat.
Proof.
  unfold integer. pose proof (skip_len s). destruct (sign (skip s)) as [g s1] eqn:E. apply sign_len in E.
  destruct (digits1 s1) as [[d s2]|] eqn:E2; [|discriminate]. apply digits1_len in E2. intros [= <- <-]. lia.
Qed.
Lemma match_dot {A} (c : ascii) (u v : A) : c <> "."%char -> match c with "."%char => u | _ => v end = v.
Proof. intros H. destruct c as [[] [] [] [] [] [] [] []]; try reflexivity. now elim H. Qed.
Lemma real_len s a r : real s = Some (a, r) -> (List.length r < List.length s)%nat.
Proof.
  unfold real. pose proof (skip_len s). destruct (sign (skip s)) as [g s1] eqn:E. apply sign_len in E.
  destruct (digits1 s1) as [[d s2]|] eqn:E2; [|discriminate]. apply digits1_len in E2. destruct s2 as [|c s2]; [discriminate|].
  destruct (Ascii.eqb c "."%char) eqn:Ec.
  - apply Ascii.eqb_eq in Ec as ->. destruct (span is_digit s2) as [f s3] eqn:E3. destruct (exponent s3) as [e s4] eqn:E4.
    intros [= <- <-]. apply span_len in E3. apply exponent_len in E4. cbn in E2. lia.
  - rewrite match_dot; [discriminate|]. intros ->. discriminate.
Qed.

(** [good N p]: on texts up to [N], [p] has fuel and consumes something. *)
Definition fine {A} (strict : nat) (s : str) (x : pres A) : Prop :=
  x <> PFuel /\ forall a r, x = PYes a r -> (strict + List.length r <= List.length s)%nat.
Definition good (N : nat) (p : parser) : Prop := forall s, (List.length s <= N)%nat -> fine 1 s (p s).
Lemma no_fine {A} k s : @fine A k s PNo.
Proof. split; [discriminate|]. discriminate. Qed.
Lemma yes_fine {A} k s (a : A) r : (k + List.length r <= List.length s)%nat -> fine k s (PYes a r).
Proof. intros H. split; [discriminate|]. intros ? ? [= <- <-]. auto. Qed.
#[local] Hint Resolve no_fine yes_fine : core.

Section Levels.
  Context (N : nat) (term : parser).
  Hypothesis G : good N term.
  Lemma rest_fine ops : Forall (fun p => p <> []) ops -> forall n s, (List.length s <= N)%nat -> (List.length s < n)%nat -> fine 0 s (p_rest ops term n s).
  Proof.
    intros F. induction n as [|n IH]; intros s HN Hn; [lia|]. cbn [p_rest].
    destruct (one_of ops s) as [[o s1]|] eqn:E; [|apply yes_fine; lia]. apply one_of_len in E; auto.
    destruct (G s1) as [G1 G2]; [lia|]. destruct (term s1) as [| |t s2]; [apply yes_fine; lia|easy|].
    specialize (G2 _ _ eq_refl). destruct (IH s2) as [I1 I2]; [lia|lia|]. destruct (p_rest ops term n s2) as [| |l s3]; [auto|easy|].
    specialize (I2 _ _ eq_refl). apply yes_fine. lia.
  Qed.
  Lemma binary_good ops : Forall (fun p => p <> []) ops -> good N (p_binary ops term).
  Proof.
    intros F s HN. unfold p_binary. destruct (G s HN) as [G1 G2]. destruct (term s) as [| |t s1]; [auto|easy|].
    specialize (G2 _ _ eq_refl). destruct (rest_fine ops F (S (List.length s1)) s1) as [I1 I2]; [lia|lia|].
    destruct (p_rest ops term (S (List.length s1)) s1) as [| |l s2]; [auto|easy|]. specialize (I2 _ _ eq_refl).
    destruct l; apply yes_fine; lia.
  Qed.
  Lemma unary_fine : forall n s, (List.length s <= N)%nat -> (List.length s < n)%nat -> fine 1 s (p_unary term n s).
  Proof.
    induction n as [|n IH]; intros s HN Hn; [lia|]. cbn [p_unary].
    destruct (one_of unary_ops s) as [[o s1]|] eqn:E; [|now apply G]. apply one_of_len in E; [|repeat constructor; discriminate].
    destruct (IH s1) as [I1 I2]; [lia|lia|]. destruct (p_unary term n s1) as [| |t s2]; [now apply G|easy|].
    specialize (I2 _ _ eq_refl). apply yes_fine. lia.
  Qed.
End Levels.
Section BaseG.
  Context (N : nat) (rec : parser).
  Hypothesis G : forall s, (List.length s < N)%nat -> fine 1 s (rec s).
  Lemma more_fine : forall n s, (List.length s < N)%nat -> (List.length s < n)%nat -> fine 0 s (p_more rec n s).
  Proof.
    induction n as [|n IH]; intros s HN Hn; [lia|]. cbn [p_more]. destruct (literal $"," s) as [s1|] eqn:E; [|apply yes_fine; lia].
    apply literal_len in E. cbn in E. destruct (G s1) as [G1 G2]; [lia|]. destruct (rec s1) as [| |t s2]; [apply yes_fine; lia|easy|].
    specialize (G2 _ _ eq_refl). destruct (IH s2) as [I1 I2]; [lia|lia|]. destruct (p_more rec n s2) as [| |l s3]; [auto|easy|].
    specialize (I2 _ _ eq_refl). apply yes_fine. lia.
  Qed.
  Lemma close_fine {A} k (a : A) s0 s : (k + List.length s <= S (List.length s0))%nat -> fine k s0 (close a s).
  Proof.
    intros H. unfold close. destruct (literal $")" s) as [s'|] eqn:E; auto. apply literal_len in E. cbn in E. apply yes_fine. lia.
  Qed.
  Lemma args_fine s : (List.length s < N)%nat -> fine 0 s (p_args rec s).
  Proof.
    intros HN. unfold p_args. destruct (G s HN) as [G1 G2]. destruct (rec s) as [| |t s1]; [apply yes_fine; lia|easy|]. specialize (G2 _ _ eq_refl).
    destruct (more_fine (S (List.length s1)) s1) as [I1 I2]; [lia|lia|]. destruct (p_more rec _ s1) as [| |l s2]; [auto|easy|].
    specialize (I2 _ _ eq_refl). apply yes_fine. lia.
  Qed.
  Lemma call_good : good N (p_call rec).
  Proof.
    intros s HN. unfold p_call. destruct (func_name s) as [[f s1]|] eqn:E; auto. apply func_name_len in E.
    destruct (literal $"(" s1) as [s2|] eqn:E2; auto. apply literal_len in E2. cbn in E2.
    destruct (args_fine s2) as [I1 I2]; [lia|]. destruct (p_args rec s2) as [| |l s3]; [auto|easy|]. specialize (I2 _ _ eq_refl).
    apply close_fine. lia.
  Qed.
  Lemma acc_good : good N p_acc.
  Proof.
    intros s HN. unfold p_acc. destruct (func_name s) as [[f s1]|] eqn:E; auto. apply func_name_len in E.
    destruct (literal $":" s1) as [s2|] eqn:E2; auto. apply literal_len in E2. pose proof (skip_len s2).
    destruct (ident (skip s2)) as [[c s3]|] eqn:E3; auto. apply ident_len in E3. apply yes_fine. cbn in E2. lia.
  Qed.
  Lemma var_good : good N p_var.
  Proof.
    intros s HN. unfold p_var. destruct (acc_good s HN) as [A1 A2]. destruct (p_acc s) as [| |t r]; [|easy|apply yes_fine; apply (A2 _ _ eq_refl)].
    destruct (real s) as [[t r]|] eqn:E1; [apply real_len in E1; apply yes_fine; lia|].
    destruct (integer s) as [[t r]|] eqn:E2; [apply integer_len in E2; apply yes_fine; lia|].
    destruct (ident (skip s)) as [[t r]|] eqn:E3; [apply ident_len in E3; pose proof (skip_len s); apply yes_fine; lia|auto].
  Qed.
  Lemma paren_good : good N (p_paren rec).
  Proof.
    intros s HN. unfold p_paren. destruct (literal $"(" s) as [s1|] eqn:E; auto. apply literal_len in E. cbn in E.
    destruct (G s1) as [G1 G2]; [lia|]. destruct (rec s1) as [| |t s2]; [auto|easy|]. specialize (G2 _ _ eq_refl). apply close_fine. lia.
  Qed.
  Lemma base_good : good N (p_base rec).
  Proof.
    intros s HN. unfold p_base. destruct (call_good s HN) as [A1 A2]. destruct (p_call rec s) as [| |t r]; [|easy|apply yes_fine; apply (A2 _ _ eq_refl)].
    destruct (var_good s HN) as [B1 B2]. destruct (p_var s) as [| |t r]; [|easy|apply yes_fine; apply (B2 _ _ eq_refl)]. now apply paren_good.
  Qed.
  Lemma level_good k : good N (level rec k).
  Proof.
    unfold level. set (l1 := p_binary pow_ops (p_base rec)).
    assert (H1 : good N l1) by (apply binary_good; [exact base_good|repeat constructor; discriminate]).
    set (l2 := fun s => p_unary l1 (S (List.length s)) s).
    assert (H2 : good N l2) by (intros s HN; apply (unary_fine N l1 H1); lia).
    assert (H3 : good N (p_binary mult_ops l2)) by (apply binary_good; [auto|repeat constructor; discriminate]).
    assert (H4 : good N (p_binary sum_ops (p_binary mult_ops l2))) by (apply binary_good; [auto|repeat constructor; discriminate]).
    assert (H5 : good N (p_binary rel_ops (p_binary sum_ops (p_binary mult_ops l2)))) by (apply binary_good; [auto|repeat constructor; discriminate]).
    assert (H6 : good N (p_binary logical_ops (p_binary rel_ops (p_binary sum_ops (p_binary mult_ops l2))))) by (apply binary_good; [auto|repeat constructor; discriminate]).
    destruct k as [|[|[|[|[|[|k]]]]]]; auto. exact base_good.
  Qed.
End BaseG.
Lemma arith_fine n : forall s, (List.length s < n)%nat -> fine 1 s (arith n s).
Proof.
  induction n as [|n IH]; intros s Hn; [lia|]. apply (level_good n (arith n)); [|lia]. exact IH.
Qed.

(** ** With the parse actions *)
Definition vfine {A} (strict : nat) (s : str) (x : vres A) : Prop :=
  x <> VFuel /\ forall a r, x = VYes a r -> (strict + List.length r <= List.length s)%nat.
Definition vgood {V} (N : nat) (p : vparser V) : Prop := forall s, (List.length s <= N)%nat -> vfine 1 s (p s).
Lemma no_vfine {A} k s : @vfine A k s VNo.
Proof. split; discriminate. Qed.
Lemma err_vfine {A} k s x : @vfine A k s (VErr x).
Proof. split; discriminate. Qed.
Lemma yes_vfine {A} k s (a : A) r : (k + List.length r <= List.length s)%nat -> vfine k s (VYes a r).
Proof. intros H. split; [discriminate|]. intros ? ? [= <- <-]. auto. Qed.
#[local] Hint Resolve no_vfine err_vfine yes_vfine : core.
Lemma act_vfine {V} k s (x : res V) r : (k + List.length r <= List.length s)%nat -> vfine k s (act x r).
Proof. intros H. destruct x as [v|[]]; cbn; auto. Qed.
Lemma else_vfine {V} k s (x y : vres V) : vfine k s x -> vfine k s y -> vfine k s (match x with VNo => y | VFuel => VFuel | VErr e => VErr e | VYes a r => VYes a r end).
Proof. intros Hx Hy. destruct x; auto. Qed.

Section VLevels.
  Context {V : Type} (en : env V) (N : nat) (syn : parser) (term : vparser V).
  Hypothesis GS : good N syn.
  Hypothesis G : vgood N term.
  Lemma v_rest_fine ops : Forall (fun p => p <> []) ops -> forall n s, (List.length s <= N)%nat -> (List.length s < n)%nat -> vfine 0 s (v_rest ops term n s).
  Proof.
    intros F. induction n as [|n IH]; intros s HN Hn; [lia|]. cbn [v_rest].
    destruct (one_of ops s) as [[o s1]|] eqn:E; [|apply yes_vfine; lia]. apply one_of_len in E; auto.
    destruct (G s1) as [G1 G2]; [lia|]. destruct (term s1) as [| | |t s2]; [apply yes_vfine; lia|easy|auto|].
    specialize (G2 _ _ eq_refl). destruct (IH s2) as [I1 I2]; [lia|lia|]. destruct (v_rest ops term n s2) as [| | |l s3]; [auto|easy|auto|].
    specialize (I2 _ _ eq_refl). apply yes_vfine. lia.
  Qed.
  Lemma look_fuel ops s : Forall (fun p => p <> []) ops -> (List.length s <= N)%nat -> look ops syn s <> PFuel.
  Proof.
    intros F HN. unfold look. destruct (GS s HN) as [A1 A2]. destruct (syn s) as [| |t s1]; [discriminate|easy|]. specialize (A2 _ _ eq_refl).
    destruct (one_of ops s1) as [[o s2]|] eqn:E; [|discriminate]. apply one_of_len in E; auto. destruct (GS s2) as [B1 B2]; [lia|].
    destruct (syn s2); [discriminate|easy|discriminate].
  Qed.
  Lemma v_binary_good ops : Forall (fun p => p <> []) ops -> vgood N (v_binary en ops syn term).
  Proof.
    intros F s HN. unfold v_binary. pose proof (look_fuel ops s F HN) as L. destruct (look ops syn s); [now apply G|easy|].
    apply else_vfine; [|now apply G]. destruct (G s HN) as [G1 G2]. destruct (term s) as [| | |t s1]; [auto|easy|auto|].
    specialize (G2 _ _ eq_refl). destruct (v_rest_fine ops F (S (List.length s1)) s1) as [I1 I2]; [lia|lia|].
    destruct (v_rest ops term (S (List.length s1)) s1) as [| | |l s2]; [auto|easy|auto|]. specialize (I2 _ _ eq_refl).
    destruct l; auto. apply act_vfine. lia.
  Qed.
  Lemma v_unary_fine : forall n s, (List.length s <= N)%nat -> (List.length s < n)%nat -> vfine 1 s (v_unary en syn term n s).
  Proof.
    induction n as [|n IH]; intros s HN Hn; [lia|]. cbn [v_unary].
    destruct (one_of unary_ops s) as [[o s1]|] eqn:E; [|now apply G]. apply one_of_len in E; [|repeat constructor; discriminate].
    destruct (unary_fine N syn GS n s1) as [A1 _]; [lia|lia|]. destruct (p_unary syn n s1); [now apply G|easy|].
    apply else_vfine; [|now apply G].
    destruct (IH s1) as [I1 I2]; [lia|lia|]. destruct (v_unary en syn term n s1) as [| | |t s2]; [auto|easy|auto|].
    specialize (I2 _ _ eq_refl). apply act_vfine. lia.
  Qed.
End VLevels.
Section VBaseG.
  Context {V : Type} (en : env V) (N : nat) (syn : parser) (rec : vparser V).
  Hypothesis GS : forall s, (List.length s < N)%nat -> fine 1 s (syn s).
  Hypothesis G : forall s, (List.length s < N)%nat -> vfine 1 s (rec s).
  Lemma v_more_fine : forall n s, (List.length s < N)%nat -> (List.length s < n)%nat -> vfine 0 s (v_more rec n s).
  Proof.
    induction n as [|n IH]; intros s HN Hn; [lia|]. cbn [v_more]. destruct (literal $"," s) as [s1|] eqn:E; [|apply yes_vfine; lia].
    apply literal_len in E. cbn in E. destruct (G s1) as [G1 G2]; [lia|]. destruct (rec s1) as [| | |t s2]; [apply yes_vfine; lia|easy|auto|].
    specialize (G2 _ _ eq_refl). destruct (IH s2) as [I1 I2]; [lia|lia|]. destruct (v_more rec n s2) as [| | |l s3]; [auto|easy|auto|].
    specialize (I2 _ _ eq_refl). apply yes_vfine. lia.
  Qed.
  Lemma v_args_fine s : (List.length s < N)%nat -> vfine 0 s (v_args rec s).
  Proof.
    intros HN. unfold v_args. destruct (G s HN) as [G1 G2]. destruct (rec s) as [| | |t s1]; [apply yes_vfine; lia|easy|auto|]. specialize (G2 _ _ eq_refl).
    destruct (v_more_fine (S (List.length s1)) s1) as [I1 I2]; [lia|lia|]. destruct (v_more rec _ s1) as [| | |l s2]; [auto|easy|auto|].
    specialize (I2 _ _ eq_refl). apply yes_vfine. lia.
  Qed.
  Lemma v_call_good : vgood N (v_call en rec).
  Proof.
    intros s HN. unfold v_call. destruct (func_name s) as [[f s1]|] eqn:E; auto. apply func_name_len in E.
    destruct (literal $"(" s1) as [s2|] eqn:E2; auto. apply literal_len in E2. cbn in E2.
    destruct (v_args_fine s2) as [I1 I2]; [lia|]. destruct (v_args rec s2) as [| | |l s3]; [auto|easy|auto|]. specialize (I2 _ _ eq_refl).
    destruct (literal $")" s3) as [s4|] eqn:E3; auto. apply literal_len in E3. cbn in E3. apply act_vfine. lia.
  Qed.
  Lemma v_var_good : vgood N (v_var en).
  Proof.
    intros s HN. unfold v_var. destruct (var_good N s HN) as [A1 A2]. destruct (p_var s) as [| |t r]; [auto|easy|]. specialize (A2 _ _ eq_refl).
    destruct t; auto; apply act_vfine; lia.
  Qed.
  Lemma v_paren_good : vgood N (v_paren rec).
  Proof.
    intros s HN. unfold v_paren. destruct (literal $"(" s) as [s1|] eqn:E; auto. apply literal_len in E. cbn in E.
    destruct (G s1) as [G1 G2]; [lia|]. destruct (rec s1) as [| | |t s2]; [auto|easy|auto|]. specialize (G2 _ _ eq_refl).
    destruct (literal $")" s2) as [s3|] eqn:E3; auto. apply literal_len in E3. cbn in E3. apply yes_vfine. lia.
  Qed.
  Lemma v_base_good : vgood N (v_base en rec).
  Proof.
    intros s HN. unfold v_base. apply else_vfine; [now apply v_call_good|]. apply else_vfine; [now apply v_var_good|now apply v_paren_good].
  Qed.
  Lemma v_level_good k : vgood N (v_level en rec syn k).
  Proof.
    unfold v_level. pose proof (level_good N syn GS) as L. set (l1 := v_binary en pow_ops (level syn 0) (v_base en rec)).
    assert (H1 : vgood N l1) by (apply v_binary_good; [apply L|exact v_base_good|repeat constructor; discriminate]).
    set (l2 := fun s => v_unary en (level syn 1) l1 (S (List.length s)) s).
    assert (H2 : vgood N l2) by (intros s HN; apply (v_unary_fine en N _ l1 (L 1%nat) H1); lia).
    set (l3 := v_binary en mult_ops (level syn 2) l2).
    assert (H3 : vgood N l3) by (apply v_binary_good; [apply L|auto|repeat constructor; discriminate]).
    set (l4 := v_binary en sum_ops (level syn 3) l3).
    assert (H4 : vgood N l4) by (apply v_binary_good; [apply L|auto|repeat constructor; discriminate]).
    set (l5 := v_binary en rel_ops (level syn 4) l4).
    assert (H5 : vgood N l5) by (apply v_binary_good; [apply L|auto|repeat constructor; discriminate]).
    set (l6 := v_binary en logical_ops (level syn 5) l5).
    assert (H6 : vgood N l6) by (apply v_binary_good; [apply L|auto|repeat constructor; discriminate]).
    destruct k as [|[|[|[|[|[|k]]]]]]; auto. exact v_base_good.
  Qed.
End VBaseG.
Lemma v_arith_fine {V} (en : env V) n : forall s, (List.length s < n)%nat -> vfine 1 s (v_arith en n s).
Proof.
  induction n as [|n IH]; intros s Hn; [lia|]. apply (v_level_good en n (arith n) (v_arith en n)); [apply arith_fine|exact IH|lia].
Qed.
Lemma run_total {V} (en : env V) s : run en s <> VFuel.
Proof. unfold run. apply v_arith_fine. lia. Qed.
