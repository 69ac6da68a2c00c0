(** Used only for concrete examples: a boolean check of the conditions on reports of
    the events trappy knows. *)
From Coq Require Import List Ascii String ZArith NArith Bool Lia.
From Verif Require Import Lib.PyStr Lib.PyStrFacts Lib.F64 Model.Base Model.Registry Model.Populate Model.Csv
  Spec.Lines Spec.Payload Spec.Arrays Spec.Parts Spec.Trace Spec.Tables Spec.Events Spec.Written Spec.Classes Spec.Cached Spec.CachedClasses
  Proofs.PayloadP Proofs.FrameP Proofs.PopulateP Proofs.SolveP Proofs.WrittenP Proofs.CsvP Proofs.CachedEx.
Import ListNotations.
Local Open Scope list_scope.

Definition val_cell (v : str) (more : list str) : cell := match py_int0 v with Some z => CInt z | None => CStr (join $" " (v :: more)) end.
Lemma val_cell_only v more c : no_space v -> col_cell v more c -> c = val_cell v more.
Proof.
  intros Hs [(z & Hz & ->)|[Hn ->]]; unfold val_cell.
  - apply py_int0_iff in Hz; auto. now rewrite Hz.
  - destruct (py_int0 v) as [z|] eqn:E; auto. apply py_int0_iff in E; auto. now apply Hn in E.
Qed.
(** The cells of a text, each with what tells it is the only one. *)
Definition vals (L : str -> nat) (t : text) : list (str * (cell * bool)) :=
  let v := fun key val more => (key, (val_cell val more, nospaceb val)) in
  let i := fun (key : str) c => (key, (c, true)) in
  match t with
  | TFields ps => map (fun kv => v (fst kv) (fst (snd kv)) (snd (snd kv))) (flat_map (part_cells L) ps)
  | TSwitch p state n =>
      [i $"prev_comm" (CStr (name_text (sw_comm p))); i $"prev_pid" (CInt (sw_pid p));
       i $"prev_prio" (CInt (sw_prio p)); v $"prev_state" state [];
       i $"next_comm" (CStr (name_text (sw_comm n))); i $"next_pid" (CInt (sw_pid n));
       i $"next_prio" (CInt (sw_prio n))]
  | TEnter n a0 a1 a2 a3 a4 a5 =>
      [i $"nr" (CInt (Z.of_N n)); i $"arg0" (CInt (Z.of_N a0)); i $"arg1" (CInt (Z.of_N a1));
       i $"arg2" (CInt (Z.of_N a2)); i $"arg3" (CInt (Z.of_N a3)); i $"arg4" (CInt (Z.of_N a4));
       i $"arg5" (CInt (Z.of_N a5))]
  | TExit nr ret => [i $"nr" (CInt nr); i $"ret" (CInt ret)]
  | TClock name gs => map (fun g => v (g_key g) (g_val g) (g_more g)) gs ++ [i $"clk_name" (CStr name)]
  | TPairs ps => map (fun kv => i (fst kv) (CStr (snd kv))) ps
  | TCommas fs => map (fun f => v (f_key f) (f_val f) (f_more f)) fs
  | TIs b f a => map (fun f => v (f_key f) (f_val f) (f_more f)) (b ++ f :: a)
  | TFree s => [i $"string" (CStr s)]
  end.
Definition only (x : str * (cell -> Prop)) (y : str * (cell * bool)) : Prop :=
  fst y = fst x /\ (snd (snd y) = true -> forall c, snd x c -> c = fst (snd y)).
Lemma nospaceb_ok s : nospaceb s = true -> no_space s.
Proof.
  intros A. unfold no_space. apply Forall_forall. unfold nospaceb in A. rewrite forallb_forall in A. intros c Hc. specialize (A c Hc). now destruct (is_space c).
Qed.
Lemma vals_only L t : Forall2 only (text_cells L t) (vals L t).
Proof.
  assert (V : forall key v more, only (key, col_cell v more) (key, (val_cell v more, nospaceb v))).
  { intros key v more. split; [reflexivity|]. cbn [fst snd]. intros H c. apply val_cell_only. now apply nospaceb_ok. }
  assert (I : forall key c, only (key, is c) (key, (c, true))) by (intros key c; split; [reflexivity|]; cbn [fst snd]; intros _ c' H; exact H).
  assert (M : forall {A} (f : A -> str * (cell -> Prop)) g l, (forall a, only (f a) (g a)) -> Forall2 only (map f l) (map g l)).
  { intros A f g l H. induction l; cbn [map]; constructor; auto. }
  destruct t; cbn [text_cells vals]; try (repeat (constructor; [solve [apply V | apply I]|]); constructor);
    try (apply M; intros; solve [apply V | apply I]).
  apply Forall2_app; [apply M; intros; apply V|]. constructor; [apply I|constructor].
Qed.
Lemma only_l l l' n P : Forall2 only l l' -> In (n, P) l -> exists c b, In (n, (c, b)) l' /\ (b = true -> forall v, P v -> v = c).
Proof.
  induction 1 as [|x y l l' [E C] _ IH]; intros Hi; [destruct Hi|]. destruct Hi as [->|Hi].
  - destruct y as [n' [c b]]. cbn [fst snd] in *. subst. exists c, b. split; [now left|auto].
  - destruct (IH Hi) as (c & b & ? & ?). exists c, b. split; [now right|auto].
Qed.
Lemma only_r l l' n c b : Forall2 only l l' -> In (n, (c, b)) l' -> exists P, In (n, P) l /\ (b = true -> forall v, P v -> v = c).
Proof.
  induction 1 as [|x y l l' [E C] _ IH]; intros Hi; [destruct Hi|]. destruct Hi as [->|Hi].
  - destruct x as [n' P]. cbn [fst snd] in *. subst. exists P. split; [now left|auto].
  - destruct (IH Hi) as (P & ? & ?). exists P. split; [now right|auto].
Qed.
Lemma vals_keys L t : map fst (vals L t) = map fst (text_cells L t).
Proof. generalize (vals_only L t). induction 1 as [|x y l l' [E _] _ IH]; auto. cbn [map]. now rewrite E, IH. Qed.

Section Check.
  Context {F : Type}.
  Variable fparse : str -> option F.
  Definition entry_keptb (c : columns) (a : str) (l : list entry) : bool :=
    let es := entries_for a l in
    let cells := fun e : tline * text => vals (lengths (map snd es)) (snd e) in
    let names := match es with [] => [] | e :: _ => map fst (cells e) end in
    let here := fun n => flat_map (fun x => flat_map (fun y => if eqs n (fst y) then [snd y] else []) (cells x)) es in
    forallb (fun e => if list_eq_dec (list_eq_dec ascii_dec) (map fst (cells e)) names then true else false) es &&
    forallb (fun n => negb (existsb (eqs (column c n)) [[]; $"Time"; $"__comm"; $"__pid"; $"__cpu"; $"__line"])) names &&
    forallb (fun n =>
      forallb (fun y => snd y && match shown c n (fst y) with CInt z => int64 z | _ => false end) (here n) ||
      (forallb (fun y => snd y && match shown c n (fst y) with CStr _ => true | _ => false end) (here n) &&
       texts_okb fparse (flat_map (fun y => match shown c n (fst y) with CStr s => [s] | _ => [] end) (here n)))) names &&
    texts_okb fparse (map (fun x => l_comm (fst x)) es) &&
    forallb (fun x => int64 (Z.of_N (dec_val (l_pid (fst x)))) && int64 (Z.of_N (dec_val (l_cpu (fst x))))) es.
  Lemma entry_keptb_ok c a l : entry_keptb c a l = true -> entry_kept fparse c a l.
  Proof.
    unfold entry_keptb, entry_kept. set (es := entries_for a l). set (L := lengths (map snd es)).
    set (cells := fun e : tline * text => vals L (snd e)).
    set (names := match es with [] => [] | e :: _ => map fst (cells e) end).
    set (here := fun n => flat_map (fun x => flat_map (fun y => if eqs n (fst y) then [snd y] else []) (cells x)) es).
    intros H. repeat (apply andb_true_iff in H as [H ?]). rename H into A1, H0 into A5, H1 into A4, H2 into A3, H3 into A2.
    rewrite forallb_forall in A1, A2, A3, A5.
    assert (Hn : forall x, In x es -> map fst (text_cells L (snd x)) = names).
    { intros x Hx. specialize (A1 x Hx). rewrite <- vals_keys. fold (cells x). destruct (list_eq_dec _ _ _); [auto|discriminate]. }
    assert (Hh : forall n y, In y (here n) <-> exists x, In x es /\ In (n, y) (cells x)).
    { intros n y. unfold here. rewrite in_flat_map. split.
      - intros (x & Hx & Hy). apply in_flat_map in Hy as ([n' y'] & Hc & Hy). cbn [fst snd] in Hy. destruct (eqs_spec n n') as [<-|]; [|destruct Hy].
        destruct Hy as [<-|[]]. eauto.
      - intros (x & Hx & Hy). exists x. split; auto. apply in_flat_map. exists (n, y). split; auto. cbn [fst snd]. rewrite eqs_refl. now left. }
    split; [intros x y Hx Hy; transitivity names; [|symmetry]; now apply Hn|]. split.
    { intros x n Hx Hi C. assert (Hi' : In n names) by (rewrite <- (Hn x Hx); exact Hi). specialize (A2 n Hi').
      assert (X : existsb (eqs (column c n)) [[]; $"Time"; $"__comm"; $"__pid"; $"__cpu"; $"__line"] = true); [|now rewrite X in A2].
      apply existsb_exists. exists (column c n). split; auto. apply eqs_refl. }
    split; [|split; [now apply texts_okb_ok|]].
    - intros n. destruct (in_dec (list_eq_dec ascii_dec) n names) as [Hi|Hi].
      + specialize (A3 n Hi). apply orb_true_iff in A3 as [A|A].
        * left. intros x P v Hx Hc HP. rewrite forallb_forall in A. destruct (only_l _ _ _ _ (vals_only L (snd x)) Hc) as (w & b & Hw & Ho).
          assert (Hy : In (w, b) (here n)) by (apply Hh; exists x; auto). specialize (A _ Hy). cbn [fst snd] in A. apply andb_true_iff in A as [A B].
          rewrite (Ho A v HP). destruct (shown c n w); try discriminate. eexists. split; [reflexivity|]. now apply int64_iff.
        * right. apply andb_true_iff in A as [A B]. rewrite forallb_forall in A. eexists. split; [apply texts_okb_ok; exact B|]. split.
          -- intros x P v Hx Hc HP. destruct (only_l _ _ _ _ (vals_only L (snd x)) Hc) as (w & b & Hw & Ho).
             assert (Hy : In (w, b) (here n)) by (apply Hh; exists x; auto). assert (A0 := A _ Hy). cbn [fst snd] in A0. apply andb_true_iff in A0 as [A0 B0].
             rewrite (Ho A0 v HP). destruct (shown c n w) as [|s|] eqn:Es; try discriminate. exists s. split; [|reflexivity].
             apply in_flat_map. exists (w, b). split; auto. cbn [fst]. rewrite Es. now left.
          -- intros s Hs. apply in_flat_map in Hs as ([w b] & Hy & Hs). assert (A0 := A _ Hy). cbn [fst snd] in A0, Hs. apply andb_true_iff in A0 as [A0 _].
             apply Hh in Hy as (x & Hx & Hy). destruct (only_r _ _ _ _ _ (vals_only L (snd x)) Hy) as (P & HP & Ho).
             exists x, P. split; auto. split; auto. intros v Hv. rewrite (Ho A0 v Hv). destruct (shown c n w) as [z|s'|]; [destruct Hs|destruct Hs as [->|[]]; reflexivity|destruct Hs].
      + left. intros x P v Hx Hc. exfalso. apply Hi. rewrite <- (Hn x Hx). apply in_map_iff. exists (n, P). auto.
    - intros x Hx. specialize (A5 x Hx). apply andb_true_iff in A5 as [B C]. split; now apply int64_iff.
  Qed.
End Check.
