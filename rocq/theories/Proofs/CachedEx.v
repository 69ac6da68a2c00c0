(** Used only for concrete examples: a text for every double, and boolean checks of
    the conditions on reports. *)
From Coq Require Import List Ascii String ZArith NArith Bool Lia.
From Flocq Require Import BinarySingleNaN.
From Verif Require Import Lib.PyStr Lib.PyStrFacts Lib.F64 Model.Base Model.Line Model.Registry Model.Populate
  Model.Csv Spec.Lines Spec.Payload Spec.Arrays Spec.Parts Spec.Trace Spec.Tables Spec.Written Spec.Cached
  Proofs.PayloadP Proofs.FrameP Proofs.SolveP Proofs.WrittenP Proofs.CsvP.
Import ListNotations.
Local Open Scope char_scope.

Fixpoint pos_text (p : positive) : str :=
  match p with xH => ["."] | xO p => "0" :: pos_text p | xI p => "1" :: pos_text p end.
Fixpoint pos_read (s : str) : option (positive * str) :=
  match s with
  | [] => None
  | c :: r => if Ascii.eqb c "." then Some (xH, r)
              else match pos_read r with
                   | Some (p, r) => Some (if Ascii.eqb c "1" then xI p else xO p, r)
                   | None => None
                   end
  end.
Lemma pos_round p r : pos_read (pos_text p ++ r) = Some (p, r).
Proof. revert r. induction p as [p IH|p IH|]; intros r; cbn; [now rewrite IH|now rewrite IH|reflexivity]. Qed.
Definition Z_text (z : Z) : str := match z with Z0 => ["z"] | Zpos p => "p" :: pos_text p | Zneg p => "n" :: pos_text p end.
Definition Z_read (s : str) : option Z :=
  match s with
  | c :: r => if Ascii.eqb c "z" then Some 0%Z
              else match pos_read r with Some (p, _) => Some (if Ascii.eqb c "p" then Zpos p else Zneg p) | None => None end
  | [] => None
  end.
Lemma Z_round z : Z_read (Z_text z) = Some z.
Proof. destruct z as [|p|p]; cbn [Z_text]; [reflexivity| |]; cbn; rewrite <- (app_nil_r (pos_text p)), pos_round; reflexivity. Qed.
Definition sign_text (b : bool) : ascii := if b then "-" else "+".
Definition float_text (x : float) : str :=
  match x with
  | B754_zero s => ["z"; sign_text s]
  | B754_infinity s => ["i"; sign_text s]
  | B754_nan => ["n"; "+"]
  | B754_finite s m e _ => "f" :: sign_text s :: pos_text m ++ Z_text e
  end.
Definition float_read (t : str) : option float :=
  match t with
  | k :: s :: r =>
      let b := Ascii.eqb s "-" in
      if Ascii.eqb k "z" then Some (B754_zero b) else if Ascii.eqb k "i" then Some (B754_infinity b)
      else if Ascii.eqb k "n" then Some B754_nan
      else match pos_read r with
           | Some (m, r') =>
               match Z_read r' with
               | Some e => match SpecFloat.bounded 53 1024 m e as v return SpecFloat.bounded 53 1024 m e = v -> option float with
                           | true => fun H => Some (B754_finite b m e H)
                           | false => fun _ => None
                           end eq_refl
               | None => None
               end
           | None => None
           end
  | _ => None
  end.
Lemma bounded_some (b : bool) m e : forall v (E : SpecFloat.bounded 53 1024 m e = v) (H : SpecFloat.bounded 53 1024 m e = true),
  match v as v return SpecFloat.bounded 53 1024 m e = v -> option float with
  | true => fun H => Some (B754_finite b m e H)
  | false => fun _ => None
  end E = Some (B754_finite b m e H).
Proof. intros [|] E H; [|congruence]. f_equal. f_equal. apply Eqdep_dec.UIP_dec. apply bool_dec. Qed.
Lemma float_round x : float_read (float_text x) = Some x.
Proof.
  destruct x as [s|s| |s m e H]; [now destruct s|now destruct s|reflexivity|].
  assert (Es : Ascii.eqb (sign_text s) "-" = s) by now destruct s.
  unfold float_text, float_read. cbn [Ascii.eqb Bool.eqb]. rewrite pos_round, Z_round, Es. apply bounded_some.
Qed.

Section Check.
  Context {F : Type}.
  Variable fparse : str -> option F.
  Definition is_bool (s : str) : bool := existsb (eqs s) [$"True"; $"TRUE"; $"true"; $"False"; $"FALSE"; $"false"].
  Definition is_int (s : str) : bool := let d := match s with c :: r => if Ascii.eqb c "-" || Ascii.eqb c "+" then r else s | [] => s end in
    match d with [] => false | _ => forallb is_digit d end.
  Definition texts_okb (ss : list str) : bool :=
    forallb (fun s => negb (is_na s)) ss &&
    (match ss with [] => true | _ => existsb (fun s => match fparse s with None => negb (is_int s) && negb (is_bool s) | _ => false end) ss end).
  Lemma is_int_ok s : is_int s = false -> ~ int_text s.
  Proof.
    intros H (sg & ds & -> & Hs & Hne & Hd).
    assert (Hf : forallb is_digit ds = true) by (apply forallb_forall; now apply Forall_forall).
    destruct ds as [|d ds]; [congruence|]. destruct Hs as [<-|[<-|[<-|[]]]].
    - cbn [app] in H. unfold is_int in H. assert (E : Ascii.eqb d "-" || Ascii.eqb d "+" = false).
      { inversion Hd as [|? ? Hdd _]; subst. destruct (digit_not_sign d Hdd) as [-> ->]. reflexivity. }
      rewrite E in H. congruence.
    - change ($"-" ++ d :: ds) with ("-" :: d :: ds) in H. unfold is_int in H. cbn [Ascii.eqb Bool.eqb orb] in H. congruence.
    - change ($"+" ++ d :: ds) with ("+" :: d :: ds) in H. unfold is_int in H. cbn [Ascii.eqb Bool.eqb orb] in H. congruence.
  Qed.
  Lemma texts_okb_ok ss : texts_okb ss = true -> texts_ok fparse ss.
  Proof.
    unfold texts_okb. intros H. apply andb_true_iff in H as [H1 H2]. split.
    - apply Forall_forall. intros s Hs C. rewrite forallb_forall in H1. specialize (H1 s Hs). apply is_na_iff in C. now rewrite C in H1.
    - intros Hne. destruct ss as [|s0 ss0] eqn:E; [congruence|]. rewrite <- E in *. apply existsb_exists in H2 as (s & Hs & H2).
      exists s. split; auto. destruct (fparse s); [discriminate|]. split; auto. apply andb_true_iff in H2 as [H2 H3]. split.
      + apply is_int_ok. now destruct (is_int s).
      + intros C. assert (X : is_bool s = true); [|now rewrite X in H3]. unfold is_bool. apply existsb_exists. exists s. split; auto. apply eqs_refl.
  Qed.
  Definition event_keptb (a : str) (items : list item) : bool :=
    let es := written_for a items in
    let cells := fun e : tline * list part => flat_map (part_cells (trace_len (map snd es))) (snd e) in
    let names := match es with [] => [] | e :: _ => map fst (cells e) end in
    forallb (fun e => if list_eq_dec (list_eq_dec ascii_dec) (map fst (cells e)) names then true else false) es &&
    forallb (fun n => negb (existsb (eqs n) [$"Time"; $"__comm"; $"__pid"; $"__cpu"; $"__line"])) names &&
    forallb (fun n =>
      forallb (fun e => forallb (fun c => negb (eqs n (fst c)) || (nospaceb (fst (snd c)) && match py_int0 (fst (snd c)) with Some z => int64 z | None => false end)) (cells e)) es ||
      (forallb (fun e => forallb (fun c => negb (eqs n (fst c)) || match py_int0 (fst (snd c)) with Some _ => false | None => true end) (cells e)) es &&
       texts_okb (flat_map (fun x => flat_map (fun c => if eqs n (fst c) then [join $" " (fst (snd c) :: snd (snd c))] else []) (cells x)) es))) names &&
    texts_okb (map (fun x => l_comm (fst x)) es) &&
    forallb (fun x => int64 (Z.of_N (dec_val (l_pid (fst x)))) && int64 (Z.of_N (dec_val (l_cpu (fst x))))) es.
  Lemma event_keptb_ok a items : event_keptb a items = true -> event_kept fparse a items.
  Proof.
    unfold event_keptb, event_kept. set (es := written_for a items).
    set (cells := fun e : tline * list part => flat_map (part_cells (trace_len (map snd es))) (snd e)).
    set (names := match es with [] => [] | e :: _ => map fst (cells e) end).
    intros H. repeat (apply andb_true_iff in H as [H ?]). rename H into A1, H0 into A5, H1 into A4, H2 into A3, H3 into A2.
    rewrite forallb_forall in A1, A2, A3, A5.
    assert (Hn : forall x, In x es -> map fst (cells x) = names).
    { intros x Hx. specialize (A1 x Hx). destruct (list_eq_dec _ _ _); [auto|discriminate]. }
    split; [intros x y Hx Hy; transitivity names; [|symmetry]; now apply Hn|]. split.
    { intros x n Hx Hi C. assert (Hi' : In n names) by (rewrite <- (Hn x Hx); exact Hi). specialize (A2 n Hi').
      assert (X : existsb (eqs n) [$"Time"; $"__comm"; $"__pid"; $"__cpu"; $"__line"] = true); [|now rewrite X in A2].
      apply existsb_exists. exists n. split; auto. apply eqs_refl. }
    split; [|split; [now apply texts_okb_ok|]].
    - intros n. destruct (in_dec (list_eq_dec ascii_dec) n names) as [Hi|Hi].
      + specialize (A3 n Hi). apply orb_true_iff in A3 as [A|A].
        * left. intros x v more Hx Hc. rewrite forallb_forall in A. specialize (A x Hx). rewrite forallb_forall in A. specialize (A _ Hc).
          cbn [fst snd] in A. rewrite eqs_refl in A. cbn [negb orb] in A. apply andb_true_iff in A as [A B].
          destruct (py_int0 v) as [z|] eqn:E; [|discriminate]. exists z. split; [|now apply int64_iff]. apply py_int0_iff in E; auto.
          unfold no_space. apply Forall_forall. unfold nospaceb in A. rewrite forallb_forall in A. intros c Hcc. specialize (A c Hcc). now destruct (is_space c).
        * right. apply andb_true_iff in A as [A B]. split; [|now apply texts_okb_ok]. intros x v more z Hx Hc Hl.
          rewrite forallb_forall in A. specialize (A x Hx). rewrite forallb_forall in A. specialize (A _ Hc). cbn [fst snd] in A.
          rewrite eqs_refl in A. cbn [negb orb] in A. apply py_int0_iff in Hl; [now rewrite Hl in A|]. eapply literal_no_space; eauto.
      + left. intros x v more Hx Hc. exfalso. apply Hi. rewrite <- (Hn x Hx). apply in_map_iff. exists (n, (v, more)). auto.
    - intros x Hx. specialize (A5 x Hx). apply andb_true_iff in A5 as [B C]. split; now apply int64_iff.
  Qed.
End Check.
