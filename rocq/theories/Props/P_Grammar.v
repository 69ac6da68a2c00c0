(** C39: the value of an expression is that of the documented precedence. *)
From Coq Require Import List Ascii String ZArith NArith Bool Lia.
From Verif Require Import Lib.PyStr Lib.PyStrFacts Model.Grammar Spec.Grammar Proofs.GrammarT Proofs.GrammarP Spec.Words Proofs.WordsP.
Import ListNotations.
Local Open Scope list_scope.

(** ** C39 *)
(** Every text of an expression, followed by nothing that continues it, has the value
    of the expression. *)
Theorem C39_value : forall {V : Type} (en : env V) e s tail v, Text 6 e s -> Ends tail ->
  value en e = Ok v -> solve en (s ++ tail) = Ok v.
Proof. exact @solve_value. Qed.
(** Nor has it one when the expression has none, if no IndexError is involved. *)
Theorem C39_agree : forall {V : Type} (en : env V) e s tail, NoIndex en -> Text 6 e s -> Ends tail ->
  agree (solve en (s ++ tail)) (value en e).
Proof. exact @solve_ok. Qed.
(** The parser stops on every text. *)
Theorem C39_total : forall {V : Type} (en : env V) s, run en s <> VFuel.
Proof. exact @run_total. Qed.
(** The characters that the texts of the specification are made of. *)
Theorem C39_chars : forall c,
  (is_ws c = true <-> In c spaces) /\ (is_digit c = true <-> In c figures) /\
  (id_start c = true <-> In c (small ++ capital ++ $"_")) /\
  (id_char c = true <-> In c (small ++ capital ++ $"_" ++ figures)).
Proof. exact chars. Qed.
(** A name that Python's [float] takes is a number; any other name is the parameter of that name, and without one
    the column named by its second letter. *)
Theorem C39_name : forall {V : Type} (fl : str -> V) pvars agg x,
  (NumberWord x -> var_id fl pvars agg x = Ok (fl x)) /\
  (~ NumberWord x ->
     (forall v, pvars x = Some v -> var_id fl pvars agg x = Ok v) /\
     (pvars x = None -> (List.length x < 2)%nat -> var_id fl pvars agg x = Err EIndex) /\
     (forall a b r, x = a :: b :: r -> pvars x = None ->
        (forall v, agg [b] = Some v -> var_id fl pvars agg x = Ok v) /\ (agg [b] = None -> var_id fl pvars agg x = Err EKey))).
Proof. exact @var_id_ok. Qed.
Example C39_name_ex : NumberWord $"Inf" /\ ~ NumberWord $"info".
Proof.
  split.
  - exists $"inf". split; [right; now left|]. repeat apply Forall2_cons; try apply Forall2_nil.
    + now exists 8%nat; split; [|right].
    + now exists 13%nat; split; [|left].
    + now exists 5%nat; split; [|left].
  - intros (w & H & F). destruct H as [<-|[<-|[<-|[]]]]; repeat match goal with H : Forall2 _ _ _ |- _ => inversion H; subst; clear H end.
Qed.

(** Values that show how they were computed. *)
Definition show : env str :=
  {| e_num := fun t => t; e_id := fun x => Ok x; e_acc := fun e c => Ok (e ++ $":" ++ c);
     e_fun := fun f => Ok (fun vs => Ok (f ++ $"[" ++ List.concat (map (fun v => v ++ $";") vs) ++ $"]"));
     e_neg := fun v => Ok ($"(-" ++ v ++ $")"); e_op := fun o a b => Ok ($"(" ++ a ++ o ++ b ++ $")") |}.
Definition op_in (op : str) (l : nat) := exists ops, In (l, ops) table /\ In op ops.
Ltac op := eexists; split; [cbn; eauto 8|cbn; eauto 8].
Lemma white_nil : white []. Proof. constructor. Qed.
Lemma white_one : white $" ". Proof. repeat constructor. Qed.
Definition num (c : ascii) : Prop := Number [c].
Lemma text_digit c : is_digit c = true -> Text 0 (ENum [c]) [c].
Proof. intros H. apply T_num, N_int. split; [discriminate|]. now constructor. Qed.
Lemma text_name c : id_start c = true -> Text 0 (EVar [c]) [c].
Proof. intros H. apply T_var. exists c, []. auto. Qed.
(** [a - b - -2 ** 3 ** -1 < f(x, 1)] *)
Definition ex_exp : exp :=
  EBin $"<" (EBin $"-" (EBin $"-" (EVar $"a") (EVar $"b"))
                       (EUn $"-" (EBin $"**" (EBin $"**" (ENum $"2") (ENum $"3")) (ENum $"-1"))))
            (ECall $"f" (EVar $"x") [ENum $"1"]).
Lemma ex_text : Text 6 ex_exp $"a - b - -2 ** 3 ** -1 < f(x, 1)".
Proof.
  assert (A : Text 0 (EVar $"a") $"a") by (apply text_name; reflexivity).
  assert (B : Text 0 (EVar $"b") $"b") by (apply text_name; reflexivity).
  assert (X : Text 0 (EVar $"x") $"x") by (apply text_name; reflexivity).
  assert (N1 : Text 0 (ENum $"1") $"1") by (apply text_digit; reflexivity).
  assert (N2 : Text 0 (ENum $"2") $"2") by (apply text_digit; reflexivity).
  assert (N3 : Text 0 (ENum $"3") $"3") by (apply text_digit; reflexivity).
  assert (U : forall k l e s, (k + l <= 6)%nat -> Text l e s -> Text (k + l) e s).
  { induction k as [|k IH]; intros l e s H H'; auto. cbn [Nat.add]. apply T_looser; [lia|]. apply IH; auto. lia. }
  assert (P : Text 1 (EBin $"**" (EBin $"**" (ENum $"2") (ENum $"3")) (ENum $"-1")) $"2 ** 3 ** -1").
  { apply (T_power_signed (EBin $"**" (ENum $"2") (ENum $"3")) $"2 ** 3" $" " $" " "-"%char $"1"); auto using white_one; [|now right|apply N_int; split; [discriminate|repeat constructor]].
    apply (T_binary 0 $"**" (ENum $"2") $"2" (ENum $"3") $" 3" $" "); auto using white_one; [exists [$"**"]; cbn; auto|apply (U 1%nat); [lia|auto]|apply (T_white 0 (ENum $"3") $"3" $" "); auto using white_one]. }
  assert (M : Text 2 (EUn $"-" (EBin $"**" (EBin $"**" (ENum $"2") (ENum $"3")) (ENum $"-1"))) $"-2 ** 3 ** -1").
  { apply (T_unary "-"%char); [now right|]. apply (U 1%nat 1%nat); [lia|exact P]. }
  assert (D : Text 4 (EBin $"-" (EVar $"a") (EVar $"b")) $"a - b").
  { apply (T_binary 3 $"-" (EVar $"a") $"a" (EVar $"b") $" b" $" "); auto using white_one;
      [exists [$"+"; $"-"]; cbn; auto|apply (U 4%nat 0%nat); [lia|auto]|apply (T_white 3 (EVar $"b") $"b" $" "); auto using white_one; apply (U 3%nat 0%nat); [lia|auto]]. }
  assert (S : Text 4 (EBin $"-" (EBin $"-" (EVar $"a") (EVar $"b")) (EUn $"-" (EBin $"**" (EBin $"**" (ENum $"2") (ENum $"3")) (ENum $"-1")))) $"a - b - -2 ** 3 ** -1").
  { apply (T_binary 3 $"-" _ $"a - b" _ $" -2 ** 3 ** -1" $" "); auto using white_one; [exists [$"+"; $"-"]; cbn; auto|].
    apply (T_white 3 _ $"-2 ** 3 ** -1" $" "); auto using white_one. apply (U 1%nat 2%nat); [lia|exact M]. }
  assert (F : Text 0 (ECall $"f" (EVar $"x") [ENum $"1"]) $"f(x, 1)").
  { apply (T_call $"f" [] (EVar $"x") $"x" [ENum $"1"] $", 1" []); auto using white_nil.
    - apply D_one. exists "f"%char, []. auto.
    - apply (U 6%nat 0%nat); [lia|auto].
    - apply (Ts_cons [] (ENum $"1") $" 1" [] []); [constructor| |constructor]. apply (T_white 6 (ENum $"1") $"1" $" "); auto using white_one. apply (U 6%nat 0%nat); [lia|auto]. }
  apply (U 1%nat 5%nat); [lia|].
  apply (T_binary 4 $"<" _ $"a - b - -2 ** 3 ** -1" _ $" f(x, 1)" $" "); auto using white_one.
  - exists [$">"; $"<"; $">="; $"<="; $"=="; $"!="]. cbn. auto 10.
  - apply (U 1%nat 4%nat); [lia|exact S].
  - apply (T_white 4 _ $"f(x, 1)" $" "); auto using white_one. apply (U 4%nat 0%nat); [lia|exact F].
Qed.
Example C39_ex :
  Text 6 ex_exp $"a - b - -2 ** 3 ** -1 < f(x, 1)" /\ Ends $" ;" /\
  solve show $"a - b - -2 ** 3 ** -1 < f(x, 1) ;" = Ok $"(((a-b)-(-((2**3)**-1)))<f[x;1;])" /\
  value show ex_exp = Ok $"(((a-b)-(-((2**3)**-1)))<f[x;1;])".
Proof.
  split; [exact ex_text|]. split; [|split; vm_compute; reflexivity]. split; cbn; [split; [reflexivity|discriminate]|intuition discriminate].
Qed.
Example C39_ex_levels :
  solve show $"a||b&c==d+e*f**g" = Ok $"((a||b)&(c==(d+(e*(f**g)))))" /\
  solve show $"a < b < c" = Ok $"((a<b)<c)" /\ solve show $"-a**b" = Ok $"(-(a**b))" /\
  solve show $"2 * (3 + x.y:z) // 1.5e-3" = Ok $"((2*(3+x.y:z))//1.5e-3)" /\ solve show $"a -1" = Ok $"(a-1)".
Proof. repeat split; vm_compute; reflexivity. Qed.
(** Python's power is right associative, the grammar's is not. *)
Example C39_python_refuted : solve show $"2**3**2" = Ok $"((2**3)**2)".
Proof. vm_compute. reflexivity. Qed.
(** What does not parse is ignored without notice: a negated power, a number with an
    exponent but no point, anything after the expression. *)
Example C39_ignored_refuted :
  solve show $"2**-x" = Ok $"2" /\ solve show $"1e5" = Ok $"1" /\ solve show $"a b" = Ok $"a" /\ solve show $"(a + b) )* 2" = Ok $"(a+b)" /\
  solve show $"a + b : c" = Ok $"(a+b:c)" /\ solve show $"f(a" = Ok $"f".
Proof. repeat split; vm_compute; reflexivity. Qed.
(** An IndexError ends the expression before the operand that raised it, and nobody
    is told: so do an unknown name of one letter and a call without arguments. *)
Definition known : env str :=
  {| e_num := fun t => t;
     e_id := var_id (fun t => t) (fun x => if eqs x $"v" then Some $"V" else None) (fun c => if eqs c $"n" then Some $"column n" else None);
     e_acc := fun e c => Ok (e ++ $":" ++ c);
     e_fun := fun f => Ok (fun vs => Ok (f ++ $"[" ++ List.concat (map (fun v => v ++ $";") vs) ++ $"]"));
     e_neg := fun v => Ok ($"(-" ++ v ++ $")"); e_op := fun o a b => Ok ($"(" ++ a ++ o ++ b ++ $")") |}.
Example C39_index_refuted :
  solve known $"e:c + v * 2" = Ok $"(e:c+(V*2))" /\
  solve known $"e:c + w * 2" = Ok $"e:c" /\ solve known $"v + v + w" = Ok $"(V+V)" /\ solve known $"v()" = Ok $"V" /\
  solve known $"f(v, w)" = Err EParse /\ solve known $"w" = Err EParse.
Proof. repeat split; vm_compute; reflexivity. Qed.
(** An unknown name means the column named by its second letter, if there is one,
    and nan and inf are numbers. *)
Example C39_second_letter_refuted :
  solve known $"unknown" = Ok $"column n" /\ solve known $"other" = Err EKey /\ solve known $"inf + nan" = Ok $"(inf+nan)".
Proof. repeat split; vm_compute; reflexivity. Qed.
Example C39_ex_agree : NoIndex show.
Proof.
  repeat split; try discriminate. intros f fn vs [= <-]. discriminate.
Qed.

Print Assumptions C39_value.
Print Assumptions C39_agree.
Print Assumptions C39_total.
Print Assumptions C39_chars.
Print Assumptions C39_name.
