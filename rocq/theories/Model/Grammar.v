(** Model of the expression grammar of trappy/stats/grammar.py, as pyparsing runs it. *)
From Coq Require Import List Ascii String ZArith NArith Bool.
From Verif Require Import Lib.PyStr.
Import ListNotations.
Local Open Scope list_scope.

(** ** The parsing expressions of pyparsing that the grammar uses *)
(** The result of a parsing expression: no match, out of fuel (which never happens,
    C39_total), or a value and the text that follows. *)
Inductive pres (A : Type) := PNo | PFuel | PYes (a : A) (rest : str).
Arguments PNo {A}. Arguments PFuel {A}. Arguments PYes {A} a rest.

(** [ParserElement.DEFAULT_WHITE_CHARS] *)
Definition is_ws (c : ascii) : bool := (code c =? 32)%N || (code c =? 9)%N || (code c =? 10)%N || (code c =? 13)%N.
Fixpoint span (p : ascii -> bool) (s : str) : str * str :=
  match s with
  | c :: r => if p c then let '(a, b) := span p r in (c :: a, b) else ([], s)
  | [] => ([], [])
  end.
Definition skip (s : str) : str := snd (span is_ws s).
(** A prefix removed; [Literal] without the white space before it. *)
Fixpoint eat (p s : str) : option str :=
  match p, s with
  | [], _ => Some s
  | x :: p', y :: s' => if Ascii.eqb x y then eat p' s' else None
  | _ :: _, [] => None
  end.
Definition literal (p s : str) : option str := eat p (skip s).
(** [oneOf]: longer alternatives first. *)
Fixpoint eat_one (ps : list str) (s : str) : option (str * str) :=
  match ps with
  | [] => None
  | p :: r => match eat p s with Some s' => Some (p, s') | None => eat_one r s end
  end.
Definition one_of (ps : list str) (s : str) : option (str * str) := eat_one ps (skip s).

(** ** Tokens *)
Definition is_alpha (c : ascii) : bool := is_upper c || is_lower c.
Definition id_start (c : ascii) : bool := is_alpha c || (code c =? 95)%N.
Definition id_char (c : ascii) : bool := id_start c || is_digit c.
(** grammar.py:62 [IDENTIFIER], without the white space before it *)
Definition ident (s : str) : option (str * str) :=
  match s with
  | c :: r => if id_start c then let '(a, b) := span id_char r in Some (c :: a, b) else None
  | [] => None
  end.
(** 64 [FUNC_NAME]: a dotted name without white space inside *)
Fixpoint dotted (n : nat) (s : str) : str * str :=
  match n, s with
  | S n', "."%char :: r =>
      match ident r with
      | Some (a, b) => let '(x, y) := dotted n' b in ("."%char :: a ++ x, y)
      | None => ([], s)
      end
  | _, _ => ([], s)
  end.
Definition func_name (s : str) : option (str * str) :=
  match ident (skip s) with
  | Some (a, b) => let '(x, y) := dotted (List.length b) b in Some (a ++ x, y)
  | None => None
  end.
(** 53-59 [INTEGER] and [REAL] *)
Definition sign (s : str) : str * str :=
  match s with
  | c :: r => if is_ch "+" c || is_ch "-" c then ([c], r) else ([], s)
  | [] => ([], [])
  end.
Definition digits1 (s : str) : option (str * str) :=
  match span is_digit s with
  | ([], _) => None
  | (d, r) => Some (d, r)
  end.
Definition exponent (s : str) : str * str :=
  match s with
  | c :: r => if is_ch "e" c || is_ch "E" c then
                let '(g, r') := sign r in
                match digits1 r' with Some (d, r'') => (c :: g ++ d, r'') | None => ([], s) end
              else ([], s)
  | [] => ([], [])
  end.
Definition integer (s : str) : option (str * str) :=
  let '(g, s1) := sign (skip s) in
  match digits1 s1 with Some (d, s2) => Some (g ++ d, s2) | None => None end.
Definition real (s : str) : option (str * str) :=
  let '(g, s1) := sign (skip s) in
  match digits1 s1 with
  | Some (d, "."%char :: s2) =>
      let '(f, s3) := span is_digit s2 in
      let '(e, s4) := exponent s3 in
      Some (g ++ d ++ "."%char :: f ++ e, s4)
  | _ => None
  end.

(** ** The syntax of expressions *)
(** What is recognised, without the parse actions: pyparsing looks ahead this way
    before it applies an operator. *)
Inductive ast :=
| ANum (text : str)
| AId (name : str)
| AAcc (event column : str)
| ACall (f : str) (args : list ast)
| AUn (op : str) (a : ast)
| ABin (a : ast) (l : list (str * ast)).

(** 66-76 *)
Definition pow_ops := [$"**"].
Definition unary_ops := [$"+"; $"-"].
Definition mult_ops := [$"*"; $"//"; $"/"; $"%"].
Definition sum_ops := [$"+"; $"-"].
Definition rel_ops := [$">="; $">"; $"<="; $"<"; $"=="; $"!="].
Definition logical_ops := [$"&&"; $"||"; $"&"; $"|"].

Definition parser := str -> pres ast.
(** [OneOrMore(op + term)] and nothing *)
Fixpoint p_rest (ops : list str) (term : parser) (n : nat) (s : str) : pres (list (str * ast)) :=
  match n with
  | O => PFuel
  | S n' =>
      match one_of ops s with
      | None => PYes [] s
      | Some (o, s1) =>
          match term s1 with
          | PNo => PYes [] s
          | PFuel => PFuel
          | PYes t s2 =>
              match p_rest ops term n' s2 with
              | PYes l s3 => PYes ((o, t) :: l) s3
              | PNo => PNo | PFuel => PFuel
              end
          end
      end
  end.
(** A left associative level of [operatorPrecedence]. *)
Definition p_binary (ops : list str) (term : parser) : parser := fun s =>
  match term s with
  | PYes t s1 =>
      match p_rest ops term (S (List.length s1)) s1 with
      | PYes [] s2 => PYes t s2
      | PYes l s2 => PYes (ABin t l) s2
      | PNo => PNo | PFuel => PFuel
      end
  | PNo => PNo | PFuel => PFuel
  end.
(** The right associative unary level. *)
Fixpoint p_unary (term : parser) (n : nat) (s : str) : pres ast :=
  match n with
  | O => PFuel
  | S n' =>
      match one_of unary_ops s with
      | Some (o, s1) =>
          match p_unary term n' s1 with
          | PYes t s2 => PYes (AUn o t) s2
          | PNo => term s
          | PFuel => PFuel
          end
      | None => term s
      end
  end.
Section Base.
  Context (rec : parser).
  (** [delimitedList(arith_expr)] after its first element *)
  Fixpoint p_more (n : nat) (s : str) : pres (list ast) :=
    match n with
    | O => PFuel
    | S n' =>
        match literal $"," s with
        | None => PYes [] s
        | Some s1 =>
            match rec s1 with
            | PNo => PYes [] s
            | PFuel => PFuel
            | PYes t s2 =>
                match p_more n' s2 with
                | PYes l s3 => PYes (t :: l) s3
                | PNo => PNo | PFuel => PFuel
                end
            end
        end
    end.
  Definition p_args (s : str) : pres (list ast) :=
    match rec s with
    | PNo => PYes [] s
    | PFuel => PFuel
    | PYes t s1 =>
        match p_more (S (List.length s1)) s1 with
        | PYes l s2 => PYes (t :: l) s2
        | PNo => PNo | PFuel => PFuel
        end
    end.
  Definition close {A} (a : A) (s : str) : pres A :=
    match literal $")" s with Some s' => PYes a s' | None => PNo end.
  (** 173-180 [func_call] *)
  Definition p_call : parser := fun s =>
    match func_name s with
    | None => PNo
    | Some (f, s1) =>
        match literal $"(" s1 with
        | None => PNo
        | Some s2 =>
            match p_args s2 with
            | PYes l s3 => close (ACall f l) s3
            | PNo => PNo | PFuel => PFuel
            end
        end
    end.
  (** 168-169 [var_id] *)
  Definition p_acc : parser := fun s =>
    match func_name s with
    | None => PNo
    | Some (e, s1) =>
        match literal $":" s1 with
        | None => PNo
        | Some s2 => match ident (skip s2) with Some (c, s3) => PYes (AAcc e c) s3 | None => PNo end
        end
    end.
  Definition p_var : parser := fun s =>
    match p_acc s with
    | PYes a r => PYes a r
    | PFuel => PFuel
    | PNo =>
        match real s with
        | Some (t, r) => PYes (ANum t) r
        | None =>
            match integer s with
            | Some (t, r) => PYes (ANum t) r
            | None => match ident (skip s) with Some (x, r) => PYes (AId x) r | None => PNo end
            end
        end
    end.
  Definition p_paren : parser := fun s =>
    match literal $"(" s with
    | None => PNo
    | Some s1 => match rec s1 with PYes t s2 => close t s2 | PNo => PNo | PFuel => PFuel end
    end.
  Definition p_base : parser := fun s =>
    match p_call s with
    | PNo => match p_var s with PNo => p_paren s | r => r end
    | r => r
    end.
  (** 184-198, from the tightest to the loosest level *)
  Definition level (k : nat) : parser :=
    let l1 := p_binary pow_ops p_base in
    let l2 := fun s => p_unary l1 (S (List.length s)) s in
    let l3 := p_binary mult_ops l2 in
    let l4 := p_binary sum_ops l3 in
    let l5 := p_binary rel_ops l4 in
    let l6 := p_binary logical_ops l5 in
    match k with 0 => p_base | 1 => l1 | 2 => l2 | 3 => l3 | 4 => l4 | 5 => l5 | _ => l6 end.
End Base.
Fixpoint arith (n : nat) : parser :=
  match n with
  | O => fun _ => PFuel
  | S n' => level (arith n') 6
  end.

(** ** Parsing with the parse actions *)
(** As above, or an exception that ends the parse. *)
Inductive vres (A : Type) := VNo | VFuel | VErr (x : exn) | VYes (a : A) (rest : str).
Arguments VNo {A}. Arguments VFuel {A}. Arguments VErr {A} x. Arguments VYes {A} a rest.
Definition vparser (V : Type) := str -> vres V.

Section Eval.
  Context {V : Type}.
  (** A function of the user returns one value (pyparsing takes None to mean no
      change, and a list to mean several values; this is not modelled). *)
  Record env := Env {
    e_num : str -> V;                         (* 33-40 [parse_num]: [float] of the text *)
    e_id : str -> res V;
    e_acc : str -> str -> res V;
    e_fun : str -> res (list V -> res V);     (* 522-528, the function *)
    e_neg : V -> res V;                       (* -1 * a *)
    e_op : str -> V -> V -> res V             (* 78-96 [OPERATOR_MAP] *)
  }.
  Context (en : env).
  (** The outcome of a parse action: pyparsing takes an IndexError to mean that there
      is no match, and tries the next alternative. *)
  Definition act (r : res V) (rest : str) : vres V :=
    match r with
    | Ok v => VYes v rest
    | Err EIndex => VNo
    | Err x => VErr x
    end.
  (** 128-141 [eval_binary_op] *)
  Fixpoint fold_ops (acc : V) (l : list (str * V)) : res V :=
    match l with
    | [] => Ok acc
    | (o, v) :: r => do x <- e_op en o acc v ;; fold_ops x r
    end.
  Fixpoint v_rest (ops : list str) (term : vparser V) (n : nat) (s : str) : vres (list (str * V)) :=
    match n with
    | O => VFuel
    | S n' =>
        match one_of ops s with
        | None => VYes [] s
        | Some (o, s1) =>
            match term s1 with
            | VNo => VYes [] s
            | VFuel => VFuel
            | VErr x => VErr x
            | VYes v s2 =>
                match v_rest ops term n' s2 with
                | VYes l s3 => VYes ((o, v) :: l) s3
                | r => r
                end
            end
        end
    end.
  (** [FollowedBy(term + op + term)] *)
  Definition look (ops : list str) (term : parser) (s : str) : pres unit :=
    match term s with
    | PYes _ s1 =>
        match one_of ops s1 with
        | Some (_, s2) => match term s2 with PYes _ _ => PYes tt s | PNo => PNo | PFuel => PFuel end
        | None => PNo
        end
    | PNo => PNo | PFuel => PFuel
    end.
  (** [FollowedBy(term + op + term) + Group(term + OneOrMore(op + term)) | term] *)
  Definition v_binary (ops : list str) (syn : parser) (term : vparser V) : vparser V := fun s =>
    match look ops syn s with
    | PNo => term s
    | PFuel => VFuel
    | PYes _ _ =>
        match (match term s with
               | VYes v s1 =>
                   match v_rest ops term (S (List.length s1)) s1 with
                   | VYes [] _ => VNo
                   | VYes l s2 => act (fold_ops v l) s2
                   | VNo => VNo | VFuel => VFuel | VErr x => VErr x
                   end
               | r => r
               end) with
        | VNo => term s
        | r => r
        end
    end.
  (** [FollowedBy(op + this) + Group(op + this) | term]; 99-110 [eval_unary_op] *)
  Fixpoint v_unary (syn : parser) (term : vparser V) (n : nat) (s : str) : vres V :=
    match n with
    | O => VFuel
    | S n' =>
        match one_of unary_ops s with
        | None => term s
        | Some (o, s1) =>
            match p_unary syn n' s1 with
            | PNo => term s
            | PFuel => VFuel
            | PYes _ _ =>
                match (match v_unary syn term n' s1 with
                       | VYes v s2 => act (if eqs o $"-" then e_neg en v else Ok v) s2
                       | r => r
                       end) with
                | VNo => term s
                | r => r
                end
            end
        end
    end.
  Section VBase.
    Context (rec : vparser V).
    Fixpoint v_more (n : nat) (s : str) : vres (list V) :=
      match n with
      | O => VFuel
      | S n' =>
          match literal $"," s with
          | None => VYes [] s
          | Some s1 =>
              match rec s1 with
              | VNo => VYes [] s
              | VFuel => VFuel
              | VErr x => VErr x
              | VYes v s2 =>
                  match v_more n' s2 with
                  | VYes l s3 => VYes (v :: l) s3
                  | r => r
                  end
              end
          end
      end.
    Definition v_args (s : str) : vres (list V) :=
      match rec s with
      | VNo => VYes [] s
      | VFuel => VFuel
      | VErr x => VErr x
      | VYes v s1 =>
          match v_more (S (List.length s1)) s1 with
          | VYes l s2 => VYes (v :: l) s2
          | r => r
          end
      end.
    (** 518-529 [_parse_func]: without arguments there is no [params[1]] *)
    Definition v_call : vparser V := fun s =>
      match func_name s with
      | None => VNo
      | Some (f, s1) =>
          match literal $"(" s1 with
          | None => VNo
          | Some s2 =>
              match v_args s2 with
              | VYes l s3 =>
                  match literal $")" s3 with
                  | None => VNo
                  | Some s4 => act (do fn <- e_fun en f ;; match l with [] => Err EIndex | _ => fn l end) s4
                  end
              | VNo => VNo | VFuel => VFuel | VErr x => VErr x
              end
          end
      end.
    (** 505-516 [_parse_var_id] is applied to what [var_id] has matched. *)
    Definition v_var : vparser V := fun s =>
      match p_var s with
      | PYes (ANum t) r => act (Ok (e_num en t)) r
      | PYes (AId x) r => act (e_id en x) r
      | PYes (AAcc e c) r => act (e_acc en e c) r
      | PYes _ _ => VNo
      | PNo => VNo
      | PFuel => VFuel
      end.
    Definition v_paren : vparser V := fun s =>
      match literal $"(" s with
      | None => VNo
      | Some s1 =>
          match rec s1 with
          | VYes v s2 => match literal $")" s2 with Some s3 => VYes v s3 | None => VNo end
          | r => r
          end
      end.
    Definition v_base : vparser V := fun s =>
      match v_call s with
      | VNo => match v_var s with VNo => v_paren s | r => r end
      | r => r
      end.
    Definition v_level (syn : parser) (k : nat) : vparser V :=
      let l1 := v_binary pow_ops (level syn 0) v_base in
      let l2 := fun s => v_unary (level syn 1) l1 (S (List.length s)) s in
      let l3 := v_binary mult_ops (level syn 2) l2 in
      let l4 := v_binary sum_ops (level syn 3) l3 in
      let l5 := v_binary rel_ops (level syn 4) l4 in
      let l6 := v_binary logical_ops (level syn 5) l5 in
      match k with 0 => v_base | 1 => l1 | 2 => l2 | 3 => l3 | 4 => l4 | 5 => l5 | _ => l6 end.
  End VBase.
  Fixpoint v_arith (n : nat) : vparser V :=
    match n with
    | O => fun _ => VFuel
    | S n' => v_level (v_arith n') (arith n') 6
    end.
  Definition run (s : str) : vres V := v_arith (S (List.length s)) s.
  (** 355-397 [solve], the part after the accessors have been read: [parseString]
      without [parseAll], so what follows the expression is ignored. *)
  Definition solve (s : str) : res V :=
    match run s with
    | VYes v _ => Ok v
    | VNo => Err EParse
    | VErr x => Err x
    | VFuel => Err EFuel
    end.
End Eval.
Arguments env : clear implicits.

(** ** Names *)
(** [float(name)] succeeds. *)
Definition lower_c (c : ascii) : ascii := if is_upper c then ascii_of_N (code c + 32) else c.
Definition float_word (s : str) : bool :=
  existsb (eqs (map lower_c s)) [$"nan"; $"inf"; $"infinity"].
(** 505-516 [_parse_var_id] for an identifier; [agg] is a column of the table of the
    accessors read so far.  An unknown name is indexed as if it were an accessor. *)
Definition var_id {V} (fl : str -> V) (pvars agg : str -> option V) (x : str) : res V :=
  if float_word x then Ok (fl x)
  else match pvars x with
       | Some v => Ok v
       | None => match nth_error x 1 with
                 | None => Err EIndex
                 | Some c => match agg [c] with Some v => Ok v | None => Err EKey end
                 end
       end.
