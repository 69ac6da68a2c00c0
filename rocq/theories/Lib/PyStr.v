(** Python strings, exceptions, integer literals: the library functions the
    code under /repo calls.  A Python [str] is modelled as a list of code points
    0..255 ([ascii]); code points above 255 are not modelled. *)
From Coq Require Import List Ascii String ZArith NArith Bool.
Import ListNotations.

Definition str := list ascii.
Definition lit (s : string) : str := list_ascii_of_string s.
Arguments lit s%string_scope.
Notation "$ s" := (lit s) (at level 1, s at level 0, format "$ s").

(** Python exceptions raised by the modelled code, as values. *)
Inductive exn :=
| EKey | EValue | EIndex | ERuntime | EAttribute | EIO | EParse | EZeroDiv
| EJson | EType | EName | EFuel.

Inductive res (A : Type) := Ok (a : A) | Err (e : exn).
Arguments Ok {A} a.
Arguments Err {A} e.

Definition bind {A B} (x : res A) (f : A -> res B) : res B :=
  match x with Ok a => f a | Err e => Err e end.
Notation "'do' x <- e1 ;; e2" := (bind e1 (fun x => e2))
  (at level 200, x pattern, e1 at level 100, e2 at level 200).

Fixpoint mapM {A B} (f : A -> res B) (l : list A) : res (list B) :=
  match l with
  | [] => Ok []
  | x :: l' => do y <- f x ;; do ys <- mapM f l' ;; Ok (y :: ys)
  end.

(** ** Character classes (exact for code points 0..255) *)
Definition code (c : ascii) : N := N_of_ascii c.
Definition in_range (lo hi : N) (c : ascii) : bool :=
  ((lo <=? code c) && (code c <=? hi))%N.
(** [str.isspace], also [\s] of [re] on [str]. *)
Definition is_space (c : ascii) : bool :=
  in_range 9 13 c || in_range 28 32 c || (code c =? 133)%N || (code c =? 160)%N.
(** [\d] *)
Definition is_digit (c : ascii) : bool := in_range 48 57 c.
Definition is_upper (c : ascii) : bool := in_range 65 90 c.
Definition is_lower (c : ascii) : bool := in_range 97 122 c.
(** [\w]: [str.isalnum] or underscore. *)
Definition is_word (c : ascii) : bool :=
  is_digit c || is_upper c || is_lower c || (code c =? 95)%N
  || (code c =? 170)%N || in_range 178 179 c || (code c =? 181)%N
  || in_range 185 186 c || in_range 188 190 c || in_range 192 214 c
  || in_range 216 246 c || in_range 248 255 c.
(** [.] of [re]: anything but newline. *)
Definition not_nl (c : ascii) : bool := negb (code c =? 10)%N.
Definition is_ch (d c : ascii) : bool := Ascii.eqb d c.
Definition not_ch (d c : ascii) : bool := negb (Ascii.eqb d c).
Definition nl : ascii := ascii_of_N 10.
Definition tab : ascii := ascii_of_N 9.

(** ** Basic string operations *)
Fixpoint eqs (a b : str) : bool :=
  match a, b with
  | [], [] => true
  | x :: a', y :: b' => Ascii.eqb x y && eqs a' b'
  | _, _ => false
  end.

(** [s.startswith(p)] *)
Fixpoint is_prefix (p s : str) : bool :=
  match p, s with
  | [], _ => true
  | x :: p', y :: s' => Ascii.eqb x y && is_prefix p' s'
  | _ :: _, [] => false
  end.

(** [s.endswith(p)] *)
Definition is_suffix (p s : str) : bool := is_prefix (rev p) (rev s).

(** [p in s] *)
Fixpoint contains (p s : str) : bool :=
  is_prefix p s || match s with [] => false | _ :: s' => contains p s' end.

(** [c in s] for a single character *)
Definition has_char (c : ascii) (s : str) : bool := existsb (is_ch c) s.

(** [s.split()] *)
Fixpoint split_ws (s : str) : list str :=
  match s with
  | [] => []
  | c :: r =>
      if is_space c then split_ws r
      else match r with
           | [] => [[c]]
           | d :: _ =>
               if is_space d then [c] :: split_ws r
               else match split_ws r with
                    | w :: ws => (c :: w) :: ws
                    | [] => [[c]]
                    end
           end
  end.

(** [s.split(c)] *)
Fixpoint split_ch (sep : ascii) (s : str) : list str :=
  match s with
  | [] => [[]]
  | c :: r =>
      if Ascii.eqb c sep then [] :: split_ch sep r
      else match split_ch sep r with
           | w :: ws => (c :: w) :: ws
           | [] => [[c]]
           end
  end.

(** [s.split(c, 1)] when [c in s]; [None] when it is absent. *)
Fixpoint split_once (sep : ascii) (s : str) : option (str * str) :=
  match s with
  | [] => None
  | c :: r =>
      if Ascii.eqb c sep then Some ([], r)
      else match split_once sep r with
           | Some (a, b) => Some (c :: a, b)
           | None => None
           end
  end.

Fixpoint drop_while {A} (p : A -> bool) (s : list A) : list A :=
  match s with
  | [] => []
  | c :: r => if p c then drop_while p r else s
  end.
Fixpoint take_while {A} (p : A -> bool) (s : list A) : list A :=
  match s with
  | [] => []
  | c :: r => if p c then c :: take_while p r else []
  end.
Definition lstrip (s : str) : str := drop_while is_space s.
Definition rstrip (s : str) : str := rev (drop_while is_space (rev s)).
Definition strip (s : str) : str := rstrip (lstrip s).

(** [s.replace(old, new)] for non-empty [old]: [skip] characters of the current
    match are still to be dropped. *)
Fixpoint replace_aux (old new s : str) (skip : nat) : str :=
  match s with
  | [] => []
  | c :: r =>
      match skip with
      | S k => replace_aux old new r k
      | O => if is_prefix old s
             then new ++ replace_aux old new r (List.length old - 1)
             else c :: replace_aux old new r 0
      end
  end.
Definition replace (old new s : str) : str := replace_aux old new s 0.

(** [s.replace(old, new, 1)] *)
Fixpoint replace1 (old new s : str) : str :=
  if is_prefix old s then new ++ skipn (List.length old) s
  else match s with
       | [] => []
       | c :: r => c :: replace1 old new r
       end.

(** [sep.join(l)] *)
Fixpoint join (sep : str) (l : list str) : str :=
  match l with
  | [] => []
  | [x] => x
  | x :: l' => x ++ sep ++ join sep l'
  end.

Definition lower1 (c : ascii) : ascii :=
  if is_upper c then ascii_of_N (code c + 32) else c.
(** [s.lower()] (ASCII letters only; Latin-1 capitals are left alone) *)
Definition lower (s : str) : str := map lower1 s.

(** ** Integer literals *)
Definition digit_char (d : N) : ascii :=
  if (d <? 10)%N then ascii_of_N (48 + d) else ascii_of_N (87 + d).
Definition digit_val (c : ascii) : option N :=
  if is_digit c then Some (code c - 48)%N
  else if is_lower c then Some (code c - 87)%N
  else if is_upper c then Some (code c - 55)%N
  else None.

Fixpoint fmt_fuel (b : N) (fuel : nat) (n : N) : str :=
  match fuel with
  | O => []
  | S f => if (n <? b)%N then [digit_char n]
           else fmt_fuel b f (n / b) ++ [digit_char (n mod b)]
  end.
Definition fmt_base (b n : N) : str := fmt_fuel b (S (N.size_nat n)) n.
(** [str(n)] for a natural number / an integer *)
Definition str_of_N (n : N) : str := fmt_base 10 n.
Definition str_of_nat (n : nat) : str := str_of_N (N.of_nat n).
Definition str_of_Z (z : Z) : str :=
  match z with
  | Zneg p => "-"%char :: str_of_N (Npos p)
  | _ => str_of_N (Z.to_N z)
  end.

Inductive prev_tok := PStart | PDigit | PUnder.
(** Digits with single underscores between them. *)
Fixpoint digits_loop (b : N) (acc : N) (prev : prev_tok) (s : str) : option N :=
  match s with
  | [] => match prev with PDigit => Some acc | _ => None end
  | c :: r =>
      if Ascii.eqb c "_" then
        match prev with PDigit => digits_loop b acc PUnder r | _ => None end
      else match digit_val c with
           | Some d => if (d <? b)%N then digits_loop b (acc * b + d) PDigit r else None
           | None => None
           end
  end.
Definition parse_digits (b : N) (s : str) : option N := digits_loop b 0 PStart s.

(** One underscore is allowed right after a base prefix. *)
Definition strip_us (s : str) : str :=
  match s with c :: r => if Ascii.eqb c "_" then r else s | [] => s end.

Definition sign_split (s : str) : bool * str :=
  match s with
  | c :: r => if Ascii.eqb c "-" then (true, r)
              else if Ascii.eqb c "+" then (false, r) else (false, s)
  | [] => (false, s)
  end.
Definition apply_sign (neg : bool) (n : N) : Z :=
  if neg then (- Z.of_N n)%Z else Z.of_N n.

(** Unsigned part of [int(s, 0)]. *)
Definition parse_base0 (s : str) : option N :=
  match s with
  | c0 :: r0 =>
      if Ascii.eqb c0 "0" then
        match r0 with
        | c1 :: r1 =>
            if Ascii.eqb c1 "x" || Ascii.eqb c1 "X" then parse_digits 16 (strip_us r1)
            else if Ascii.eqb c1 "o" || Ascii.eqb c1 "O" then parse_digits 8 (strip_us r1)
            else if Ascii.eqb c1 "b" || Ascii.eqb c1 "B" then parse_digits 2 (strip_us r1)
            else match parse_digits 10 s with
                 | Some 0%N => Some 0%N
                 | _ => None
                 end
        | [] => Some 0%N
        end
      else parse_digits 10 s
  | [] => None
  end.
(** [int(s, base=0)]; [None] stands for [ValueError]. *)
Definition py_int0 (s : str) : option Z :=
  let '(neg, u) := sign_split (strip s) in
  option_map (apply_sign neg) (parse_base0 u).
(** [int(s)] *)
Definition py_int10 (s : str) : option Z :=
  let '(neg, u) := sign_split (strip s) in
  option_map (apply_sign neg) (parse_digits 10 u).
(** [int(s, 16)] *)
Definition py_int16 (s : str) : option Z :=
  let '(neg, u) := sign_split (strip s) in
  let u' := match u with
            | c0 :: c1 :: r => if Ascii.eqb c0 "0" && (Ascii.eqb c1 "x" || Ascii.eqb c1 "X")
                               then strip_us r else u
            | _ => u
            end in
  option_map (apply_sign neg) (parse_digits 16 u').

(** ** Dictionaries: association lists in insertion order, unique keys *)
Section Dict.
Context {K V : Type} (keq : K -> K -> bool).
Fixpoint dget (k : K) (d : list (K * V)) : option V :=
  match d with
  | [] => None
  | (k', v) :: d' => if keq k k' then Some v else dget k d'
  end.
(** [d[k] = v]: replaces in place, or appends. *)
Fixpoint dset (k : K) (v : V) (d : list (K * V)) : list (K * V) :=
  match d with
  | [] => [(k, v)]
  | (k', v') :: d' => if keq k k' then (k', v) :: d' else (k', v') :: dset k v d'
  end.
Definition dmem (k : K) (d : list (K * V)) : bool :=
  match dget k d with Some _ => true | None => false end.
(** [del d[k]] *)
Definition ddel (k : K) (d : list (K * V)) : list (K * V) :=
  filter (fun kv => negb (keq k (fst kv))) d.
(** [d.update(pairs)] *)
Definition dupdate (d : list (K * V)) (ps : list (K * V)) : list (K * V) :=
  fold_left (fun d kv => dset (fst kv) (snd kv) d) ps d.
End Dict.
