(** IEEE-754 binary64 as formalised by Flocq: Python [float] without NaN
    payloads, and the operations on time stamps used by trappy. *)
From Coq Require Import ZArith NArith Bool.
From Flocq Require Import Core BinarySingleNaN.

Definition prec64 : Z := 53.
Definition emax64 : Z := 1024.
Definition float := binary_float prec64 emax64.

Global Instance prec64_gt_0 : Prec_gt_0 prec64.
Proof. reflexivity. Qed.
Global Instance prec64_lt_emax : Prec_lt_emax prec64 emax64.
Proof. reflexivity. Qed.

Definition fzero : float := B754_zero false.
Definition finf : float := B754_infinity false.
Definition flt (a b : float) : bool := Bltb a b.
Definition fle (a b : float) : bool := Bleb a b.
Definition feq (a b : float) : bool := Beqb a b.
(** [np.nextafter(x, +inf)] *)
Definition fnext (a : float) : float := Bsucc a.
Definition fadd (a b : float) : float := Bplus mode_NE a b.
Definition fsub (a b : float) : float := Bminus mode_NE a b.
Definition fdiv (a b : float) : float := Bdiv mode_NE a b.
(** Python truth value of a float: false exactly for +-0. *)
Definition ftruthy (a : float) : bool :=
  match a with B754_zero _ => false | _ => true end.

(** The double nearest to [n / d] (ties to even): what [float()] returns for
    a decimal literal of that value.  Flocq's division core rounds the exact
    quotient of two integers of any size. *)
Definition f_of_ratio (n : N) (d : positive) : float :=
  match n with
  | N0 => fzero
  | Npos p => SF2B _ (proj1 (Bdiv_correct_aux prec64 emax64 _ _ mode_NE false p 0 false d 0))
  end.
Definition f_of_N (n : N) : float := f_of_ratio n 1.
