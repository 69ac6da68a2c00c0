(** C84: the colours of the lines of a static plot. *)
From Coq Require Import List ZArith NArith Bool Lia.
From Flocq Require Import BinarySingleNaN.
From Verif Require Import Lib.F64 Lib.F64Facts Model.Colours Spec.Colours Proofs.ColoursP.
Import ListNotations.
Local Open Scope nat_scope.

(** Without colours of the user: line [i] of [k] has entry [256 i / k] of the table of 256; up to 256 lines these are different. *)
Theorem C84_gradient : forall C (hsv : list C) k i, length hsv = 256 -> (i < k)%N -> (k <= 2 ^ 40)%N ->
  cmap (CMap k hsv) i = nth_error hsv (N.to_nat (256 * i / k)) /\
  (forall j, (k <= 256)%N -> (i < j)%N -> (j < k)%N -> (256 * i / k < 256 * j / k)%N).
Proof. intros C hsv k i Hl Hi Hk. split; [now apply gradient_ok|intros; now apply gradient_distinct]. Qed.
(** With them, line [i] has colour [i] or the one before it, ... *)
Theorem C84_user : forall l i c, (N.of_nat (length l) < 2 ^ 50)%N -> nth_error l i = Some c ->
  cmap (rgb_cmap l) (N.of_nat i) = Some (rendered c) \/
  (exists j c', i = S j /\ nth_error l j = Some c' /\ cmap (rgb_cmap l) (N.of_nat i) = Some (rendered c')).
Proof. exact user_ok. Qed.
(** ... colour [i] if there are at most 21 or a power of two of them, ... *)
Theorem C84_exact : forall l i c, length l <= 21 \/ (exists k, length l = 2 ^ k /\ k <= 49) -> nth_error l i = Some c ->
  cmap (rgb_cmap l) (N.of_nat i) = Some (rendered c).
Proof. exact user_exact. Qed.
(** ... and the last one if there are not enough. *)
Theorem C84_late : forall l i d, l <> [] -> (N.of_nat (length l) < 2 ^ 50)%N -> (N.of_nat i < 2 ^ 50)%N -> length l <= i ->
  cmap (rgb_cmap l) (N.of_nat i) = Some (rendered (last l d)).
Proof. exact user_late. Qed.
(** The gradient from its end. *)
Theorem C84_inverse : forall C (hsv : list C) k i, length hsv = 256 -> (i < k)%N -> (k <= 2 ^ 40)%N ->
  cmap_inv (CMap k hsv) i = nth_error hsv (N.to_nat (N.min 255 (256 * (k - i) / k))).
Proof. exact @inverse_ok. Qed.
(** Different shades look different, in the same order. *)
Theorem C84_shades : forall a b, (a < b)%N -> (b <= 255)%N -> exists x y, rendered [a] = [x] /\ rendered [b] = [y] /\ flt x y = true.
Proof. intros a b Ha Hb. do 2 eexists. split; [reflexivity|]. split; [reflexivity|]. exact (fractions a b Ha Hb). Qed.

(** ** Examples *)
(** Doubles without the proof that they are doubles, so that they can be compared by computation. *)
Definition bare := option_map (map (@B2SF prec64 emax64)).
Definition three := [[255; 0; 0]; [0; 255; 0]; [0; 0; 255; 128]]%N.
Example C84_ex : length three <= 21 /\ map (fun i => bare (cmap (rgb_cmap three) (N.of_nat i))) [0; 1; 2; 3; 7] =
  map bare [Some (rendered [255; 0; 0]%N); Some (rendered [0; 255; 0]%N); Some (rendered [0; 0; 255]%N); Some (rendered [0; 0; 255]%N); Some (rendered [0; 0; 255]%N)].
Proof. split; [cbn; lia|vm_compute; reflexivity]. Qed.
Example C84_ex_hsv : map (fun i => cmap (CMap 3 (seq 0 256)) i) [0; 1; 2]%N = [Some 0; Some 85; Some 170] /\
  map (cmap_inv (CMap 3 (seq 0 256))) [0; 1; 2]%N = [Some 255; Some 170; Some 85].
Proof. vm_compute. split; reflexivity. Qed.
(** The sixteenth of 22 colours is never used: 15/22*22 is less than 15. *)
Definition greys (n : nat) : list (list N) := map (fun c => [N.of_nat c; N.of_nat c; N.of_nat c]) (seq 0 n).
Theorem C84_own_refuted : ~ (forall l i c, nth_error l i = Some c -> cmap (rgb_cmap l) (N.of_nat i) = Some (rendered c)).
Proof.
  intros H. specialize (H (greys 22) 15 _ eq_refl).
  apply (f_equal bare) in H.
  assert (E : bare (cmap (rgb_cmap (greys 22)) (N.of_nat 15)) = bare (Some (rendered [14; 14; 14]%N))) by (vm_compute; reflexivity).
  rewrite E in H. clear E.
  apply (f_equal (fun o => match o with Some (SpecFloat.S754_finite _ m _ :: _) => m | _ => 1%positive end)) in H. vm_compute in H. congruence.
Qed.
(** From 257 lines on the gradient repeats colours. *)
Theorem C84_many_refuted : ~ (forall k i j, (i < j < k)%N -> (k <= 2 ^ 40)%N -> cmap (CMap k (seq 0 256)) i <> cmap (CMap k (seq 0 256)) j).
Proof. intros H. apply (H 257%N 0%N 1%N); [lia|lia|]. vm_compute. reflexivity. Qed.

Print Assumptions C84_gradient.
Print Assumptions C84_user.
Print Assumptions C84_exact.
Print Assumptions C84_late.
Print Assumptions C84_inverse.
Print Assumptions C84_shades.
Print Assumptions C84_own_refuted.
Print Assumptions C84_many_refuted.
