(** What a correlator has to compute. *)
From Coq Require Import List Ascii String ZArith QArith Bool Sorted.
From Verif Require Import Lib.PyStr Lib.TotalOrder Model.Stats Spec.Stats Model.Correlate.
Import ListNotations.
Local Open Scope list_scope.

Section Correlate.
  Context {T V : Type} (leb : T -> T -> bool) (nonzero : V -> bool).
  Notation series := (list (T * option V)).
  (** [s'] is [s] on the grid: at each time the value in force. *)
  Definition OnGrid (grid : list T) (s s' : series) : Prop :=
    map fst s' = grid /\ Forall2 (InForce leb s) grid (map snd s').
  (** [s'] is [s] with the values [k] places later. *)
  Definition Later (k : nat) (s s' : series) : Prop := map fst s' = map fst s /\ Moved k (map snd s) (map snd s').
  (** The second is delayed by [shift] places, or the first by [- shift]. *)
  Definition Delayed (shift : Z) (x y x' y' : series) : Prop := Later (Z.to_nat (- shift)) x x' /\ Later (Z.to_nat shift) y y'.
  (** How far the first (or last) non-zero value of the second comes before that of the first; zero if there is none. *)
  Definition Gap (m : amode) (x y : series) (s : Z) : Prop :=
    (exists p q, match m with Front => first_nz nonzero (map snd x) p /\ first_nz nonzero (map snd y) q
                            | Back => last_nz nonzero (map snd x) p /\ last_nz nonzero (map snd y) q end /\
                 s = (Z.of_nat p - Z.of_nat q)%Z) \/
    (((forall i, (i < List.length x)%nat -> zero_at nonzero (map snd x) i) \/ (forall i, (i < List.length y)%nat -> zero_at nonzero (map snd y) i)) /\ s = 0%Z).
  Definition worth (c : option Q) : Q := match c with Some q => q | None => 0%Q end.
  (** The shift with the better correlation; that of the fronts if they are equal. *)
  Definition Best (corr : series -> series -> option Q) (x y : series) (s : Z) : Prop :=
    exists fs bs fx fy bx by_, Gap Front x y fs /\ Gap Back x y bs /\ Delayed fs x y fx fy /\ Delayed bs x y bx by_ /\
      (worth (corr bx by_) <= worth (corr fx fy) /\ s = fs \/ worth (corr fx fy) < worth (corr bx by_) /\ s = bs)%Q.
  (** How many values are not zero. *)
  Fixpoint busy (l : list (option V)) : nat :=
    match l with
    | [] => 0
    | Some v :: r => if nonzero v then S (busy r) else busy r
    | None :: r => S (busy r)
    end.
  (** The weight and the correlation of a group; [grid]: resampled or not. *)
  Definition Group (corr : series -> series -> option Q) (grid : option (list T)) (shift : Z) (x y : series) (wc : Z * option Q) : Prop :=
    exists x1 y1 x2 y2, match grid with Some g => OnGrid g x x1 /\ OnGrid g y y1 | None => x1 = x /\ y1 = y end /\
      Delayed shift x1 y1 x2 y2 /\ fst wc = Z.of_nat (busy (map snd x2) + busy (map snd y2)) /\ snd wc = corr x2 y2.
End Correlate.

(** Aggregating leaves everything as it is (aggregators with a function do, C36). *)
Definition quiet {T St Ref KW} (a : aggregator T St Ref KW) : Prop := forall kw l st, snd (aggregate a kw l st) = st.
(** Building a correlator and asking it at once. *)
Definition build_and_correlate {T V St Ref KW} leb nonzero read uniform (corr : list (T * option V) -> list (T * option V) -> option Q)
    (a b : aggregator T St Ref KW) (kw : KW) (level : str) (resample : bool) (st : St) : res (list (option Q) * Q) * St :=
  match correlator leb nonzero read uniform corr a b st with
  | (Ok c, st') => correlate leb nonzero read uniform corr a b kw c level resample st'
  | (Err e, st') => (Err e, st')
  end.
