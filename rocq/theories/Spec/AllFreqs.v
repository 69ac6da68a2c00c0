(** What the frames of get_all_freqs_data have to hold. *)
From Coq Require Import List Ascii String ZArith Bool Sorted.
From Verif Require Import Lib.PyStr Lib.TotalOrder Spec.Power.
Import ListNotations.
Local Open Scope list_scope.

Section AllFreqs.
  Context {T F : Type} (leb : T -> T -> bool) (div : Z -> Z -> F).
  Definition scaled {K} (n : Z) (rows : list (T * K * option Z)) : list (T * K * option F) :=
    map (fun r => (fst (fst r), snd (fst r), option_map (fun v => div v n) (snd r))) rows.
  (** A frame of the two columns [a] and [b]: at each time of either table the last known value of [k] in each. *)
  Definition InOut {K} (a b : str) (k : K) (rows1 rows2 : list (T * K * option F)) (f : list T * list (str * list (option F))) : Prop :=
    exists idx c1 c2, f = (idx, [(a, c1); (b, c2)]) /\ StronglySorted (lt leb) idx /\
      (forall t, In t idx <-> exists k' v, In (t, k', v) (rows1 ++ rows2)) /\
      Forall2 (fun t c => CellOf (fun x y => leb x y = true) rows1 k t c) idx c1 /\
      Forall2 (fun t c => CellOf (fun x y => leb x y = true) rows2 k t c) idx c2.
  Definition one_key {V} (s : list (T * V)) : list (T * unit * V) := map (fun x => (fst x, tt, snd x)) s.
  (** Rows of the power events as [get_all_freqs] needs them: in time order and every mask labelled. *)
  Definition good_rows (cols : list str) (map_label : list (str * str)) (rows : list (T * str * option Z)) : Prop :=
    by_time leb rows /\ keys_of cols rows /\ forall k, In k cols -> In k (map fst map_label).
End AllFreqs.
