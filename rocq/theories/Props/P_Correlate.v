(** C81: what a correlator computes. *)
From Coq Require Import List Ascii String ZArith QArith Bool Sorted Lia.
From Verif Require Import Lib.PyStr Lib.TotalOrder Model.Stats Spec.Stats Model.Correlate Spec.Correlate Proofs.CorrelateP.
Import ListNotations.
Local Open Scope nat_scope.
Local Open Scope list_scope.

(** A correlator knows all the times of the two, and the shift with the better correlation. *)
Theorem C81_shift : forall T V St Ref KW (leb : T -> T -> bool) (nonzero : V -> bool), total_order leb ->
  forall (read : St -> Ref -> list (T * option V)) uniform corr (a b : aggregator T St Ref KW) st l1 l2 x y grid index, quiet a -> quiet b ->
  fst (aggregate a None $"all" st) = Ok (x :: l1) -> fst (aggregate b None $"all" st) = Ok (y :: l2) ->
  StronglySorted (lt leb) (a_index a) -> StronglySorted (lt leb) (a_index b) ->
  StronglySorted (lt leb) (map fst (read st x)) -> StronglySorted (lt leb) (map fst (read st y)) ->
  StronglySorted (lt leb) index -> (forall t, In t index <-> In t (a_index a) \/ In t (a_index b)) -> uniform index = Ok grid ->
  exists s x' y', correlator leb nonzero read uniform corr a b st = (Ok (index, s), st) /\
    OnGrid leb grid (read st x) x' /\ OnGrid leb grid (read st y) y' /\ Best nonzero corr x' y' s.
Proof. exact @correlator_ok. Qed.
(** The correlations of the groups one by one, and their mean weighted by the values that are not zero. *)
Theorem C81_groups : forall T V St Ref KW (leb : T -> T -> bool) (nonzero : V -> bool), total_order leb ->
  forall (read : St -> Ref -> list (T * option V)) uniform corr (a b : aggregator T St Ref KW) kw c level (r : bool) st l1 l2 grid, quiet a -> quiet b ->
  fst (aggregate a (Some kw) level st) = Ok l1 -> fst (aggregate b (Some kw) level st) = Ok l2 ->
  (if r then do g <- uniform (fst c) ;; Ok (Some g) else Ok None) = Ok grid -> List.length l1 <= List.length l2 ->
  (forall x, In x (l1 ++ l2) -> StronglySorted (lt leb) (map fst (read st x))) ->
  exists cs, Forall2 (fun p wc => Group leb nonzero corr grid (snd c) (read st (fst p)) (read st (snd p)) wc) (combine l1 l2) cs /\
    ((weights cs = 0%Z /\ (exists q, In (Some q) (map snd cs)) /\ correlate leb nonzero read uniform corr a b kw c level r st = (Err EZeroDiv, st)) \/
     (~ (weights cs = 0%Z /\ exists q, In (Some q) (map snd cs)) /\
      exists t, correlate leb nonzero read uniform corr a b kw c level r st = (Ok (map snd cs, t), st) /\ (t == weighted cs / inject_Z (weights cs))%Q)).
Proof. exact @correlate_ok. Qed.
(** A group of the first that the second does not have. *)
Theorem C81_missing : forall T V St Ref KW (leb : T -> T -> bool) (nonzero : V -> bool),
  forall (read : St -> Ref -> list (T * option V)) uniform corr (a b : aggregator T St Ref KW) kw c level (r : bool) st l1 l2 grid, quiet a -> quiet b ->
  fst (aggregate a (Some kw) level st) = Ok l1 -> fst (aggregate b (Some kw) level st) = Ok l2 ->
  (if r then do g <- uniform (fst c) ;; Ok (Some g) else Ok None) = Ok grid -> List.length l2 < List.length l1 ->
  correlate leb nonzero read uniform corr a b kw c level r st = (Err EIndex, st).
Proof. exact @correlate_short. Qed.
(** The order of the two does not matter if they have the same number of groups. *)
Theorem C81_symmetric : forall T V St Ref KW (leb : T -> T -> bool) (nonzero : V -> bool), total_order leb ->
  forall (read : St -> Ref -> list (T * option V)) uniform corr (a b : aggregator T St Ref KW) kw level r st out st', quiet a -> quiet b ->
  (forall u v, corr u v = corr v u) ->
  (forall l1 l2, fst (aggregate a (Some kw) level st) = Ok l1 -> fst (aggregate b (Some kw) level st) = Ok l2 -> List.length l1 = List.length l2) ->
  build_and_correlate leb nonzero read uniform corr a b kw level r st = (Ok out, st') ->
  build_and_correlate leb nonzero read uniform corr b a kw level r st = (Ok out, st').
Proof. exact @symmetric. Qed.
(** An aggregator is fully correlated with itself. *)
Theorem C81_self : forall T V St Ref KW (leb : T -> T -> bool) (nonzero : V -> bool), total_order leb ->
  forall (read : St -> Ref -> list (T * option V)) uniform corr (a : aggregator T St Ref KW) kw level (r : bool) st x l grid l1, quiet a ->
  fst (aggregate a None $"all" st) = Ok (x :: l) -> uniform (a_index a) = Ok grid -> fst (aggregate a (Some kw) level st) = Ok l1 ->
  (forall u, In u l1 -> StronglySorted (lt leb) (map fst (read st u))) ->
  (forall u u', In u l1 -> (if r then OnGrid leb grid (read st u) u' else u' = read st u) ->
     (exists q, corr u' u' = Some q /\ (q == 1)%Q) \/ busy nonzero (map snd u') = 0) ->
  (exists u, In u l1 /\ forall u', (if r then OnGrid leb grid (read st u) u' else u' = read st u) -> 0 < busy nonzero (map snd u')) ->
  exists cs t, build_and_correlate leb nonzero read uniform corr a a kw level r st = (Ok (cs, t), st) /\ (t == 1)%Q.
Proof. exact @self. Qed.

(** ** Examples *)
Definition nz := fun v => negb (v =? 0)%Z.
(** The share of the places where both have the same value. *)
Definition agree (x y : list (Z * option Z)) : option Q :=
  let ps := flat_map (fun p => match p with (Some a, Some b) => [(a =? b)%Z] | _ => [] end) (combine (map snd x) (map snd y)) in
  match ps with [] => None | _ => Some (Qred (Z.of_nat (List.length (filter (fun b => b) ps)) # Pos.of_nat (List.length ps))) end.
(** The grid: every time between the first and the last. *)
Definition grid_of (i : list Z) : res (list Z) :=
  match i with [] => Err EIndex | t :: _ => Ok (map (fun k => t + Z.of_nat k)%Z (seq 0 (S (Z.to_nat (last i 0%Z - t))))) end.
Definition ser (l : list (Z * Z)) : list (Z * option Z) := map (fun p => (fst p, Some (snd p))) l.
Definition held (st : list (list (Z * option Z))) (i : nat) := nth i st [].
Definition world := [ser [(0, 0); (2, 1); (3, 0)]; ser [(0, 1); (1, 0); (4, 0)]; ser [(0, 1); (3, 0)]]%Z.
Definition fixed (i : list Z) (all : list nat) (cpu : list nat) : aggregator Z (list (list (Z * option Z))) nat unit :=
  Agg i (fun _ l st => (Ok (if eqs l $"all" then all else cpu), st)).
Definition one := fixed [0; 2; 3]%Z [0] [0; 2].
Definition two := fixed [0; 1; 4]%Z [1] [1; 2].
Definition small := fixed [0; 1; 4]%Z [1] [1].
Local Notation built := (correlator Z.leb nz held grid_of agree).
Local Notation asked := (build_and_correlate Z.leb nz held grid_of agree).

Example C81_ex_shift : built one two world = (Ok ([0; 1; 2; 3; 4]%Z, 2%Z), world).
Proof. vm_compute. reflexivity. Qed.
Example C81_ex_shift_meets : quiet one /\ quiet two /\ fst (aggregate one None $"all" world) = Ok [0] /\
  StronglySorted (lt Z.leb) (a_index one) /\ StronglySorted (lt Z.leb) (map fst (held world 0)) /\ exists g, grid_of [0; 1; 2; 3; 4]%Z = Ok g.
Proof.
  split; [easy|]. split; [easy|]. split; [reflexivity|]. assert (S : StronglySorted (lt Z.leb) [0; 2; 3]%Z).
  { repeat constructor; vm_compute; repeat split; try discriminate; auto. }
  split; [exact S|]. split; [exact S|]. eexists. reflexivity.
Qed.
Example C81_ex_groups : asked one two tt $"cpu" true world = (Ok ([Some 1%Q; Some (1 # 3)%Q], (240 # 432)%Q), world).
Proof. vm_compute. reflexivity. Qed.
Example C81_ex_groups_meets : forall x, In x ([0; 2] ++ [1; 2]) -> StronglySorted (lt Z.leb) (map fst (held world x)).
Proof. intros x [<-|[<-|[<-|[<-|[]]]]]; repeat constructor; vm_compute; repeat split; try discriminate; auto. Qed.
Example C81_ex_swap : asked two one tt $"cpu" true world = asked one two tt $"cpu" true world.
Proof. vm_compute. reflexivity. Qed.
Example C81_ex_self : asked one one tt $"cpu" true world = (Ok ([Some 1%Q; Some 1%Q], (64 # 64)%Q), world).
Proof. vm_compute. reflexivity. Qed.
Example C81_ex_missing : asked one small tt $"cpu" true world = (Err EIndex, world).
Proof. vm_compute. reflexivity. Qed.
(** No value that is not zero: nothing to divide by. *)
Example C81_ex_zero : asked (fixed [0; 1]%Z [0] [0]) (fixed [0; 1]%Z [0] [0]) tt $"cpu" false [ser [(0, 0); (1, 0)]%Z] = (Err EZeroDiv, [ser [(0, 0); (1, 0)]%Z]).
Proof. vm_compute. reflexivity. Qed.

(** ** What does not hold *)
(** Groups that only the second has are left out without a word, and the other way round it fails. *)
Theorem C81_symmetric_refuted : ~ (forall (a b : aggregator Z (list (list (Z * option Z))) nat unit) st out st', quiet a -> quiet b ->
  asked a b tt $"cpu" true st = (Ok out, st') -> asked b a tt $"cpu" true st = (Ok out, st')).
Proof.
  intros H. assert (E : exists out, asked small one tt $"cpu" true world = (Ok out, world)) by (eexists; vm_compute; reflexivity).
  destruct E as (out & E). apply H in E; [|easy|easy]. vm_compute in E. discriminate.
Qed.
(** Aggregators without a function add up in place (C36): every answer changes what is asked. *)
Definition plus (x y : list (Z * option Z)) : list (Z * option Z) :=
  map (fun p => (fst (fst p), match snd (fst p), snd (snd p) with Some a, Some b => Some (a + b)%Z | _, _ => None end)) (combine x y).
Definition summing (i : list Z) (all : list (list nat)) : aggregator Z (list (nat * list (Z * option Z))) nat unit :=
  Agg i (fun _ _ st => aggregate_none Nat.eqb plus all st).
Definition shelf := [(0, ser [(0, 1); (1, 0)]%Z); (1, ser [(0, 0); (1, 1)]%Z); (10, ser [(0, 1); (1, 1)]%Z)].
Definition take (st : list (nat * list (Z * option Z))) (i : nat) := match dget Nat.eqb i st with Some s => s | None => [] end.
Example C81_ex_again :
  let a := summing [0; 1]%Z [[0; 1]] in let b := summing [0; 1]%Z [[10]] in
  let '(r1, st1) := correlate Z.leb nz take grid_of agree a b tt ([0; 1]%Z, 0%Z) $"all" true shelf in
  let '(r2, _) := correlate Z.leb nz take grid_of agree a b tt ([0; 1]%Z, 0%Z) $"all" true st1 in
  (r1, r2) = (Ok ([Some 1%Q], (4 # 4)%Q), Ok ([Some (1 # 2)%Q], (4 # 8)%Q)).
Proof. vm_compute. reflexivity. Qed.
Theorem C81_again_refuted : ~ (forall (a b : aggregator Z (list (nat * list (Z * option Z))) nat unit) kw c level r st out st',
  correlate Z.leb nz take grid_of agree a b kw c level r st = (Ok out, st') ->
  exists st'', correlate Z.leb nz take grid_of agree a b kw c level r st' = (Ok out, st'')).
Proof.
  intros H. set (a := summing [0; 1]%Z [[0; 1]]). set (b := summing [0; 1]%Z [[10]]).
  assert (E : exists out st', correlate Z.leb nz take grid_of agree a b tt ([0; 1]%Z, 0%Z) $"all" true shelf = (Ok (out, (4 # 4)%Q), st') /\
    fst (correlate Z.leb nz take grid_of agree a b tt ([0; 1]%Z, 0%Z) $"all" true st') = Ok ([Some (1 # 2)%Q], (4 # 8)%Q)).
  { eexists _, _. split; vm_compute; reflexivity. }
  destruct E as (out & st' & E1 & E2). apply H in E1 as (st'' & E1). rewrite E1 in E2. cbn [fst] in E2. injection E2 as _ E2. discriminate.
Qed.
Print Assumptions C81_shift.
Print Assumptions C81_groups.
Print Assumptions C81_missing.
Print Assumptions C81_symmetric.
Print Assumptions C81_self.
Print Assumptions C81_symmetric_refuted.
Print Assumptions C81_again_refuted.
