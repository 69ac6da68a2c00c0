(** C65: the frames of an interactive plot. *)
From Coq Require Import List Ascii String ZArith QArith Bool Sorted Lia Qcanon.
From Verif Require Import Lib.PyStr Lib.TotalOrder Model.ILineGen Spec.ILineGen Model.ILine Spec.ILine Proofs.ILineP Model.Dups.
Import ListNotations.
Local Open Scope list_scope.

(** A frame of several series has every time once, in order, and in each column the values of its
    series, with the gaps filled as the drawing style asks; a single series is kept as it is. *)
Theorem C65_frame : forall T leb (dedup : list T -> list T), total_order leb -> forall draw (d : list (str * list (T * option Q))),
  Forall (fun x => StronglySorted (lt leb) (dedup (map fst (snd x))) /\ List.length (dedup (map fst (snd x))) = List.length (snd x)) d ->
  exists f, frame_of leb dedup draw d = Ok f /\ FrameOf leb dedup draw d f.
Proof. exact @frame_ok. Qed.
(** No frame exactly when two series have different times and some time is still repeated. *)
Theorem C65_frame_fails : forall T leb (dedup : list T -> list T), total_order leb -> forall draw (d : list (str * list (T * option Q))) e,
  (forall s : list (T * option Q), List.length (dedup (map fst s)) = List.length s) ->
  frame_of leb dedup draw d = Err e <-> e = EValue /\ exists s s' x, In s (map snd d) /\ In s' (map snd d) /\ In x (map snd d) /\
      dedup (map fst s) <> dedup (map fst s') /\ ~ NoDup (dedup (map fst x)).
Proof. exact @frame_err. Qed.
(** One plot per pivot value, with the series of all constraints that have it, under their legends. *)
Theorem C65_plot : forall T leb (dedup : list T -> list T), total_order leb -> forall P peq (dflt : P) F (uuid : nat -> F) draw pivot label cs pivots max per_line title,
  AllGood leb dedup cs ->
  exists fs, List.length fs = List.length pivots /\
    (forall i p ft, nth_error pivots i = Some p -> nth_error fs i = Some ft ->
       PlotOf leb dedup draw (pairs_of peq c_str c_result p cs) (if peq p dflt then [] else pivot ++ $": " ++ label p) ft) /\
    plot leb dedup peq dflt uuid draw pivot label cs pivots max per_line title = page uuid max per_line title fs.
Proof. exact @plot_page. Qed.
(** With concat, one plot per constraint. *)
Theorem C65_concat : forall T leb (dedup : list T -> list T), total_order leb -> forall P peq (dflt : P) F (uuid : nat -> F) draw column pivot label cs pivots max per_line title,
  AllGood leb dedup cs ->
  exists fs, List.length fs = List.length cs /\
    (forall i c ft, nth_error cs i = Some c -> nth_error fs i = Some ft ->
       PlotOf leb dedup draw (own_pairs peq (fun p => if peq p dflt then join $"," column else pivot ++ $": " ++ label p) (c_result c) pivots) (c_str c) ft) /\
    plot_concat leb dedup peq dflt uuid draw column pivot label cs pivots max per_line title = page uuid max per_line title fs.
Proof. exact @concat_page. Qed.
(** With permute, one plot per trace and pivot value, titled with the name of the trace of the plot's number; with
    more plots than traces, or with a single trace that is not in a list, nothing is drawn. *)
Theorem C65_permuted : forall T leb (dedup : list T -> list T), total_order leb -> forall P (peq : P -> P -> bool) F (uuid : nat -> F) draw names cs pivots max per_line title,
  AllGood leb dedup cs -> (List.length pivots <= List.length names)%nat ->
  exists fs, List.length fs = List.length pivots /\
    (forall k i p t ft, nth_error pivots k = Some (i, p) -> nth_error names k = Some t -> nth_error fs k = Some ft ->
       PlotOf leb dedup draw (pairs_of peq c_short c_result p (filter (fun c => Nat.eqb (c_trace c) i) cs)) t ft) /\
    plot_permuted leb dedup peq uuid draw (Some names) cs pivots max per_line title = page uuid max per_line title fs.
Proof. exact @permuted_page. Qed.
Theorem C65_permuted_short : forall T leb (dedup : list T -> list T) P (peq : P -> P -> bool) F (uuid : nat -> F) draw names cs pivots max per_line title p,
  (List.length names < List.length pivots)%nat ->
  plot_permuted leb dedup peq uuid draw (Some names) cs pivots max per_line title <> Ok p.
Proof. exact @permuted_short. Qed.
(** The error is the one of the missing name, when the plots that have names can be drawn. *)
Theorem C65_permuted_index : forall T leb (dedup : list T -> list T) P (peq : P -> P -> bool) F (uuid : nat -> F) draw names cs pivots max per_line title p,
  (List.length names < List.length pivots)%nat -> (0 < per_line)%Z ->
  plot_permuted leb dedup peq uuid draw (Some names) cs (firstn (List.length names) pivots) max per_line title = Ok p ->
  plot_permuted leb dedup peq uuid draw (Some names) cs pivots max per_line title = Err EIndex.
Proof. exact @permuted_index. Qed.
Theorem C65_permuted_single : forall T leb (dedup : list T -> list T) P (peq : P -> P -> bool) F (uuid : nat -> F) draw cs x pivots max per_line title,
  plot_permuted leb dedup peq uuid draw None cs (x :: pivots) max per_line title = Err (if (per_line =? 0)%Z then EZeroDiv else EType).
Proof. exact @permuted_single. Qed.
(** Series with distinct legends are all there, in order. *)
Theorem C65_distinct : forall V (pairs d : list (str * V)), NoDup (map fst pairs) -> DictOf pairs d -> d = pairs.
Proof. exact @dict_distinct. Qed.
(** In exact arithmetic the hypothesis on the times holds when no time but the last one occurs more than three times. *)
Theorem C65_small_groups : forall max_delta (s : list (Qc * option Q)), (0 < max_delta)%Qc -> StronglySorted Qcle (map fst s) ->
  (forall x y, In x (map fst s) -> In y (map fst s) -> (x < y)%Qc -> (count_occ Qc_eq_dec (map fst s) x <= 3)%nat) ->
  total_order qc_leb /\ Good qc_leb (handle_dups q_arith max_delta) s.
Proof. exact small_groups_good. Qed.

Definition ex_cons : list (con Z nat) :=
  [Con 0 $"a:ev:x" $"ev:x" [(7%nat, [(1%Z, Some 10%Q); (3%Z, Some 30%Q)]); (8%nat, [(2%Z, Some 5%Q)])]; Con 1 $"b:ev:x" $"ev:x" [(7%nat, [(2%Z, Some 1%Q); (4%Z, Some 2%Q)])]].
Definition ex_id (l : list Z) := l.
Lemma ex_good : AllGood Z.leb ex_id ex_cons.
Proof.
  intros c p s [<-|[<-|[]]] H; cbn in H; repeat (destruct H as [H|H]; [injection H as <- <-|]); try destruct H; (split; [|reflexivity]);
    repeat constructor.
Qed.
Example C65_ex : plot Z.leb ex_id Nat.eqb 0%nat (fun i => i) None $"cpu" (fun p => str_of_nat p) ex_cons [7; 8]%nat 100 2 None =
  Ok ([TTable; TRow; TGraph 0; TGraph 1; TEndRow; TRow; TLegend 0; TLegend 1; TEndRow; TEndTable]%nat,
      [(0%nat, $"cpu: 7", ([$"index"; $"a:ev:x"; $"b:ev:x"],
         [[DT 1%Z; DV (Some 10); DV None]; [DT 2%Z; DV (Some (40 # 2)); DV (Some 1)]; [DT 3%Z; DV (Some 30); DV (Some (3 # 2))]; [DT 4%Z; DV (Some 30); DV (Some 2)]]));
       (1%nat, $"cpu: 8", ([$"index"; $"a:ev:x"], [[DT 2%Z; DV (Some 5)]]))]%Q) .
Proof. vm_compute. reflexivity. Qed.
Example C65_steps_ex : frame_of Z.leb ex_id (Some $"steps-post") [($"a", [(1%Z, Some 10%Q); (3%Z, Some 30%Q)]); ($"b", [(2%Z, Some 1%Q)])] =
    Ok (Frame [1; 2; 3]%Z [$"a"; $"b"] [[Some 10; None]; [Some 10; Some 1]; [Some 30; Some 1]]%Q) /\
  frame_of Z.leb ex_id (Some $"steps-pre") [($"a", [(1%Z, Some 10%Q); (3%Z, Some 30%Q)]); ($"b", [(2%Z, Some 1%Q)])] =
    Ok (Frame [1; 2; 3]%Z [$"a"; $"b"] [[Some 10; Some 1]; [Some 30; Some 1]; [Some 30; None]]%Q) /\
  frame_of Z.leb ex_id None [($"a", [(1%Z, Some 10%Q); (1%Z, Some 30%Q)]); ($"b", [(2%Z, Some 1%Q)])] = Err EValue.
Proof. repeat split; vm_compute; reflexivity. Qed.
Example C65_permuted_ex : plot_permuted Z.leb ex_id Nat.eqb (fun i => i) None (Some [$"a"; $"b"]) ex_cons [(0, 7); (1, 7)]%nat 100 2 None =
  Ok ([TTable; TRow; TGraph 0; TGraph 1; TEndRow; TRow; TLegend 0; TLegend 1; TEndRow; TEndTable]%nat,
      [(0%nat, $"a", ([$"index"; $"ev:x"], [[DT 1%Z; DV (Some 10)]; [DT 3%Z; DV (Some 30)]])); (1%nat, $"b", ([$"index"; $"ev:x"], [[DT 2%Z; DV (Some 1)]; [DT 4%Z; DV (Some 2)]]))]%Q) /\
  plot_permuted Z.leb ex_id Nat.eqb (fun i => i) None (Some [$"a"; $"b"]) ex_cons [(0, 7); (0, 8); (1, 7); (1, 8)]%nat 100 2 None = Err EIndex /\
  plot_permuted Z.leb ex_id Nat.eqb (fun i => i) None None ex_cons [(0, 7)]%nat 100 2 None = Err EType.
Proof. repeat split; vm_compute; reflexivity. Qed.
Example C65_concat_ex : plot_concat Z.leb ex_id Nat.eqb 0%nat (fun i => i) None [$"x"] $"cpu" (fun p => str_of_nat p) ex_cons [7; 8]%nat 100 1 None =
  Ok ([TTable; TRow; TGraph 0; TEndRow; TRow; TLegend 0; TEndRow; TRow; TGraph 1; TEndRow; TRow; TLegend 1; TEndRow; TEndTable]%nat,
      [(0%nat, $"a:ev:x", ([$"index"; $"cpu: 7"; $"cpu: 8"],
         [[DT 1%Z; DV (Some 10); DV None]; [DT 2%Z; DV (Some (40 # 2)); DV (Some 5)]; [DT 3%Z; DV (Some 30); DV (Some 5)]]));
       (1%nat, $"b:ev:x", ([$"index"; $"cpu: 7"], [[DT 2%Z; DV (Some 1)]; [DT 4%Z; DV (Some 2)]]))]%Q) .
Proof. vm_compute. reflexivity. Qed.
Example C65_names_ex : constraint_str (Some $"boot") 3 $"ev" $"x" = $"boot:ev:x" /\ constraint_str (Some []) 3 $"ev" $"x" = $"Trace 3:ev:x" /\
  constraint_str None 3 [] $"x" = $"DataFrame 3:x".
Proof. repeat split. Qed.

(** Two traces of one name: the series of the first is lost. *)
Theorem C65_legends_refuted : ~ (forall draw pivot label (cs : list (con Z nat)) pivots max per_line title html ss,
  plot Z.leb ex_id Nat.eqb 0%nat (fun i => i) draw pivot label cs pivots max per_line title = Ok (html, ss) ->
  forall p c s, In p pivots -> In c cs -> dget Nat.eqb p (c_result c) = Some s ->
  forall t v, In (t, v) s -> exists f ti d, In (f, ti, d) ss /\ exists row, In row (snd d) /\ In (DV v) row).
Proof.
  intros H. set (cs := [Con 0 $"t:ev:x" $"ev:x" [(7%nat, [(1%Z, Some 10%Q)])]; Con 1 $"t:ev:x" $"ev:x" [(7%nat, [(1%Z, Some 20%Q)])]]).
  specialize (H None $"cpu" (fun _ => []) cs [7%nat] 9%Z 1%Z None _ _ ltac:(vm_compute; reflexivity) 7%nat _ _ (or_introl eq_refl) (or_introl eq_refl) eq_refl
    1%Z (Some 10%Q) (or_introl eq_refl)).
  destruct H as (f & ti & d & [E|[]] & row & Hr & Hv).
  apply (f_equal snd) in E. cbn [snd] in E. rewrite <- E in Hr. cbn [snd] in Hr.
  destruct Hr as [<-|[]]. destruct Hv as [Hv|[Hv|[]]]; discriminate Hv.
Qed.
(** Interpolation goes by position, not by time: between 0 at time 0 and 10 at time 10 the value at time 1 becomes 5. *)
Theorem C65_interpolate_refuted : ~ (forall (d : list (str * list (Z * option Q))) f k s i t v a b va vb,
  frame_of Z.leb ex_id None d = Ok f -> nth_error d 0 = Some (k, s) -> nth_error (f_index f) i = Some t -> nth_error (f_values f) i = Some v ->
  s = [(a, Some va); (b, Some vb)] -> (a <= t <= b)%Z -> exists x r, v = Some x :: r /\
    ((x - va) * inject_Z (b - a) == (vb - va) * inject_Z (t - a))%Q).
Proof.
  intros H. specialize (H [($"a", [(0, Some 0%Q); (10, Some 10%Q)]); ($"b", [(1, Some 7%Q)])]%Z _ $"a" _ 1%nat 1%Z _ 0%Z 10%Z 0%Q 10%Q
    ltac:(vm_compute; reflexivity) eq_refl eq_refl eq_refl eq_refl ltac:(lia)).
  destruct H as (x & r & E & X). injection E as <- _. vm_compute in X. discriminate X.
Qed.

Print Assumptions C65_frame.
Print Assumptions C65_frame_fails.
Print Assumptions C65_plot.
Print Assumptions C65_concat.
Print Assumptions C65_permuted.
Print Assumptions C65_permuted_short.
Print Assumptions C65_permuted_index.
Print Assumptions C65_permuted_single.
Print Assumptions C65_distinct.
Print Assumptions C65_small_groups.
