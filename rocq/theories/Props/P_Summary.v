(** C82: the summary of one or several runs. *)
From Coq Require Import List Ascii String ZArith Bool Sorted Permutation.
From Verif Require Import Lib.PyStr Lib.TotalOrder Model.Sysfs Model.Governor Model.Summary Spec.Summary Proofs.SummaryP.
Import ListNotations.
Local Open Scope list_scope.

(** Traces are read and their parameters shown, then the eight figures are drawn one after the other; the first failure ends
    it, and an IndexError of the loads is reported as a ValueError. *)
Theorem C82_figures : forall {V R : Type} (of_int : Z -> V) (ftrace : V -> V -> res R) (params : V -> list (str * param)) draw,
  (forall p, NoDup (map fst (params p))) ->
  forall a m runs kw rs, known_keywords [$"width"; $"height"; $"tz_id"] kw -> Forall2 (fun r t => ftrace (fst r) (snd r) = Ok t) runs rs ->
  exists l fs, Reads params runs l /\ Script of_int kw fs /\
    ((forall f k, In (f, k) fs -> draw f rs k = Ok tt) ->
     compare_runs of_int ftrace params draw (Right a) (Right m) runs kw = (l ++ map (fun fk => Draw (fst fk) rs (snd fk)) fs, Ok tt)) /\
    (forall pre f k post e, fs = pre ++ (f, k) :: post -> (forall f' k', In (f', k') pre -> draw f' rs k' = Ok tt) -> draw f rs k = Err e ->
       (f, e) <> (FLoad, EIndex) ->
       compare_runs of_int ftrace params draw (Right a) (Right m) runs kw = (l ++ map (fun fk => Draw (fst fk) rs (snd fk)) (pre ++ [(f, k)]), Err e)) /\
    (forall k0 k post, fs = k0 :: (FLoad, k) :: post -> draw (fst k0) rs (snd k0) = Ok tt -> draw FLoad rs k = Err EIndex ->
       compare_runs of_int ftrace params draw (Right a) (Right m) runs kw = (l ++ [Draw (fst k0) rs (snd k0); Draw FLoad rs k], Err EValue)).
Proof. exact @all_drawn. Qed.
(** A trace that cannot be read: the earlier ones have been shown, nothing is drawn. *)
Theorem C82_unread : forall {V R : Type} (of_int : Z -> V) (ftrace : V -> V -> res R) (params : V -> list (str * param)) draw,
  (forall p, NoDup (map fst (params p))) ->
  forall a m pre n p post rs e kw, Forall2 (fun r t => ftrace (fst r) (snd r) = Ok t) pre rs -> ftrace n p = Err e ->
  exists l, compare_runs of_int ftrace params draw (Right a) (Right m) (pre ++ (n, p) :: post) kw = (l ++ [Read n p], Err e) /\ Reads params pre l.
Proof. exact @not_read. Qed.
Theorem C82_types : forall {V R : Type} (of_int : Z -> V) (ftrace : V -> V -> res R) (params : V -> list (str * param)) draw a m runs kw,
  a = Other \/ m = Other -> compare_runs of_int ftrace params draw a m runs kw = ([], Err EType).
Proof. exact @wrong_types. Qed.
(** Other keywords: a TypeError once the traces have been read; with [ylim] once the temperatures have been drawn. *)
Theorem C82_keyword : forall {V R : Type} (of_int : Z -> V) (ftrace : V -> V -> res R) (params : V -> list (str * param)) draw,
  (forall p, NoDup (map fst (params p))) ->
  forall a m runs kw rs k, Forall2 (fun r t => ftrace (fst r) (snd r) = Ok t) runs rs ->
  In k (map fst kw) -> ~ In k [$"width"; $"height"; $"ylim"; $"tz_id"] ->
  exists l, compare_runs of_int ftrace params draw (Right a) (Right m) runs kw = (l, Err EType) /\ Reads params runs l.
Proof. exact @unknown_keyword. Qed.
Theorem C82_ylim : forall {V R : Type} (of_int : Z -> V) (ftrace : V -> V -> res R) (params : V -> list (str * param)) draw,
  (forall p, NoDup (map fst (params p))) ->
  forall a m runs kw rs, Forall2 (fun r t => ftrace (fst r) (snd r) = Ok t) runs rs ->
  In $"ylim" (map fst kw) -> known_keywords [$"width"; $"height"; $"ylim"; $"tz_id"] kw -> (forall k, draw FTemperature rs k = Ok tt) ->
  exists l w, compare_runs of_int ftrace params draw (Right a) (Right m) runs kw = (l ++ [Draw FTemperature rs w], Err EType) /\
    Reads params runs l /\ looks_up w (sized of_int kw).
Proof. exact @ylim_keyword. Qed.
(** The summary of one run. *)
Theorem C82_summary : forall {V R : Type} (of_int : Z -> V) (ftrace : V -> V -> res R) (params : V -> list (str * param)) draw (of_str : str -> V) a m kw,
  exists kw', looks_up kw' (without [$"path"; $"title"] kw) /\
    let value k d := match dget eqs k kw with Some v => v | None => of_str d end in
    summary_plots of_int of_str ftrace params draw a m kw =
      if dmem eqs $"runs" kw then ([], Err EType)
      else compare_runs of_int ftrace params draw a m [(value $"title" [], value $"path" $".")] kw'.
Proof. exact @summary_ok. Qed.

(** ** Examples *)
Inductive pv := VI (z : Z) | VT (s : str).
Definition reader (n p : pv) : res str := match p with VT s => if eqs s $"gone" then Err EIO else Ok s | VI _ => Err EType end.
Definition beside (p : pv) : list (str * param) :=
  match p with VT s => if eqs s $"one" then [($"policy", PText $"power_allocator"); ($"k_d", PInt 0)] else [] | _ => [] end.
Definition fine (f : figure) (rs : list str) (kw : list (str * pv)) : res unit :=
  match f, rs with FLoad, [_] => Err EIndex | _, _ => Ok tt end.
Local Notation compared := (compare_runs VI reader beside fine (Right [$"GPU"]) (Right [($"0f", $"A7")])).
Definition runs2 := [(VT $"first", VT $"one"); (VT [], VT $"two")].
Definition done2 : list (@step pv str) := [Read (VT $"first") (VT $"one"); Table [($"k_d", PInt 0); ($"policy", PText $"power_allocator")]; Read (VT []) (VT $"two")].
Example C82_ex : compared runs2 [($"tz_id", VI 3); ($"width", VI 12)] =
  (let w := [($"tz_id", VI 3); ($"width", VI 12); ($"height", VI 5)] in let t := [($"width", VI 12); ($"height", VI 5)] in
   let rs := [$"one"; $"two"] in
   done2 ++ [Draw FTemperature rs w; Draw FLoad rs t; Draw FAllFreqs rs t; Draw FController rs t; Draw FInputPower rs t; Draw FOutputPower rs t;
             Draw FFreqHists rs []; Draw FTemperatureHist rs []], Ok tt).
Proof. vm_compute. reflexivity. Qed.
Example C82_ex_meets : (forall p, NoDup (map fst (beside p))) /\ known_keywords [$"width"; $"height"; $"tz_id"] [($"tz_id", VI 3); ($"width", VI 12)] /\
  Forall2 (fun r t => reader (fst r) (snd r) = Ok t) runs2 [$"one"; $"two"].
Proof.
  split; [|split].
  - intros p. unfold beside. destruct p as [z|s]; [constructor|]. destruct (eqs s $"one"); repeat constructor; cbn; intuition discriminate.
  - intros k [<-|[<-|[]]]; cbn; auto.
  - repeat constructor.
Qed.
(** One run without loads, asked for by [summary_plots]. *)
Example C82_ex_load : summary_plots VI VT reader beside fine (Right [$"GPU"]) (Right [($"0f", $"A7")]) [($"path", VT $"two")] =
  ([Read (VT []) (VT $"two"); Draw FTemperature [$"two"] [($"width", VI 20); ($"height", VI 5)]; Draw FLoad [$"two"] [($"width", VI 20); ($"height", VI 5)]],
   Err EValue).
Proof. vm_compute. reflexivity. Qed.
Example C82_ex_bad : compared [(VT $"a", VT $"one"); (VT $"b", VT $"gone"); (VT $"c", VT $"two")] [] =
    ([Read (VT $"a") (VT $"one"); Table [($"k_d", PInt 0); ($"policy", PText $"power_allocator")]; Read (VT $"b") (VT $"gone")], Err EIO) /\
  compared runs2 [($"xlim", VI 1)] = (done2, Err EType) /\
  snd (summary_plots VI VT reader beside fine (Right [$"GPU"]) (Right [($"0f", $"A7")]) [($"runs", VI 1)]) = Err EType.
Proof. vm_compute. repeat split. Qed.
(** The limits plot_temperature takes cannot be given. *)
Theorem C82_ylim_refuted : ~ (forall kw : list (str * pv), known_keywords (takes FTemperature) kw -> snd (compared runs2 kw) = Ok tt).
Proof.
  intros H. specialize (H [($"ylim", VI 100)]). assert (E : snd (compared runs2 [($"ylim", VI 100)]) = Err EType) by (vm_compute; reflexivity).
  rewrite E in H. assert (K : known_keywords (takes FTemperature) [($"ylim", VI 100)]) by (intros k [<-|[]]; cbn; auto). apply H in K. discriminate.
Qed.

Print Assumptions C82_figures.
Print Assumptions C82_unread.
Print Assumptions C82_types.
Print Assumptions C82_keyword.
Print Assumptions C82_ylim.
Print Assumptions C82_summary.
Print Assumptions C82_ylim_refuted.
