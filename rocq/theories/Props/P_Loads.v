(** C80: the plots of loads and the histograms of frequencies and temperatures. *)
From Coq Require Import List Ascii String ZArith Bool Sorted Lia.
From Verif Require Import Lib.PyStr Lib.TotalOrder Model.Power Spec.Power Spec.AllFreqs Model.Temperature Model.Loads Spec.Loads Proofs.LoadsP.
Import ListNotations.
Local Open Scope list_scope.

(** Every cluster and the GPU have a column, and at each time of any of them it holds the last known load. *)
Theorem C80_load : forall T (leb : T -> T -> bool), total_order leb ->
  forall cols (label : str -> option str) (rows : list (@irow T)) gpu title,
  rows <> [] -> (forall r, In r rows -> load_values (i_cols r) <> []) ->
  irows_by_time leb rows -> keys_of cols (map key_row rows) -> (forall k, In k cols -> label k <> None) ->
  (forall k k', In k cols -> In k' cols -> label k = label k' -> k = k') ->
  (forall g, gpu = Some g -> StronglySorted (lt leb) (map fst g)) ->
  exists f, plot_load leb true cols label rows gpu title = Ok (normalize_title $"Utilization" title, f) /\
    Joined leb (time_in (load_rows rows)) (fun _ rs => rs = load_rows rows) label cols (option_map (pair $"GPU") gpu) f.
Proof. exact @plot_load_ok. Qed.
(** The same for the loads relative to the highest frequency, for the GPU too. *)
Theorem C80_normalized : forall T F (leb : T -> T -> bool) (div : Z -> Z -> F) of_int, total_order leb ->
  forall cols (mapping : list (str * str)) (rows : list (@irow T)) gpu title,
  rows <> [] -> (forall r, In r rows -> load_values (i_cols r) <> []) ->
  irows_by_time leb rows -> keys_of cols (map key_row rows) ->
  (forall m, In m (map fst mapping) -> valid_mask m /\ In m cols) -> (forall k, In k cols -> In k (map fst mapping)) ->
  (forall k k', In k cols -> In k' cols -> dget eqs k mapping = dget eqs k' mapping -> k = k') ->
  (forall g, gpu = Some g -> g <> [] /\ StronglySorted (lt leb) (map (fun r => fst (fst r)) g)) ->
  exists f, plot_normalized_load leb div of_int true cols mapping rows gpu title = Ok (normalize_title $"Normalized Utilization" title, f) /\
    exists extra, Joined leb (fun t => exists r, In r rows /\ i_time r = t) (norm_rows div rows) (fun k => dget eqs k mapping) cols extra f /\
      match gpu with
      | None => extra = None
      | Some g => exists m, is_max m (map (fun r => snd (fst r)) g) /\
          extra = Some ($"GPU", map (fun r => (fst (fst r), option_map (fun l => div (l * snd (fst r))%Z m) (snd r))) g)
      end.
Proof. exact @plot_norm_ok. Qed.
(** Loads of the GPU at repeated times cannot be drawn beside those of the clusters. *)
Theorem C80_repeat : forall T (leb : T -> T -> bool), total_order leb ->
  forall cols label (rows : list (@irow T)) g title f sorted,
  plot_load leb sorted cols label rows None title = Ok f -> map fst g <> fst (snd f) -> ~ NoDup (map fst g) ->
  plot_load leb sorted cols label rows (Some g) title = Err EValue.
Proof. exact @plot_load_repeat. Qed.
(** The first half of the axes shows the output frequencies of the clusters and of the GPU, the second half the input
    frequencies; the GPU is there if both its events are. *)
Theorem C80_hists : forall T F (leb : T -> T -> bool) (div : Z -> Z -> F), total_order leb ->
  forall A (fleb : F -> F -> bool) (mean std : list (option F) -> str), total_order fleb ->
  forall out_cols in_cols m (out_rows in_rows : list (T * str * option Z)) dev_out dev_in name (ax : list A),
  good_rows leb out_cols m out_rows -> good_rows leb in_cols m in_rows -> out_rows <> [] -> in_rows <> [] ->
  (forall k k', In k (out_cols ++ in_cols) -> In k' (out_cols ++ in_cols) -> dget eqs k m = dget eqs k' m -> k = k') ->
  (forall s, dev_out = Some s \/ dev_in = Some s -> StronglySorted (lt leb) (map fst s)) ->
  exists fo fi ho hi, plot_freq_hists leb div fleb mean std true out_cols in_cols m out_rows in_rows dev_out dev_in name ax = Ok (ho ++ hi) /\
    (let both := match dev_out, dev_in with Some _, Some _ => true | _, _ => false end in
     let gpu d := if both then option_map (fun s => ($"freq", map (fun r => (fst r, option_map (fun v => div v 1000000%Z) (snd r))) s)) d else None in
     Joined leb (time_in out_rows) (fun _ rs => rs = scaled div 1000 out_rows) (fun k => dget eqs k m) out_cols (gpu dev_out) fo /\
     Joined leb (time_in in_rows) (fun _ rs => rs = scaled div 1000 in_rows) (fun k => dget eqs k m) in_cols (gpu dev_in) fi) /\
    Forall2 (drawn_as fleb mean std $"out" name) (combine (firstn (Nat.div (List.length ax) 2) ax) (snd fo)) ho /\
    Forall2 (drawn_as fleb mean std $"out" name) (combine (skipn (Nat.div (List.length ax) 2) ax) (snd fi)) hi.
Proof. exact @plot_freq_hists_ok. Qed.
Theorem C80_temperature : forall F (div : Z -> Z -> F) A (fleb : F -> F -> bool) (mean std : list (option F) -> str), total_order fleb ->
  forall rows (ax : A) title, rows <> [] ->
  exists h, plot_temperature_hist div fleb mean std rows ax title = Ok h /\ h_axis h = ax /\ h_bins h = 30 /\ h_xlabel h = $"Temperature (C)" /\
    h_data h = map (option_map (fun v => div v 1000%Z)) rows /\ greatest fleb (h_data h) (h_top h) /\
    h_title h = (match title with [] => [] | _ => title ++ $" - " end) ++ $"Temperature (mean = " ++ mean (h_data h) ++ $"C, std = " ++ std (h_data h) ++ $")".
Proof. exact @temperature_hist_ok. Qed.

Lemma Z_total : total_order Z.leb.
Proof. constructor; intros; rewrite ?Z.leb_le in *; lia. Qed.
Definition l_rows : list (@irow Z) :=
  [IRow 1 $"f0" 100 [($"load0", Some 3); ($"load1", Some 4)]; IRow 2 $"0f" 50 [($"load0", Some 1); ($"load1", Some 1)];
   IRow 5 $"f0" 200 [($"load0", Some 10); ($"load1", Some 0)]]%Z.
Definition l_map := [($"f0", $"big"); ($"0f", $"LITTLE")].
Definition l_gpu : list (Z * option Z) := [(1, Some 50); (3, Some 60)]%Z.
Definition l_gpu2 : list (Z * Z * option Z) := [(1, 450, Some 50); (3, 600, Some 60)]%Z.
Lemma l_hyps : (forall r, In r l_rows -> load_values (i_cols r) <> []) /\ irows_by_time Z.leb l_rows /\ keys_of [$"f0"; $"0f"] (map key_row l_rows) /\
  (forall m, In m (map fst l_map) -> valid_mask m /\ In m [$"f0"; $"0f"]) /\ (forall k, In k [$"f0"; $"0f"] -> In k (map fst l_map)) /\
  (forall k k', In k [$"f0"; $"0f"] -> In k' [$"f0"; $"0f"] -> dget eqs k l_map = dget eqs k' l_map -> k = k') /\
  StronglySorted (lt Z.leb) (map fst l_gpu).
Proof.
  split; [|split; [|split; [|split; [|split; [|split]]]]].
  - intros r [<-|[<-|[<-|[]]]]; discriminate.
  - repeat constructor; cbn; intros; discriminate.
  - split; [repeat constructor; cbn; intuition discriminate|]. intros k. split.
    + intros [<-|[<-|[]]]; [exists 1%Z, tt|exists 2%Z, tt]; cbn; auto.
    + intros (t & v & [H|[H|[H|[]]]]); injection H as _ <- _; cbn; auto.
  - intros m [<-|[<-|[]]]; split; cbn; auto.
    + exists ([true;true;true;true] ++ [false;false;false;false] ++ []). split; [|discriminate]. repeat (apply MT_digit; [reflexivity|]). constructor.
    + exists ([false;false;false;false] ++ [true;true;true;true] ++ []). split; [|discriminate]. repeat (apply MT_digit; [reflexivity|]). constructor.
  - intros k [<-|[<-|[]]]; cbn; auto.
  - intros k k' [<-|[<-|[]]] [<-|[<-|[]]]; intros; auto; discriminate.
  - repeat constructor.
Qed.
Example C80_ex_load : plot_load Z.leb true [$"f0"; $"0f"] (fun k => dget eqs k l_map) l_rows (Some l_gpu) $"run" =
  Ok ($"run - Utilization", ([1; 2; 3; 5]%Z, [($"big", [Some 7; Some 7; Some 7; Some 10]%Z); ($"LITTLE", [None; Some 2; Some 2; Some 2]%Z);
                                             ($"GPU", [Some 50; Some 50; Some 60; Some 60]%Z)])).
Proof. vm_compute. reflexivity. Qed.
Example C80_ex_norm : plot_normalized_load Z.leb (fun a b => (a, b)) (fun a => (a, 1)%Z) true [$"f0"; $"0f"] l_map l_rows (Some l_gpu2) [] =
  Ok ($"Normalized Utilization", ([1; 2; 3; 5]%Z, [($"big", [Some (700, 800); Some (700, 800); Some (700, 800); Some (2000, 800)]%Z);
    ($"LITTLE", [None; Some (100, 200); Some (100, 200); Some (100, 200)]%Z);
    ($"GPU", [Some (22500, 600); Some (22500, 600); Some (36000, 600); Some (36000, 600)]%Z)])).
Proof. vm_compute. reflexivity. Qed.
(** When the union of the times is left in the order of appearance, a later load is drawn at an earlier time. *)
Example C80_ex_unsorted : plot_load Z.leb false [$"f0"; $"0f"] (fun k => dget eqs k l_map) l_rows (Some l_gpu) [] =
  Ok ($"Utilization", ([1; 2; 5; 3]%Z, [($"big", [Some 7; Some 7; Some 10; Some 10]%Z); ($"LITTLE", [None; Some 2; Some 2; Some 2]%Z);
                                        ($"GPU", [Some 50; Some 50; Some 50; Some 60]%Z)])).
Proof. vm_compute. reflexivity. Qed.
Theorem C80_unsorted_refuted : ~ (forall cols (label : str -> option str) (rows : list (@irow Z)) gpu title t idx tab,
  plot_load Z.leb false cols label rows gpu title = Ok (t, (idx, tab)) ->
  forall k l col, In (l, col) tab -> label k = Some l -> In k cols ->
  Forall2 (fun t c => CellOf (fun a b => Z.leb a b = true) (load_rows rows) k t c) idx col).
Proof.
  intros H. specialize (H [$"f0"; $"0f"] (fun k => dget eqs k l_map) l_rows (Some l_gpu) [] _ _ _ C80_ex_unsorted $"f0" $"big" _ (or_introl eq_refl) eq_refl (or_introl eq_refl)).
  inversion H as [|? ? ? ? _ H1]; subst. inversion H1 as [|? ? ? ? _ H2]; subst. inversion H2 as [|? ? ? ? _ H3]; subst. inversion H3 as [|? ? ? ? H4 _]; subst.
  destruct H4 as (pre & t' & post & E & Hl & _). apply Z.leb_le in Hl.
  assert (Hi : In (t', $"f0", Some 10%Z) (load_rows l_rows)) by (rewrite E; apply in_elt). vm_compute in Hi.
  destruct Hi as [Hi|[Hi|[Hi|[]]]]; try discriminate. injection Hi as <-. lia.
Qed.

Definition h_out : list (Z * str * option Z) := [(1, $"f0", Some 10); (4, $"f0", Some 15)]%Z.
Definition h_in : list (Z * str * option Z) := [(2, $"f0", Some 20); (3, $"f0", None)]%Z.
Definition h_map := [($"f0", $"big")].
Lemma h_good : good_rows Z.leb [$"f0"] h_map h_out /\ good_rows Z.leb [$"f0"] h_map h_in.
Proof.
  split; (split; [repeat constructor; cbn; intros; discriminate|split; [split; [repeat constructor; cbn; intuition discriminate|]|]]).
  - intros k. split.
    + intros [<-|[]]. exists 1%Z, (Some 10%Z); cbn; auto.
    + intros (t & v & H). cbn in *. intuition congruence.
  - intros k [<-|[]]; cbn; auto.
  - intros k. split.
    + intros [<-|[]]. exists 2%Z, (Some 20%Z); cbn; auto.
    + intros (t & v & H). cbn in *. intuition congruence.
  - intros k [<-|[]]; cbn; auto.
Qed.
Definition h_text (l : list (option Z)) : str := $"-".
Definition h_run (ax : list nat) := plot_freq_hists Z.leb (fun a _ => a) Z.leb h_text h_text true [$"f0"] [$"f0"] h_map h_out h_in (Some [(1, Some 7)]%Z) (Some [(2, Some 8)]%Z) [] ax.
Example C80_ex_hists : h_run [0; 1; 2; 3] =
  Ok [Hist 0 $"freq out big (mean = -KHz, std = -)" $"Frequency (KHz)" 20 [Some 10; Some 15]%Z (Some 15)%Z;
      Hist 1 $"freq out freq (mean = -KHz, std = -)" $"Frequency (KHz)" 20 [Some 7; Some 7]%Z (Some 7)%Z;
      Hist 2 $"freq out big (mean = -KHz, std = -)" $"Frequency (KHz)" 20 [Some 20; Some 20]%Z (Some 20)%Z;
      Hist 3 $"freq out freq (mean = -KHz, std = -)" $"Frequency (KHz)" 20 [Some 8; Some 8]%Z (Some 8)%Z].
Proof. vm_compute. reflexivity. Qed.
(** The histograms of the second half are not titled "freq in", and that of the GPU is not titled "GPU". *)
Theorem C80_titles_refuted : ~ (forall leb (div : Z -> Z -> Z) fleb mean std cols m (out_rows in_rows : list (Z * str * option Z)) o i (ax : list nat) hs h,
  plot_freq_hists leb div fleb mean std true cols cols m out_rows in_rows o i [] ax = Ok hs ->
  In h (skipn (Nat.div (List.length hs) 2) hs) -> exists rest, h_title h = $"freq in " ++ rest).
Proof.
  intros H. destruct (H Z.leb (fun a _ => a) Z.leb h_text h_text [$"f0"] h_map h_out h_in _ _ [0; 1; 2; 3] _ _ C80_ex_hists (or_introl eq_refl)) as (rest & E).
  vm_compute in E. discriminate.
Qed.
Theorem C80_gpu_refuted : ~ (forall leb (div : Z -> Z -> Z) fleb mean std cols m (out_rows in_rows : list (Z * str * option Z)) o i (ax : list nat) hs,
  plot_freq_hists leb div fleb mean std true cols cols m out_rows in_rows (Some o) (Some i) [] ax = Ok hs -> 2 * S (List.length m) <= List.length ax ->
  exists h rest, In h hs /\ h_title h = $"freq out GPU" ++ rest).
Proof.
  intros H. destruct (H Z.leb (fun a _ => a) Z.leb h_text h_text [$"f0"] h_map h_out h_in _ _ [0; 1; 2; 3] _ C80_ex_hists ltac:(cbn; lia)) as (h & rest & Hi & E).
  destruct Hi as [<-|[<-|[<-|[<-|[]]]]]; vm_compute in E; discriminate.
Qed.
Example C80_ex_temperature : plot_temperature_hist (fun a _ => a) Z.leb h_text h_text [Some 40; None; Some 70]%Z 0 $"run" =
  Ok (Hist 0 $"run - Temperature (mean = -C, std = -)" $"Temperature (C)" 30 [Some 40; None; Some 70]%Z (Some 70)%Z).
Proof. vm_compute. reflexivity. Qed.

Print Assumptions C80_load.
Print Assumptions C80_normalized.
Print Assumptions C80_repeat.
Print Assumptions C80_hists.
Print Assumptions C80_temperature.
Print Assumptions C80_unsorted_refuted.
Print Assumptions C80_titles_refuted.
Print Assumptions C80_gpu_refuted.
