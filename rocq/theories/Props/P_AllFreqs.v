(** C68: the frequencies asked for and granted. *)
From Coq Require Import List Ascii String ZArith Bool Sorted Lia.
From Verif Require Import Lib.PyStr Lib.TotalOrder Spec.Power Model.AllFreqs Spec.AllFreqs Proofs.AllFreqsP.
Import ListNotations.
Local Open Scope list_scope.

(** One frame for each labelled cluster, and one for the GPU if both its events occur: at each time of
    either event the last known frequencies in MHz. *)
Theorem C68_freqs : forall T F leb (div : Z -> Z -> F), total_order leb ->
  forall in_cols out_cols m (in_rows out_rows : list (T * str * option Z)) (dev_in dev_out : option (list (T * option Z))),
  good_rows leb in_cols m in_rows -> good_rows leb out_cols m out_rows -> in_rows <> [] -> out_rows <> [] ->
  NoDup (map fst m) -> NoDup (map snd m) ->
  match dev_in with Some s => StronglySorted (lt leb) (map fst s) | None => True end ->
  match dev_out with Some s => StronglySorted (lt leb) (map fst s) | None => True end ->
  (forall k, In k (map fst m) -> In k in_cols /\ In k out_cols) ->
  exists cpus gpu, get_all_freqs_data leb div in_cols out_cols m in_rows out_rows dev_in dev_out = Ok (cpus ++ gpu) /\
    Forall2 (fun kl p => fst p = snd kl /\
      InOut leb (snd kl ++ $"_freq_in") (snd kl ++ $"_freq_out") (fst kl) (scaled div 1000 in_rows) (scaled div 1000 out_rows) (snd p)) m cpus /\
    match dev_in, dev_out with
    | Some i, Some o => exists f, gpu = [($"GPU", f)] /\
        InOut leb $"gpu_freq_in" $"gpu_freq_out" tt (scaled div 1000000 (one_key i)) (scaled div 1000000 (one_key o)) f
    | _, _ => gpu = []
    end.
Proof. exact @all_freqs_ok. Qed.
(** A labelled mask that one of the two events lacks is an error. *)
Theorem C68_missing : forall T F leb (div : Z -> Z -> F), total_order leb ->
  forall in_cols out_cols m (in_rows out_rows : list (T * str * option Z)) dev_in dev_out k,
  good_rows leb in_cols m in_rows -> good_rows leb out_cols m out_rows ->
  NoDup (map fst m) -> NoDup (map snd m) -> In k (map fst m) -> ~ (In k in_cols /\ In k out_cols) ->
  get_all_freqs_data leb div in_cols out_cols m in_rows out_rows dev_in dev_out = Err EKey.
Proof. exact @all_freqs_missing. Qed.
(** Repeated times of the GPU events make the call fail, unless both have the same times. *)
Theorem C68_repeat : forall T F leb (div : Z -> Z -> F), total_order leb ->
  forall in_cols out_cols m (in_rows out_rows : list (T * str * option Z)) i o ret,
  get_all_freqs_data leb div in_cols out_cols m in_rows out_rows None None = Ok ret ->
  map fst i <> map fst o -> ~ NoDup (map fst i) \/ ~ NoDup (map fst o) ->
  get_all_freqs_data leb div in_cols out_cols m in_rows out_rows (Some i) (Some o) = Err EValue.
Proof. exact @all_freqs_repeat. Qed.

Definition f_in : list (Z * str * option Z) := [(1, $"f0", Some 10); (2, $"0f", Some 30); (5, $"f0", Some 20)]%Z.
Definition f_out : list (Z * str * option Z) := [(3, $"0f", Some 25); (4, $"f0", Some 15)]%Z.
Definition f_map := [($"f0", $"big"); ($"0f", $"LITTLE")].
Lemma Z_total : total_order Z.leb.
Proof. constructor; intros; rewrite ?Z.leb_le in *; lia. Qed.
Lemma f_good : good_rows Z.leb [$"0f"; $"f0"] f_map f_in /\ good_rows Z.leb [$"f0"; $"0f"] f_map f_out.
Proof.
  split; (split; [repeat constructor; cbn; intros; discriminate|split; [split; [repeat constructor; cbn; intuition discriminate|]|]]).
  - intros k. split.
    + intros [<-|[<-|[]]]; [exists 2%Z, (Some 30%Z)|exists 1%Z, (Some 10%Z)]; cbn; auto.
    + intros (t & v & H). cbn in *. intuition congruence.
  - intros k [<-|[<-|[]]]; cbn; auto.
  - intros k. split.
    + intros [<-|[<-|[]]]; [exists 4%Z, (Some 15%Z)|exists 3%Z, (Some 25%Z)]; cbn; auto.
    + intros (t & v & H). cbn in *. intuition congruence.
  - intros k [<-|[<-|[]]]; cbn; auto.
Qed.
Example C68_ex : get_all_freqs_data Z.leb (fun a b => (a, b)) [$"0f"; $"f0"] [$"f0"; $"0f"] f_map f_in f_out (Some [(2, Some 9)]%Z) (Some [(1, Some 8)]%Z) =
  Ok [($"big", ([1; 2; 3; 4; 5]%Z, [($"big_freq_in", [Some (10, 1000); Some (10, 1000); Some (10, 1000); Some (10, 1000); Some (20, 1000)]%Z);
                                   ($"big_freq_out", [None; None; None; Some (15, 1000); Some (15, 1000)]%Z)]));
      ($"LITTLE", ([1; 2; 3; 4; 5]%Z, [($"LITTLE_freq_in", [None; Some (30, 1000); Some (30, 1000); Some (30, 1000); Some (30, 1000)]%Z);
                                   ($"LITTLE_freq_out", [None; None; Some (25, 1000); Some (25, 1000); Some (25, 1000)]%Z)]));
      ($"GPU", ([1; 2]%Z, [($"gpu_freq_in", [None; Some (9, 1000000)]%Z); ($"gpu_freq_out", [Some (8, 1000000); Some (8, 1000000)]%Z)]))].
Proof. vm_compute. reflexivity. Qed.
(** One GPU event alone is not shown; a mapping with an absent cluster fails; so do repeated GPU times. *)
Example C68_ex_fails :
  get_all_freqs_data Z.leb (fun a b => (a, b)) [$"0f"; $"f0"] [$"f0"; $"0f"] f_map f_in f_out (Some [(2, Some 9)]%Z) None =
  get_all_freqs_data Z.leb (fun a b => (a, b)) [$"0f"; $"f0"] [$"f0"; $"0f"] f_map f_in f_out None None /\
  get_all_freqs_data Z.leb (fun a b => (a, b)) [$"0f"; $"f0"] [$"f0"; $"0f"] (f_map ++ [($"100", $"gpu")]) f_in f_out None None = Err EKey /\
  get_all_freqs_data Z.leb (fun a b => (a, b)) [$"0f"; $"f0"] [$"f0"; $"0f"] f_map f_in f_out (Some [(2, Some 9); (2, Some 9)]%Z) (Some [(1, Some 8)]%Z) = Err EValue.
Proof. vm_compute. auto. Qed.

Print Assumptions C68_freqs.
Print Assumptions C68_missing.
Print Assumptions C68_repeat.
