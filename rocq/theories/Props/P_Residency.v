(** C44: residency intervals. *)
From Coq Require Import List Ascii String ZArith Bool Sorted Lia.
From Verif Require Import Lib.PyStr Model.Base Model.Residency Spec.Residency Proofs.ResidencyP.
Import ListNotations.
Local Open Scope list_scope.
Local Open Scope nat_scope.

(** The intervals of a task are its residencies, in the order of the rows that start
    them; the names are those of the wanted tasks. *)
Theorem C44_intervals : forall T execnames pids (r0 : switch T) rows rn init, r0 :: rows = init ++ [rn] -> Regular execnames pids (r0 :: rows) ->
  exists data procs, event_data execnames pids (r0 :: rows) = Ok (data, procs, (s_time r0, s_time rn)) /\
  (forall n, exists L, match dget eqs n data with Some l => l | None => [] end = map snd L /\ StronglySorted lt (map fst L) /\
     forall i v, In (i, v) L <-> Resides execnames pids (r0 :: rows) n i v) /\
  NoDup procs /\ (forall n, In n procs <-> exists r, In r (r0 :: rows) /\ Wanted execnames pids r /\ Called n r).
Proof. exact @event_data_ok. Qed.
(** They do not overlap, and none ends before it starts. *)
Theorem C44_order : forall T (leb : T -> T -> bool), (forall t, leb t t = true) -> forall execnames pids (rows : list (switch T)) data procs span,
  StronglySorted (fun a b => leb a b = true) (map s_time rows) -> Regular execnames pids rows -> event_data execnames pids rows = Ok (data, procs, span) ->
  forall n l, dget eqs n data = Some l -> Forall (fun v => leb (fst (fst v)) (snd (fst v)) = true) l /\
    StronglySorted (fun v v' => leb (snd (fst v)) (fst (fst v')) = true) l.
Proof. exact @event_data_order. Qed.
Theorem C44_empty : forall T execnames pids, event_data execnames pids (@nil (switch T)) = Err EIndex.
Proof. exact @event_data_empty. Qed.
Definition sw (t : nat) (p n : Z) (c : string) : switch nat := Switch t p n (CStr (list_ascii_of_string c)) 0%Z.
Definition ex_rows : list (switch nat) :=
  [sw 1 0 7 "ls"; sw 2 7 9 "migration/0"; sw 3 9 8 "cat"; sw 4 8 7 "ls"; sw 5 0 7 "ls"; sw 6 7 7 "ls"; sw 7 3 8 "cat"; sw 8 3 0 "swapper/0"].
Example C44_ex : event_data [] [] ex_rows =
  Ok ([($"ls-7", [(1, 2, 0%Z); (5, 6, 0%Z); (6, 8, 0%Z)]); ($"cat-8", [(3, 4, 0%Z); (7, 8, 0%Z)])], [$"ls-7"; $"cat-8"], (1, 8)) /\
  event_data [$"cat"] [] ex_rows = Ok ([($"cat-8", [(3, 4, 0%Z); (7, 8, 0%Z)])], [$"cat-8"], (1, 8)) /\
  event_data [] [7%Z] ex_rows = Ok ([($"ls-7", [(1, 2, 0%Z); (5, 6, 0%Z); (6, 8, 0%Z)])], [$"ls-7"], (1, 8)).
Proof. repeat split; vm_compute; reflexivity. Qed.
(** The rows of the example are regular: in it a name belongs to a pid. *)
Example C44_ex_regular : Regular [] [] ex_rows.
Proof.
  assert (F : forall r, In r ex_rows -> (0 <= s_next r)%Z /\ s_comm r = (if (s_next r =? 7)%Z then CStr $"ls" else if (s_next r =? 8)%Z then CStr $"cat" else
              if (s_next r =? 9)%Z then CStr $"migration/0" else CStr $"swapper/0")).
  { intros r. cbn [ex_rows In]. intros H. repeat (destruct H as [<-|H]; [split; [cbn; lia|reflexivity]|]). destruct H. }
  split.
  - intros r Hr. destruct (F r Hr) as [H1 H2]. split; auto. rewrite H2. destruct (_ =? 7)%Z; eauto. destruct (_ =? 8)%Z; eauto. destruct (_ =? 9)%Z; eauto.
  - intros before r mid r' rest E _ _ En. destruct (F r) as [_ H1]; [rewrite E; apply in_elt|].
    destruct (F r') as [_ H2]; [rewrite E; apply in_app_iff; right; right; apply in_elt|]. now rewrite H1, H2, En.
Qed.
(** Findings: a task that changes its name while it runs and is switched to again after lost events
    makes the call fail, or removes a complete interval of the new name and leaves the
    unfinished one of the old name. *)
Theorem C44_rename_refuted :
  event_data [] [] [sw 1 0 7 "sh"; sw 2 3 7 "ls"; sw 3 7 0 "swapper/0"] = Err EIndex /\
  event_data [] [] [sw 1 0 7 "ls"; sw 2 7 7 "sh"; sw 3 3 7 "ls"; sw 4 7 0 "swapper/0"] =
    Ok ([($"ls-7", [(3, 4, 0%Z)]); ($"sh-7", [(2, 4, 0%Z)])], [$"ls-7"; $"sh-7"], (1, 4)).
Proof. split; vm_compute; reflexivity. Qed.
(** A task whose name reads as a number (its column then holds an integer) makes it fail. *)
Theorem C44_numeric_refuted : event_data [] [] [sw 1 0 7 "ls"; Switch 2 7%Z 8%Z (CInt 42) 0%Z] = Err EAttribute.
Proof. vm_compute. reflexivity. Qed.

Print Assumptions C44_intervals.
Print Assumptions C44_order.
