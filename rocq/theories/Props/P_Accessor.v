(** C40, C58: the data that accessors denote, and which rows are chosen. *)
From Coq Require Import List Ascii String ZArith NArith Bool Sorted Lia.
From Verif Require Import Lib.PyStr Lib.PyStrFacts Lib.TotalOrder Model.Power Spec.Power Model.Stats Model.Grammar Spec.Grammar
  Model.Accessor Spec.Accessor Proofs.AccessorS Proofs.AccessorP Proofs.AccessorQ Proofs.AccessorR Proofs.AccessorO.
Import ListNotations.
Local Open Scope list_scope.

(** ** C40 *)
(** Whatever texts a parser was given, its accessors were tried in a definite order. *)
Theorem C40_session : forall T V W (leb : T -> T -> bool) (vleb : V -> V -> bool), total_order leb -> total_order vleb -> forall (w : world T V), Proper leb w ->
  forall (lib : library T V W) ss, exists h, Session leb w ss h /\ forall h', Session leb w ss h' -> h' = h.
Proof.
  intros T V W leb vleb TOT VTOT w PR lib ss. destruct (session_ex leb vleb TOT VTOT w PR lib accessors_total ss) as (h & H).
  exists h. split; auto. intros h' H'. now apply (session_fun leb w ss h').
Qed.
(** The table then shows, for each column, the event that was read first under its
    name: a column for each pivot value, at each time the last value known. *)
Theorem C40_first : forall T V (leb : T -> T -> bool) (vleb : V -> V -> bool), total_order leb -> total_order vleb -> forall (w : world T V), Proper leb w ->
  forall W (lib : library T V W) ss h c rows, w_fill w = true -> Session leb w ss h -> First leb w h c rows ->
  Shows leb (after leb vleb w lib ss) c rows.
Proof. exact @session_shows. Qed.
(** Without filling: no value is wrong, and no value of the event is missing. *)
Theorem C40_sketch : forall T V (leb : T -> T -> bool) (vleb : V -> V -> bool), total_order leb -> total_order vleb -> forall (w : world T V), Proper leb w ->
  forall W (lib : library T V W) ss h c rows, Session leb w ss h -> First leb w h c rows ->
  Sketches leb (after leb vleb w lib ss) c rows.
Proof. exact @session_sketches. Qed.
(** The index: the times of all that was read. *)
Theorem C40_index : forall T V (leb : T -> T -> bool) (vleb : V -> V -> bool), total_order leb -> total_order vleb -> forall (w : world T V), Proper leb w ->
  forall W (lib : library T V W) ss h, Session leb w ss h -> Times leb w (after leb vleb w lib ss) h.
Proof. exact @session_times. Qed.
Theorem C40_absent : forall T V (leb : T -> T -> bool) (vleb : V -> V -> bool), total_order leb -> total_order vleb -> forall (w : world T V), Proper leb w ->
  forall W (lib : library T V W) ss h c, Session leb w ss h -> (columns (after leb vleb w lib ss) c = [] <-> ~ Readable leb w h c).
Proof. exact @session_absent. Qed.
(** The columns of a name stand in the order of their pivot values. *)
Theorem C40_sorted : forall T V (leb : T -> T -> bool) (vleb : V -> V -> bool), total_order vleb -> forall (w : world T V) W (lib : library T V W) ss c,
  map fst (columns (after leb vleb w lib ss) c) = [None] \/
  exists vs, map fst (columns (after leb vleb w lib ss) c) = map Some vs /\ StronglySorted (lt vleb) vs.
Proof. exact @after_sorted. Qed.
(** An accessor means its own event when no other event was read with that column. *)
Theorem C40_own : forall T V (leb : T -> T -> bool) (vleb : V -> V -> bool), total_order leb -> total_order vleb -> forall (w : world T V), Proper leb w ->
  forall W (lib : library T V W) ss h ev c rows, Session leb w ss h -> w_fill w = true -> In (ev, c) h ->
  (forall ev', In (ev', c) h -> ev' = ev) -> Source leb w ev c rows -> Shows leb (after leb vleb w lib ss) c rows.
Proof. exact @own. Qed.
(** The accessors found in a text are those of its expression and of what follows. *)
Theorem C40_scan : forall e s tail l, Text 6 e s -> Ends tail -> accessors tail = Some l -> accessors (s ++ tail) = Some (accs e ++ l).
Proof. exact accessors_ok. Qed.
Theorem C40_scan_total : forall s, exists l, accessors s = Some l.
Proof. exact accessors_total. Qed.
(** [solve]: either all accessors can be read and the value is that of the expression
    with the resulting table, or there is an error. *)
Theorem C40_solve : forall T V (leb : T -> T -> bool) (vleb : V -> V -> bool), total_order leb -> total_order vleb -> forall (w : world T V), Proper leb w ->
  forall W (lib : library T V W) ss h e s tail extra, Session leb w ss h -> Text 6 e s -> Ends tail -> accessors tail = Some extra ->
  exists h', Session leb w (ss ++ [s ++ tail]) h' /\
  let tab := after leb vleb w lib (ss ++ [s ++ tail]) in
  let result := fst (parser_solve leb vleb w lib (after leb vleb w lib ss) (s ++ tail)) in
  (h' = h ++ accs e ++ extra /\ (forall ev c, In (ev, c) (accs e ++ extra) -> Readable leb w h' c) /\
   (forall v, value (env_of lib tab) e = Ok v -> result = Ok v) /\ (NoIndex (env_of lib tab) -> agree result (value (env_of lib tab) e))) \/
  (exists ev c x, In (ev, c) (accs e ++ extra) /\ ~ Readable leb w h' c /\ result = Err x).
Proof. exact @solve_session. Qed.
Theorem C40_accessor : forall T V W (lib : library T V W) (tab : table T V) ev c, e_acc (env_of lib tab) ev c =
  match columns tab c with [] => Err EKey | cols => Ok (l_frame lib (t_idx tab, cols)) end.
Proof. exact @acc_value. Qed.

(** A trace with two sensors, a frequency and a second event with a column [temp]. *)
Definition ex_row (t : nat) (cells : list (str * nat)) : nat * list (str * option nat) := (t, map (fun kc => (fst kc, Some (snd kc))) cells).
Definition ex_thermal : gframe nat nat := GFrame [$"id"; $"temp"]
  [ex_row 1 [($"id", 0); ($"temp", 40)]; ex_row 3 [($"id", 1); ($"temp", 50)]; ex_row 6 [($"id", 0); ($"temp", 42)]].
Definition ex_freq : gframe nat nat := GFrame [$"freq"; $"cpu"] [ex_row 2 [($"freq", 100); ($"cpu", 0)]; ex_row 5 [($"freq", 200); ($"cpu", 0)]].
Definition ex_other : gframe nat nat := GFrame [$"temp"] [ex_row 4 [($"temp", 99)]].
Definition ex_world (from to : option nat) (filters : list (str * list nat)) (fill : bool) : world nat nat :=
  {| w_pvars := fun e => None;
     w_defs := fun e => if eqs e $"thermal" then Some (Kls $"thermal" (Some $"id")) else
                        if eqs e $"freq" then Some (Kls $"freq" None) else if eqs e $"other" then Some (Kls $"other" None) else None;
     w_attr := fun _ => Err EKey;
     w_frames := fun n => if eqs n $"thermal" then Some ex_thermal else if eqs n $"freq" then Some ex_freq else if eqs n $"other" then Some ex_other else None;
     w_from := from; w_to := to; w_filters := filters; w_fill := fill |}.
Definition ex_lib : library nat nat (selection (T:=nat) (V:=nat)) :=
  {| l_num := fun _ => ([], []); l_vars := fun _ => None; l_frame := fun s => s; l_fun := fun _ => Err EAttribute;
     l_neg := fun v => Ok v; l_op := fun _ a _ => Ok a |}.
Lemma nat_total : total_order Nat.leb.
Proof.
  constructor.
  - intros a b. rewrite !Nat.leb_le. lia.
  - intros a b. rewrite !Nat.leb_le. lia.
  - intros a b c. rewrite !Nat.leb_le. lia.
Qed.
Example C40_ex_proper : forall from to filters fill, Proper Nat.leb (ex_world from to filters fill).
Proof.
  intros from to filters fill. split.
  - intros n f. cbn. destruct (eqs n _); [intros [= <-]|destruct (eqs n _); [intros [= <-]|destruct (eqs n _); [intros [= <-]|discriminate]]];
      repeat constructor; cbn; try (unfold lt, TotalOrder.lt; cbn; auto).
  - intros ev k f p r Hk Hf Hp _ Hr. unfold Class in Hk. cbn in Hk, Hf. destruct Hk as [|[_ [Hk|[_ Hk]]]]; try discriminate.
    destruct (eqs ev _); [injection Hk as <-|destruct (eqs ev _); [injection Hk as <-|destruct (eqs ev _); [injection Hk as <-|discriminate]]]; try discriminate.
    cbn in Hf. injection Hf as <-. injection Hp as <-. cbn in Hr. destruct Hr as [<-|[<-|[<-|[]]]]; discriminate.
Qed.
(** Two columns, one for each sensor, with the last temperature at each time. *)
Example C40_ex : parser_solve Nat.leb Nat.leb (ex_world None None [] true) ex_lib empty_table $"thermal:temp + freq:freq" =
  (Ok ([1; 2; 3; 5; 6], [(Some 0, [Some 40; Some 40; Some 40; Some 40; Some 42]); (Some 1, [None; None; Some 50; Some 50; Some 50])]),
   Tab [1; 2; 3; 5; 6] [(($"temp", Some 0), [Some 40; Some 40; Some 40; Some 40; Some 42]); (($"temp", Some 1), [None; None; Some 50; Some 50; Some 50]);
                        (($"freq", None), [None; Some 100; Some 100; Some 200; Some 200])]).
Proof. vm_compute. reflexivity. Qed.
Example C40_ex_nofill : snd (parser_solve Nat.leb Nat.leb (ex_world None None [] false) ex_lib empty_table $"thermal:temp + freq:freq") =
  Tab [1; 2; 3; 5; 6] [(($"temp", Some 0), [Some 40; None; None; None; Some 42]); (($"temp", Some 1), [None; None; Some 50; None; None]);
                       (($"freq", None), [None; Some 100; Some 100; Some 200; Some 200])].
Proof. vm_compute. reflexivity. Qed.
(** Finding: an accessor can give the data of another event that has a column of the
    same name and was read before. *)
Theorem C40_own_event_refuted : exists ss,
  fst (parser_solve Nat.leb Nat.leb (ex_world None None [] true) ex_lib (after Nat.leb Nat.leb (ex_world None None [] true) ex_lib ss) $"other:temp") =
  Ok ([1; 3; 6], [(Some 0, [Some 40; Some 40; Some 42]); (Some 1, [None; Some 50; Some 50])]) /\
  Source Nat.leb (ex_world None None [] true) $"other" $"temp" [(4, None, Some 99)].
Proof.
  exists [$"thermal:temp"]. split; [vm_compute; reflexivity|]. exists (Kls $"other" None), ex_other, (g_rows ex_other).
  split; [right; split; auto; left; reflexivity|]. split; [reflexivity|]. split; [cbn; auto|]. split; [discriminate|]. split; [|split; [discriminate|reflexivity]].
  apply O_keep; [|constructor]. repeat split; cbn; try discriminate. easy.
Qed.
(** Finding: accessors in the part of a text that is not parsed are read all the same. *)
Theorem C40_ignored_refuted :
  fst (parser_solve Nat.leb Nat.leb (ex_world None None [] true) ex_lib empty_table $"freq:freq ) nosuch:temp") = Err EValue /\
  solve (env_of ex_lib (after Nat.leb Nat.leb (ex_world None None [] true) ex_lib [$"freq:freq"])) $"freq:freq ) nosuch:temp" = Ok ([2; 5], [(None, [Some 100; Some 200])]).
Proof. split; vm_compute; reflexivity. Qed.

(** ** C58 *)
(** The chosen rows: those in the window whose cells satisfy every filter on a column
    that the frame has. *)
Theorem C58_chosen : forall T V (leb : T -> T -> bool) (vleb : V -> V -> bool), total_order leb -> total_order vleb -> forall (w : world T V) f,
  StronglySorted (lt leb) (map fst (g_rows f)) -> Only (Chosen leb w (g_cols f)) (g_rows f) (get_rows leb vleb w f).
Proof. exact @get_rows_only. Qed.
(** [inspect] describes them. *)
Theorem C58_inspect : forall T V (leb : T -> T -> bool) (vleb : V -> V -> bool), total_order leb -> total_order vleb -> forall (w : world T V), Proper leb w ->
  forall ev w1 w2 c tail k f sel, Dotted ev -> white w1 -> white w2 -> Name c -> Ends tail ->
  Class w ev k -> w_frames w (k_name k) = Some f -> Only (Chosen leb w (g_cols f)) (g_rows f) sel -> (forall p, k_pivot k = Some p -> In p (g_cols f)) ->
  exists i, inspect leb vleb w ((ev ++ w1 ++ ":"%char :: w2 ++ c) ++ tail) = Ok i /\ i_class i = k /\ i_length i = List.length sel /\ i_column i = c /\
    (i_present i = true <-> In c (g_cols f)) /\
    match k_pivot k with
    | None => i_pivot i = None
    | Some p => exists vals, i_pivot i = Some (p, vals) /\ StronglySorted (lt vleb) vals /\ forall v, In v vals <-> exists r, In r sel /\ gcell p r = Some v
    end.
Proof. exact @inspect_ok. Qed.
Example C58_ex : get_rows Nat.leb Nat.leb (ex_world (Some 2) (Some 6) [($"id", [0; 7]); ($"cpu", [5])] true) ex_thermal =
  [ex_row 6 [($"id", 0); ($"temp", 42)]].
Proof. vm_compute. reflexivity. Qed.
Example C58_ex_inspect : inspect Nat.leb Nat.leb (ex_world (Some 2) None [] true) $"thermal : power" =
  Ok (Info (Kls $"thermal" (Some $"id")) 2 (Some ($"id", [0; 1])) $"power" false).
Proof. vm_compute. reflexivity. Qed.
(** Finding: an event whose frame has no columns can be found but not inspected, if
    its class has a pivot. *)
Theorem C58_empty_refuted : inspect Nat.leb Nat.leb
  {| w_pvars := fun _ => Some (Kls $"e" (Some $"cpu")); w_defs := fun _ => None; w_attr := fun _ => Err EKey;
     w_frames := fun _ => Some (GFrame [] []); w_from := None; w_to := None; w_filters := []; w_fill := true |} $"e:load" = Err EKey.
Proof. vm_compute. reflexivity. Qed.

Print Assumptions C40_session.
Print Assumptions C40_first.
Print Assumptions C40_sketch.
Print Assumptions C40_index.
Print Assumptions C40_sorted.
Print Assumptions C40_absent.
Print Assumptions C40_own.
Print Assumptions C40_scan.
Print Assumptions C40_scan_total.
Print Assumptions C40_solve.
Print Assumptions C40_accessor.
Print Assumptions C58_chosen.
Print Assumptions C58_inspect.
