(** C100: expressions over events added to a trace. *)
From Coq Require Import List Ascii String Bool Arith Sorted ZArith Lia.
From Verif Require Import Lib.PyStr Lib.Regex Lib.TotalOrder Model.Power Model.Stats Model.Grammar Model.Accessor Model.Bare Model.Added
  Spec.Power Spec.Grammar Spec.Accessor Spec.Bare Spec.Added Proofs.AddedP.
Import ListNotations.
Local Open Scope list_scope.

(** A parser of a trace to which a program added events, asked for a column of one of them: the values of the frame that was added first
    under the name, at the times that the offsets subtracted since then give, inside the window and as the filters want; one column, whatever pivot was given. *)
Theorem C100_solve : forall T W (leb : T -> T -> bool), total_order leb -> forall (tsub : T -> T -> T) tfalse methods,
  (forall a b x, lt leb a b -> lt leb (tsub a x) (tsub b x)) ->
  forall (zero : T) (h : heap T) (os : list (op T)), OwnFrames os ->
  (forall n f p, In (Add n f p) os -> Timed (h f) /\ Square (h f) /\ StronglySorted (lt leb) (fr_index (h f))) ->
  exists tr h', Bare.run tsub tfalse methods (bare_new zero, h) os = Ok (tr, h') /\
  forall n f p before after, os = before ++ Add n f p :: after -> (forall g q, ~ In (Add n g q) before) -> ~ Builtin methods n ->
  forall pvars attr from to filters fill, pvars n = None -> forall c vals s, Text 6 (EAcc n c) s -> In (c, vals) (fr_cols (h f)) ->
  let times := map (fun t => shift tsub tfalse t (offsets (in_force zero before) after)) (fr_index (h f)) in
  forall sel, Only (Inside leb from to filters times (fr_cols (h f))) (seq 0 (List.length times)) sel -> sel <> [] ->
  forall (lib : library T T W), exists ts cells,
    fst (parser_solve leb leb (world_of_trace methods tr h' pvars attr from to filters fill) lib empty_table s) = Ok (l_frame lib (ts, [(None, map Some cells)])) /\
    Forall2 (fun i t => nth_error times i = Some t) sel ts /\ Forall2 (fun i v => nth_error vals i = Some v) sel cells.
Proof. exact @program_solve. Qed.
(** The same of the frames as they are, without an assumption on the subtraction. *)
Theorem C100_frames : forall T W (leb : T -> T -> bool), total_order leb -> forall (tsub : T -> T -> T) tfalse methods (zero : T) os h h' tr,
  Bare.run tsub tfalse methods (bare_new zero, h) os = Ok (tr, h') -> forall pvars attr from to filters fill,
  (forall n f p after, FirstAdd os n f p after -> ~ Builtin methods n -> Square (h' f) /\ StronglySorted (lt leb) (fr_index (h' f))) ->
  forall (lib : library T T W) n f p after c vals sel s, FirstAdd os n f p after -> ~ Builtin methods n -> pvars n = None -> Text 6 (EAcc n c) s ->
  In (c, vals) (fr_cols (h' f)) -> Only (Inside leb from to filters (fr_index (h' f)) (fr_cols (h' f))) (seq 0 (List.length (fr_index (h' f)))) sel -> sel <> [] ->
  exists times cells,
    fst (parser_solve leb leb (world_of_trace methods tr h' pvars attr from to filters fill) lib empty_table s) = Ok (l_frame lib (times, [(None, map Some cells)])) /\
    Forall2 (fun i t => nth_error (fr_index (h' f)) i = Some t) sel times /\ Forall2 (fun i v => nth_error vals i = Some v) sel cells.
Proof. exact @added_solve. Qed.
(** No row inside the window that the filters want: ValueError.  No such column: KeyError.  No such event: ValueError. *)
Theorem C100_missing : forall T W (leb : T -> T -> bool), total_order leb -> forall (tsub : T -> T -> T) tfalse methods (zero : T) os h h' tr,
  Bare.run tsub tfalse methods (bare_new zero, h) os = Ok (tr, h') -> forall pvars attr from to filters fill,
  (forall n f p after, FirstAdd os n f p after -> ~ Builtin methods n -> Square (h' f) /\ StronglySorted (lt leb) (fr_index (h' f))) ->
  forall (lib : library T T W) n f p after c sel s, FirstAdd os n f p after -> ~ Builtin methods n -> pvars n = None -> Text 6 (EAcc n c) s ->
  Only (Inside leb from to filters (fr_index (h' f)) (fr_cols (h' f))) (seq 0 (List.length (fr_index (h' f)))) sel ->
  (sel = [] -> fst (parser_solve leb leb (world_of_trace methods tr h' pvars attr from to filters fill) lib empty_table s) = Err EValue) /\
  (sel <> [] -> ~ In c (map fst (fr_cols (h' f))) ->
   fst (parser_solve leb leb (world_of_trace methods tr h' pvars attr from to filters fill) lib empty_table s) = Err EKey).
Proof. exact @added_fails. Qed.
Theorem C100_unknown : forall T W (leb : T -> T -> bool) (tsub : T -> T -> T) tfalse methods (zero : T) os h h' tr,
  Bare.run tsub tfalse methods (bare_new zero, h) os = Ok (tr, h') -> forall pvars attr from to filters fill
  (lib : library T T W) n c s, ~ Adds os n \/ Builtin methods n -> pvars n = None -> attr n = Err EKey -> Text 6 (EAcc n c) s ->
  fst (parser_solve leb leb (world_of_trace methods tr h' pvars attr from to filters fill) lib empty_table s) = Err EValue.
Proof. exact @not_added. Qed.
(** Programs that differ only in the pivots they give get the same from every text, after any texts, and the same description of every accessor. *)
Theorem C100_pivot : forall T (tsub : T -> T -> T) tfalse methods (zero : T) h os os', Forall2 SameButPivot os os' ->
  match Bare.run tsub tfalse methods (bare_new zero, h) os, Bare.run tsub tfalse methods (bare_new zero, h) os' with
  | Ok (tr, h1), Ok (tr', h2) => forall W leb pvars attr from to filters fill (lib : library T T W) ss s,
      let w := world_of_trace methods tr h1 pvars attr from to filters fill in
      let w' := world_of_trace methods tr' h2 pvars attr from to filters fill in
      parser_solve leb leb w lib (after leb leb w lib ss) s = parser_solve leb leb w' lib (after leb leb w' lib ss) s /\
      inspect leb leb w s = inspect leb leb w' s
  | Err x, Err x' => x = x'
  | _, _ => False
  end.
Proof.
  intros T tsub tfalse methods zero h os os' F. assert (K := alike_run tsub tfalse methods os os' F (bare_new zero) (bare_new zero) h (alike_refl _)).
  unfold alike_res in K. destruct (Bare.run tsub tfalse methods (bare_new zero, h) os) as [[tr h1]|x], (Bare.run tsub tfalse methods (bare_new zero, h) os') as [[tr' h2]|x']; try easy.
  destruct K as [K ->]. intros. cbv zeta. unfold w, w'. rewrite (alike_world methods tr tr' h2 pvars attr from to filters fill K). now split.
Qed.

(** Two clusters with their loads, added with the pivot "cpu"; the times are normalised afterwards. *)
Definition ex_frame : frame Z := Frame (Some $"Time") [10; 12; 15]%Z [($"cpu", [0; 1; 0]%Z); ($"load", [7; 8; 9]%Z)].
Definition ex_ops (p : option str) : list (op Z) := [Add $"counters" 0 p; Add $"counters" 1 None; Normalize (Some 10%Z)].
Definition ex_lib : library Z Z (list Z * list (option Z * list (option Z))) :=
  {| l_num := fun _ => ([], []); l_vars := fun _ => None; l_frame := fun x => x; l_fun := fun _ => Err EName; l_neg := fun x => Ok x; l_op := fun _ x _ => Ok x |}.
Definition ex_solve (p : option str) (from to : option Z) (filters : list (str * list Z)) (s : str) :=
  match Bare.run Z.sub (Z.eqb 0) bare_methods (bare_new 0%Z, fun _ => ex_frame) (ex_ops p) with
  | Ok (tr, h) => fst (parser_solve Z.leb Z.leb (world_of_trace bare_methods tr h (fun _ => None) (fun _ => Err EKey) from to filters true) ex_lib empty_table s)
  | Err x => Err x
  end.
Example C100_ex : total_order Z.leb /\ (forall a b x, lt Z.leb a b -> lt Z.leb (a - x)%Z (b - x)%Z) /\
  OwnFrames (ex_ops (Some $"cpu")) /\ Timed ex_frame /\ Square ex_frame /\ StronglySorted (lt Z.leb) (fr_index ex_frame) /\
  ~ Builtin bare_methods $"counters" /\ Only (Inside Z.leb (Some 1%Z) None [($"cpu", [0%Z]); ($"other", [3%Z])] [0; 2; 5]%Z (fr_cols ex_frame)) (seq 0 3) [2] /\
  ex_solve (Some $"cpu") (Some 1%Z) None [($"cpu", [0%Z]); ($"other", [3%Z])] $"counters:load" = Ok ([5%Z], [(None, [Some 9%Z])]) /\
  ex_solve (Some $"cpu") (Some 6%Z) None [] $"counters:load" = Err EValue /\ ex_solve None None None [] $"counters:power" = Err EKey /\
  ex_solve None None None [] $"counter:load" = Err EValue /\ ex_solve None None None [] $"basetime:load" = Err EValue /\
  SameButPivot (Add $"counters" 0 (Some $"cpu") : op Z) (Add $"counters" 0 None).
Proof.
  split; [|split; [|split; [|split; [|split; [|split; [|split; [|split]]]]]]].
  - split; intros *; rewrite ?Z.leb_le; lia.
  - unfold lt, ltb. intros a b x. rewrite !negb_true_iff, !Z.leb_gt. lia.
  - intros i j n m f p q Hi Hj. do 3 (destruct i as [|i]; [cbn in Hi; try discriminate Hi; injection Hi as <- <- <-;
      do 3 (destruct j as [|j]; [cbn in Hj; try discriminate Hj; auto|]); destruct j; discriminate Hj|]). destruct i; discriminate Hi.
  - split; [reflexivity|]. vm_compute. intros [H|[H|H]]; [discriminate H|discriminate H|destruct H].
  - split; [repeat constructor; vm_compute; intros H; repeat destruct H as [H|H]; try discriminate H; destruct H|].
    intros c vals [E|[E|E]]; [injection E as <- <-|injection E as <- <-|destruct E]; reflexivity.
  - repeat constructor.
  - intros [H|H]; vm_compute in H; repeat destruct H as [H|H]; try discriminate H; destruct H.
  - apply O_drop; [|apply O_drop; [|apply O_keep; [|constructor]]].
    + intros (t & E & A & _). cbn in E. injection E as <-. specialize (A 1%Z eq_refl). discriminate A.
    + intros (t & E & _ & _ & C). destruct (C $"cpu" [0%Z] [0; 1; 0]%Z (or_introl eq_refl) (or_introl eq_refl)) as (v & Ev & [<-|[]]). discriminate Ev.
    + exists 5%Z. split; [reflexivity|]. split; [intros a [= <-]; reflexivity|]. split; [discriminate|].
      intros c wanted vals [E|[E|[]]] Ic; injection E as <- <-; cbn in Ic.
      * destruct Ic as [E|[E|[]]]; [|vm_compute in E; discriminate E]. injection E as <-. exists 0%Z. split; [reflexivity|now left].
      * destruct Ic as [E|[E|[]]]; vm_compute in E; discriminate E.
  - vm_compute. auto 10.
Qed.
(** Finding: the pivot given with an added event does not group its values (add_parsed_event sets it on the event, the parser looks at the class). *)
Theorem C100_grouped_refuted : ~ (forall p idx cols, ex_solve (Some p) None None [] $"counters:load" = Ok (idx, cols) -> p = $"cpu" ->
  forall k, In k (map fst cols) -> exists v, k = Some v /\ In v [0; 1]%Z).
Proof.
  intros H. destruct (ex_solve (Some $"cpu") None None [] $"counters:load") as [[idx cols]|] eqn:E; [|vm_compute in E; discriminate E].
  specialize (H $"cpu" idx cols E eq_refl None). vm_compute in E. injection E as <- <-. destruct (H (or_introl eq_refl)) as (v & Ev & _). discriminate Ev.
Qed.

Print Assumptions C100_solve.
Print Assumptions C100_frames.
Print Assumptions C100_missing.
Print Assumptions C100_unknown.
Print Assumptions C100_pivot.
Print Assumptions C100_grouped_refuted.
