(** C73: lines, colours, titles and legend of a static plot. *)
From Coq Require Import Sorted Permutation List Ascii String ZArith Bool Arith Lia Permutation.
From Verif Require Import Lib.PyStr Model.ILine Model.Layout Spec.Layout Model.Legend Spec.Legend Proofs.LegendP Proofs.LegendQ.
Import ListNotations.
Local Open Scope list_scope.

(** Every figure: each wanted series once, on distinct axes, colours in order on each axis, the title of an
    axis is that of its last line, the legend names only lines that are there, and is right for all lines exactly
    if lines of one colour have one label. *)
Theorem C73_figure : forall {P : Type} (peq : P -> P -> bool) is_default plabel columns m per_line ntraces max_len cs pivots axes legend,
  view peq is_default plabel columns m per_line ntraces max_len cs pivots = Ok (axes, legend) ->
  InOrder axes /\ NoDup (map a_cell axes) /\
  Permutation (map (fun n => (n_con n, n_pivot n)) (drawn axes))
    (match m with MPermute => list_prod cs pivots | _ => filter (fun cp => existsb (peq (snd cp)) (c_keys (s_con (fst cp)))) (list_prod cs pivots) end) /\
  (forall a ls n, In a axes -> a_lines a = ls ++ [n] -> a_title a = title_of is_default plabel m (n_con n) (n_pivot n)) /\
  Honest (label_of is_default plabel columns m) axes legend /\
  (Explains (label_of is_default plabel columns m) axes legend <-> OneLabel (label_of is_default plabel columns m) axes).
Proof. exact @figure_ok. Qed.
(** One line of axes, every pivot in every constraint: one axis per pivot, with its title and a line for each
    constraint in its own colour; the legend names the constraints. *)
Theorem C73_normal : forall {P : Type} (peq : P -> P -> bool) is_default plabel columns, (forall a b, peq a b = true <-> a = b) ->
  forall per_line nt ml cs pivots l, (1 <= per_line)%Z -> cs <> [] -> pivots <> [] ->
  (forall c, In c cs -> forall p, In p pivots -> In p (c_keys (s_con c))) ->
  mk_layout per_line (Z.of_nat (List.length pivots)) = Ok l -> l_rows l = 1%Z \/ l_cols l = 1%Z ->
  exists cells, List.length cells = List.length pivots /\ (forall k a, nth_error cells k = Some a -> ith_cell (l_rows l) (l_cols l) (Z.of_nat k) a) /\
    view peq is_default plabel columns MNormal per_line nt ml cs pivots =
      Ok (map (fun ap => Axis (fst ap) (if is_default (snd ap) then [] else plabel (snd ap)) (numbered (map (fun c => (c, snd ap)) cs))) (combine cells pivots),
          map (fun c => Some (constraint_str (s_name c) (c_trace (s_con c)) (s_template c) (s_column c))) cs).
Proof. exact @normal_ok. Qed.
(** With concat, constraints of distinct traces: one axis per constraint, with its name and a line for each pivot. *)
Theorem C73_concat : forall {P : Type} (peq : P -> P -> bool) is_default plabel columns, (forall a b, peq a b = true <-> a = b) ->
  forall per_line nt ml cs pivots, (1 <= per_line)%Z -> cs <> [] -> pivots <> [] ->
  (forall c, In c cs -> forall p, In p pivots -> In p (c_keys (s_con c))) ->
  (forall c, In c cs -> (c_trace (s_con c) < List.length cs)%nat) -> NoDup (map (fun c => c_trace (s_con c)) cs) ->
  exists l cells, mk_layout per_line (Z.of_nat (List.length cs)) = Ok l /\
    Forall2 (fun c a => ith_cell (l_rows l) (l_cols l) (Z.of_nat (c_trace (s_con c))) a) cs cells /\
    view peq is_default plabel columns MConcat per_line nt ml cs pivots =
      Ok (map (fun ac => Axis (fst ac) (constraint_str (s_name (snd ac)) (c_trace (s_con (snd ac))) (s_template (snd ac)) (s_column (snd ac)))
                           (numbered (map (pair (snd ac)) pivots))) (combine cells cs),
          map (fun p => Some (if is_default p then columns else plabel p)) pivots).
Proof. exact @concat_ok. Qed.
(** With concat, two constraints of one trace cannot be drawn. *)
Theorem C73_shared : forall {P : Type} (peq : P -> P -> bool) is_default plabel columns, (forall a b, peq a b = true <-> a = b) ->
  forall per_line nt ml l1 c l2 c' l3 pivots, (1 <= per_line)%Z -> pivots <> [] ->
  (forall x, In x (l1 ++ c :: l2 ++ c' :: l3) -> forall p, In p pivots -> In p (c_keys (s_con x))) ->
  (forall x, In x (l1 ++ c :: l2 ++ c' :: l3) -> (c_trace (s_con x) < List.length (l1 ++ c :: l2 ++ c' :: l3))%nat) ->
  c_trace (s_con c) = c_trace (s_con c') ->
  view peq is_default plabel columns MConcat per_line nt ml (l1 ++ c :: l2 ++ c' :: l3) pivots = Err EIndex.
Proof. exact @concat_shared. Qed.
(** With permute, one line of axes, constraints that sort into columns of the same traces: one axis per trace and
    pivot, with the name of the trace and a line for each column; the legend names the columns. *)
Theorem C73_permute : forall {P : Type} (peq : P -> P -> bool) is_default plabel columns {A B : Type}, (forall a b, peq a b = true <-> a = b) ->
  forall per_line cs pivots (traces : list A) (cols : list B) (grid : B -> A -> scon P) (shown : B -> str) l,
  (1 <= per_line)%Z -> traces <> [] -> cols <> [] -> pivots <> [] ->
  sort_cons cs = flat_map (fun c => map (grid c) traces) cols ->
  (forall c t, In c cols -> In t traces -> s_template (grid c t) ++ $":" ++ s_column (grid c t) = shown c) ->
  (forall c, In c cs -> forall p, In p pivots -> In p (c_keys (s_con c))) ->
  mk_layout per_line (Z.of_nat (List.length pivots * List.length traces)) = Ok l -> l_rows l = 1%Z \/ l_cols l = 1%Z ->
  exists cells, List.length cells = (List.length traces * List.length pivots)%nat /\ (forall k a, nth_error cells k = Some a -> ith_cell (l_rows l) (l_cols l) (Z.of_nat k) a) /\
    view peq is_default plabel columns MPermute per_line (List.length traces) (List.length cols) cs pivots =
      Ok (map (fun atp => Axis (fst atp) (last (map (fun c => data_name (s_name (grid c (fst (snd atp)))) (c_trace (s_con (grid c (fst (snd atp)))))) cols) [])
                            (numbered (map (fun c => (grid c (fst (snd atp)), snd (snd atp))) cols)))
            (combine cells (list_prod traces pivots)),
          map (fun c => Some (shown c)) cols).
Proof. exact @permute_ok. Qed.
(** There every constraint must have every pivot. *)
Theorem C73_missing : forall {P : Type} (peq : P -> P -> bool) is_default plabel columns {A B : Type}, (forall a b, peq a b = true <-> a = b) ->
  forall per_line cs pivots (traces : list A) (cols : list B) (grid : B -> A -> scon P) l c p,
  (1 <= per_line)%Z -> sort_cons cs = flat_map (fun c => map (grid c) traces) cols ->
  In c cs -> In p pivots -> ~ In p (c_keys (s_con c)) ->
  mk_layout per_line (Z.of_nat (List.length pivots * List.length traces)) = Ok l -> l_rows l = 1%Z \/ l_cols l = 1%Z ->
  view peq is_default plabel columns MPermute per_line (List.length traces) (List.length cols) cs pivots = Err EKey.
Proof. exact @permute_missing. Qed.
(** The order of the constraints there: by column, then by trace, otherwise as given. *)
Theorem C73_order : forall {P : Type} (cs : list (scon P)), Permutation (sort_cons cs) cs /\
  ((forall c, In c cs -> (forall n, s_name c = Some n -> ~ In ":"%char n) /\ ~ In ":"%char (s_column c)) -> StronglySorted Earlier (sort_cons cs)).
Proof. intros P cs. split; [exact (sort_perm cs)|exact (order_ok cs)]. Qed.
Theorem C73_stable : forall {P : Type} (cs : list (scon P)) column data,
  (forall c, In c cs -> (forall n, s_name c = Some n -> ~ In ":"%char n) /\ ~ In ":"%char (s_column c)) ->
  let same c := eqs (s_column c) column && eqs (s_data c) data in filter same (sort_cons cs) = filter same cs.
Proof. exact @stable_ok. Qed.
(** The names of constraints, and that they tell them apart. *)
Theorem C73_name : forall name index template column, Shown name index template column (constraint_str name index template column).
Proof. exact shown_ok. Qed.
Theorem C73_distinct : forall name name' i i' t t' c c',
  (forall n, name = Some n -> ~ In ":"%char n) -> (forall n, name' = Some n -> ~ In ":"%char n) -> ~ In ":"%char t -> ~ In ":"%char t' -> ~ In ":"%char c -> ~ In ":"%char c' ->
  constraint_str name i t c = constraint_str name' i' t' c' ->
  c = c' /\ data_name name i = data_name name' i' /\ ((name = None /\ name' = None) \/ (name <> None /\ name' <> None /\ t = t')).
Proof. exact str_distinct. Qed.
Theorem C73_numbers : forall i i', (data_name (Some []) i = data_name (Some []) i' -> i = i') /\ (data_name None i = data_name None i' -> i = i').
Proof. exact numbers_distinct. Qed.

Definition sc (t : nat) (ks : list nat) (name col : string) : scon nat := SCon (Con t ks) (Some $name) $"ev" $col.
Definition pl (p : nat) : str := $"cpu: " ++ str_of_nat p.
Definition vw := view Nat.eqb (fun p => p =? 99) pl $"load".
Definition c0 := sc 0 [0; 1] "a" "load". Definition c1 := sc 1 [0; 1] "b" "load".
Example C73_normal_ex : vw MNormal 2 2 2 [c0; c1] [0; 1] =
  Ok ([Axis (0, 0)%Z $"cpu: 0" [Line 0 c0 0; Line 1 c1 0]; Axis (0, 1)%Z $"cpu: 1" [Line 0 c0 1; Line 1 c1 1]], [Some $"a:ev:load"; Some $"b:ev:load"]).
Proof. vm_compute. reflexivity. Qed.
Example C73_concat_ex : vw MConcat 2 2 2 [c0; c1] [0; 1] =
  Ok ([Axis (0, 0)%Z $"a:ev:load" [Line 0 c0 0; Line 1 c0 1]; Axis (0, 1)%Z $"b:ev:load" [Line 0 c1 0; Line 1 c1 1]], [Some $"cpu: 0"; Some $"cpu: 1"]).
Proof. vm_compute. reflexivity. Qed.
Definition gr (col : string) (t : nat * string) := sc (fst t) [99] (snd t) col.
Example C73_permute_ex : let cs := [gr "load" (0, "a"%string); gr "freq" (0, "a"%string); gr "load" (1, "b"%string); gr "freq" (1, "b"%string)] in
  sort_cons cs = flat_map (fun c => map (gr c) [(0, "a"); (1, "b")]%string) ["freq"; "load"]%string /\
  vw MPermute 2 2 2 cs [99] =
    Ok ([Axis (0, 0)%Z $"a" [Line 0 (gr "freq" (0, "a"%string)) 99; Line 1 (gr "load" (0, "a"%string)) 99];
         Axis (0, 1)%Z $"b" [Line 0 (gr "freq" (1, "b"%string)) 99; Line 1 (gr "load" (1, "b"%string)) 99]], [Some $"ev:freq"; Some $"ev:load"]) /\
  vw MPermute 2 2 2 [sc 0 [0; 1] "a" "load"; sc 0 [0; 1] "a" "freq"; sc 1 [0; 1] "b" "load"; sc 1 [0; 1] "b" "freq"] [0; 1] = Err EIndex.
Proof. vm_compute. auto. Qed.
Example C73_shared_ex : vw MConcat 2 1 2 [sc 0 [0; 1] "a" "load"; sc 0 [0; 1] "a" "freq"] [0; 1] = Err EIndex.
Proof. vm_compute. reflexivity. Qed.
Example C73_missing_ex : let cs := [sc 0 [0; 1] "a" "load"; sc 1 [1] "b" "load"] in
  sort_cons cs = flat_map (fun c => map (fun t => sc (fst (fst t)) (snd (fst t)) (snd t) c) [(0, [0; 1], "a"); (1, [1], "b")]%string) ["load"]%string /\
  mk_layout 4 4 = Ok (Layout 1 4 4) /\ vw MPermute 4 2 1 cs [0; 1] = Err EKey.
Proof. vm_compute. auto. Qed.
(** A pivot that one trace lacks makes the legend of a concat plot wrong ... *)
Definition cm := sc 1 [1] "b" "load".
Theorem C73_legend_refuted : ~ (forall cs pivots axes legend, (forall c, In c cs -> NoDup (c_keys (s_con c))) -> NoDup (map (fun c => c_trace (s_con c)) cs) ->
  vw MConcat 2 2 2 cs pivots = Ok (axes, legend) -> Explains (fun _ p => pl p) axes legend).
Proof.
  intros H. specialize (H [c0; cm] [0; 1] _ _ (fun c Hc => ltac:(destruct Hc as [<- |[<- |[]]]; cbn; repeat constructor; cbn; intuition discriminate))
    ltac:(cbn; repeat constructor; cbn; intuition discriminate) eq_refl (Line 0 c0 0)).
  vm_compute in H. discriminate (H (or_introl eq_refl)).
Qed.
(** ... and the title of an axis of a plot by pivots. *)
Theorem C73_title_refuted : ~ (forall cs pivots axes legend a n, vw MNormal 2 2 2 cs pivots = Ok (axes, legend) -> In a axes -> In n (a_lines a) ->
  a_title a = pl (n_pivot n)).
Proof.
  intros H. specialize (H [c0; cm] [0; 1] _ _ (Axis (0, 0)%Z $"cpu: 1" [Line 0 c0 0; Line 1 cm 1]) (Line 0 c0 0) eq_refl). vm_compute in H.
  discriminate (H (or_introl eq_refl) (or_introl eq_refl)).
Qed.

Print Assumptions C73_figure.
Print Assumptions C73_normal.
Print Assumptions C73_concat.
Print Assumptions C73_shared.
Print Assumptions C73_permute.
Print Assumptions C73_missing.
Print Assumptions C73_order.
Print Assumptions C73_stable.
Print Assumptions C73_name.
Print Assumptions C73_distinct.
Print Assumptions C73_numbers.
Print Assumptions C73_legend_refuted.
Print Assumptions C73_title_refuted.
