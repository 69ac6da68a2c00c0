(** Interactive line plots of several written reports. *)
From Coq Require Import List Ascii String ZArith NArith QArith Qcanon Bool Sorted Permutation Lia.
From Verif Require Import Lib.PyStr Lib.PyStrFacts Lib.TotalOrder Lib.F64 Model.Base Model.Line Model.Registry Model.Populate Model.Window Model.Cache Model.Files
  Model.Tasks Model.Stats Model.Accessor Model.Solve Model.Constraint Model.Dups Model.ILineGen Model.ILine Model.Signals Model.Events Model.Classes Model.ConstraintReport Model.LineReport
  Spec.Accessor Spec.Constraint Spec.Signals Spec.ILine
  Spec.Lines Spec.Payload Spec.Arrays Spec.Parts Spec.Trace Spec.Interval Spec.Written Spec.Events Spec.Classes Spec.Solve Spec.ConstraintReport Spec.LineReport Spec.LineTraces
  Proofs.TasksP Proofs.AccessorP Proofs.ConstraintP Proofs.ManagerP Proofs.SolveP Proofs.SolveQ Proofs.SignalsP Proofs.ILineP Proofs.DupsP Proofs.ConstraintReportP Proofs.LineReportP.
Import ListNotations.
Local Open Scope nat_scope.
Local Open Scope list_scope.

Lemma describe_means traces sigs xs : Forall2 (Means traces) sigs xs -> exists cl, describe false traces sigs = Ok (map (fun x : klass * str * option (list Z) => fst (fst x)) xs, map (fun x : klass * str * option (list Z) => snd (fst x)) xs, cl).
Proof.
  intros SIGNALS. exists (if existsb (fun x : klass * str * option (list Z) => match snd x with None => false | _ => true end) xs then Some (map (fun x => snd x) xs) else None).
  apply describe_ok. split; [reflexivity|]. exists xs. split; [exact SIGNALS|]. split; [reflexivity|]. split; [reflexivity|].
  destruct (existsb _ xs) eqn:Ex.
  - right. split; [|reflexivity]. apply existsb_exists in Ex as (x & I & Hx). apply Exists_exists. exists x. split; [exact I|]. destruct (snd x); congruence.
  - left. split; [|reflexivity]. apply Forall_forall. intros x I. destruct (snd x) as [z|] eqn:Ez; [|reflexivity].
    assert (T : existsb (fun x : klass * str * option (list Z) => match snd x with None => false | _ => true end) xs = true); [|congruence].
    apply existsb_exists. exists x. rewrite Ez. auto.
Qed.

(** ** The constraints of lines *)
Section Of.
  Context (order : list (option cell) -> list (option cell)).
  Hypothesis ORDER : Enumerates order.
  Context (pivot : str) (filters : list (str * list cell)) (win : option (Qc * Qc)) (ls : list line).
  Hypothesis FILTERS : NoDup (map fst filters).
  Hypothesis REGULAR : forall l, In l ls -> Regular pivot l.
  Notation curve := (ln_curve pivot win filters).
  (** A constraint made of the tables of the line's report. *)
  Definition made_of (l : line) (d : made) : Prop :=
    no_colon_ends (ln_event l) /\ In (ln_event l, ln_class l) (wr_defs (ln_report l)) /\
    md_label d = ln_label l /\ exists frames, Shows (ln_report l) frames /\ constraint_result order frames pivot (ln_column l) (ln_event l) filters win = Ok (md_result d).
  Definition is_con (l : line) (c : con Qc cell) : Prop :=
    c_str c = ln_label l /\ NoDup (map fst (c_result c)) /\ forall v s, In (v, s) (c_result c) <-> curve l v s.
  Lemma cons_of_all l ds : Forall2 made_of l ds -> (forall x, In x l -> In x ls) -> exists cs, mapM con_of ds = Ok cs /\ Forall2 is_con l cs /\ Forall2 has_keys ds cs.
  Proof.
    induction 1 as [|x d l ds (NC & ID & Lb & frames & [T S] & R) _ IH]; intros All; [exists []; split; [reflexivity|split; constructor]|].
    destruct IH as (cs & E1 & E2 & E3); [intros y Iy; apply All; now right|].
    destruct (T _ _ ID) as (_ & fr & G & F). destruct (REGULAR x (All x (or_introl eq_refl))) as [_ RG]. cbv zeta in RG.
    destruct (result_curves order ORDER _ _ _ _ fr frames _ G NC F (S _) pivot filters win (ln_column x) FILTERS (fun m I => proj1 (RG m I)) (fun m v I => proj2 (RG m I) v))
      as (r & r' & Er & En & ND & K & M). rewrite R in Er. injection Er as Er.
    exists (Con (md_index d) (md_label d) (md_template d ++ $":" ++ md_column d) r' :: cs). cbn [mapM]. unfold con_of at 1. rewrite Er, En. cbn [bind]. rewrite E1. split; [reflexivity|].
    split; constructor; auto; [split; [exact Lb|split; [exact ND|exact M]]|]. unfold has_keys. cbn [c_result]. now rewrite Er.
  Qed.
  Lemma pivots_of ds cs : Forall2 is_con ls cs -> Forall2 has_keys ds cs -> forall v, In v (manager_pivots order ds) <-> exists x s, In x ls /\ curve x v s.
  Proof.
    intros FC FK v. rewrite (proj1 (proj2 (manager_pivots_ok order ds ORDER)) v). split.
    - intros (d & s & Id & Is). destruct (F2_in_l _ _ _ _ FK Id) as (c & Ic & K). destruct (F2_in_r _ _ _ _ FC Ic) as (x & Ix & _ & _ & M).
      apply (in_map fst) in Is. rewrite <- K in Is. apply in_map_iff in Is as ([v' s'] & [= ->] & Is). exists x, s'. split; [exact Ix|]. now apply M.
    - intros (x & s & Ix & C). destruct (F2_in_l _ _ _ _ FC Ix) as (c & Ic & _ & _ & M). destruct (F2_in_r _ _ _ _ FK Ic) as (d & Id & K). apply M in C.
      apply (in_map (fun x => Some (fst x))) in C. rewrite K in C. apply in_map_iff in C as ([v' s'] & E & I). cbn [fst] in E. subst v'. eauto.
  Qed.
  Lemma get_of x c v s : is_con x c -> (dget cell_eqb v (c_result c) = Some s <-> curve x v s).
  Proof.
    intros (_ & ND & M). rewrite <- M. split; [apply (PyStrFacts.dget_In cell_eqb cell_eqb_eq)|now apply (PyStrFacts.In_dget cell_eqb cell_eqb_eq)].
  Qed.
  Lemma miss_of x c v : is_con x c -> dget cell_eqb v (c_result c) = None -> forall s, ~ curve x v s.
  Proof. intros C E s K. apply (get_of x c v s C) in K. congruence. Qed.
  Lemma pairs_of_lines v l cs : Forall2 is_con l cs -> Drawn (fun x s => curve x v s) ln_label l (pairs_of cell_eqb c_str c_result v cs).
  Proof.
    induction 1 as [|x c l cs H _ IH]; [constructor|]. unfold pairs_of. cbn [flat_map]. fold (pairs_of cell_eqb c_str c_result v cs).
    destruct (dget cell_eqb v (c_result c)) as [s|] eqn:E; cbn [app]; [|apply drawn_none; [exact (miss_of x c v H E)|exact IH]].
    rewrite (proj1 H). exact (drawn_curve (fun x s => curve x v s) ln_label x l s _ (proj1 (get_of x c v s H) E) IH).
  Qed.
  Lemma own_of key x c vs : is_con x c -> Drawn (fun v s => curve x v s) key vs (own_pairs cell_eqb key (c_result c) vs).
  Proof.
    intros H. induction vs as [|v vs IH]; [constructor|]. unfold own_pairs. cbn [flat_map]. fold (own_pairs cell_eqb key (c_result c) vs).
    destruct (dget cell_eqb v (c_result c)) as [s|] eqn:E; cbn [app]; [|apply drawn_none; [exact (miss_of x c v H E)|exact IH]].
    exact (drawn_curve (fun v s => curve x v s) key v vs s _ (proj1 (get_of x c v s H) E) IH).
  Qed.
  Hypothesis SHOWN : forall l, In l ls -> exists frames, Shows (ln_report l) frames.
  Lemma sorted_of x v s : In x ls -> curve x v s -> StronglySorted (lt time_leb) (map fst s).
  Proof.
    intros I (_ & _ & sel & O & F). assert (E : map fst s = map (fun m => time (wr_shift (ln_report x) (m_time m))) sel).
    { clear - F. induction F as [|m y sel s [E _] _ IH]; cbn [map]; congruence. }
    rewrite E. apply (only_sorted _ _ _ _ _ O). destruct (SHOWN x I) as (frames & _ & S). destruct (REGULAR x I) as [D _]. apply strict; auto.
  Qed.
  Lemma good_of cs : Forall2 is_con ls cs -> AllGood time_leb dedup_times cs.
  Proof.
    intros FC c p s Ic Is. destruct (F2_in_r _ _ _ _ FC Ic) as (x & Ix & _ & _ & M). apply M in Is. assert (S := sorted_of x p s Ix Is).
    unfold Good. rewrite (dedup_sorted _ S). split; [exact S|apply map_length].
  Qed.
End Of.

(** ** The whole plot *)
Section View.
  Context (order : list (option cell) -> list (option cell)).
  Hypothesis ORDER : Enumerates order.
  Context (traces : list (str * writing)) (tables : list ltrace).
  Hypothesis TRACES : Forall2 (fun t l => fst l = (fst t, wr_defs (snd t)) /\ Shows (snd t) (snd l)) traces tables.
  Context (sigs : list str) (xs : list (klass * str * option (list Z))).
  Hypothesis SIGNALS : Forall2 (Means (map (fun t => wr_defs (snd t)) traces)) sigs xs.
  Notation event x := (given_name (fst (fst x))).
  Notation column x := (snd (fst x)).
  Notation signals := (map (fun x : klass * str * option (list Z) => (given_name (fst (fst x)), snd (fst x))) xs).
  Notation n := (List.length traces).
  Notation k := (List.length xs).
  Hypothesis SOME : traces <> [] /\ xs <> [].
  Hypothesis FITS : n = 1 \/ k = 1 \/ n = k.
  Hypothesis KNOWN : forall t x, In t traces -> In x xs -> In (event x) (map fst (wr_defs (snd t))).
  Context (pivot : str) (filters : list (str * list cell)) (win : option (Qc * Qc)).

  Lemma event_name x : In x xs -> Name (event x).
  Proof.
    intros I. destruct (F2_in_r _ _ _ _ SIGNALS I) as (s & _ & ev & t & Sg & _ & before & d & after & E & G & _).
    assert (Id : In d (map (fun t => wr_defs (snd t)) traces)) by (rewrite E; apply in_or_app; right; now left).
    apply in_map_iff in Id as (w & <- & Iw). destruct (F2_in_l _ _ _ _ TRACES Iw) as (l & _ & _ & [T _]).
    apply (PyStrFacts.dget_In eqs eqs_eq) in G. destruct (T _ _ G) as [-> _]. inversion Sg; subst; assumption.
  Qed.
  Lemma nth_or_only_fun {X} (l : list X) i x y : nth_or_only l i x -> nth_or_only l i y -> x = y.
  Proof. intros [-> |A] [B|B]; try congruence; [destruct i as [|[|i]]; cbn in B; congruence|]. rewrite B in A. destruct i as [|[|i]]; cbn in A; congruence. Qed.
  Lemma nth_or_only_map {X Y} (f : X -> Y) l i y : nth_or_only (map f l) i y -> exists x, nth_or_only l i x /\ y = f x.
  Proof.
    intros [A|A].
    - destruct l as [|x [|? ?]]; try discriminate. injection A as <-. exists x. split; [now left|reflexivity].
    - rewrite nth_error_map in A. destruct (nth_error l i) as [x|] eqn:E; [|discriminate]. injection A as <-. exists x. split; [now right|reflexivity].
  Qed.
  Lemma nth_or_only_some {X} (l : list X) i : List.length l = 1 \/ i < List.length l -> exists x, nth_or_only l i x.
  Proof.
    intros [A|A]; [destruct l as [|x [|? ?]]; try discriminate; exists x; now left|]. destruct (nth_error l i) as [x|] eqn:E; [exists x; now right|]. apply nth_error_None in E. lia.
  Qed.
  Lemma list_of {X} (P : nat -> X -> Prop) j : (forall i, i < j -> exists x, P i x) -> exists l, List.length l = j /\ forall i x, nth_error l i = Some x -> P i x.
  Proof.
    induction j as [|j IH]; intros H; [exists []; split; [reflexivity|]; intros [|i] x; discriminate|].
    destruct IH as (l & El & Hl); [intros i Hi; apply H; lia|]. destruct (H j) as (x & Hx); [lia|]. exists (l ++ [x]). split; [rewrite app_length; cbn; lia|].
    intros i y Ey. destruct (Nat.lt_ge_cases i j) as [Hi|Hi].
    - rewrite nth_error_app1 in Ey by lia. now apply Hl.
    - rewrite nth_error_app2 in Ey by lia. destruct (i - List.length l) as [|[|q]] eqn:Eq; cbn in Ey; try discriminate. injection Ey as <-. assert (i = j) as -> by lia. exact Hx.
  Qed.
  Lemma sizes : n <> 0 /\ k <> 0.
  Proof. destruct SOME as [A B]. split; [destruct traces|destruct xs]; try congruence; discriminate. Qed.
  Lemma lines_exist : exists ls, Lines traces signals ls.
  Proof.
    destruct sizes as [Ln Lk]. unfold Lines. cbv zeta. rewrite map_length. apply list_of. intros i Hi.
    destruct (nth_or_only_some traces i) as (w & W); [lia|]. destruct (nth_or_only_some xs i) as (x & X); [lia|].
    assert (K := KNOWN w x (nth_or_only_In _ _ _ W) (nth_or_only_In _ _ _ X)). apply in_map_iff in K as ([a kl] & Ea & Ia). cbn [fst] in Ea. subst a.
    exists (Line (fst w) (if Nat.eqb n (Nat.max n k) then i else 0) (snd w) (event x) kl (column x)). cbn [ln_name ln_num ln_report ln_event ln_class ln_column].
    split; [destruct w; exact W|]. split; [|auto].
    destruct X as [->|X]; [now left|right]. exact (map_nth_error (fun x => (event x, column x)) _ _ X).
  Qed.
  Lemma lines_made ls : Lines traces signals ls -> exists ds,
    line_constraints order tables sigs pivot filters win = Ok (map (fun x => column x) xs, ds) /\ Forall2 (made_of order pivot filters win) ls ds.
  Proof.
    unfold Lines. cbv zeta. rewrite map_length. intros (Ell & Hls).
    destruct (describe_means _ _ _ SIGNALS) as (cl & ED).
    assert (ET : map (fun t : ltrace => snd (fst t)) tables = map (fun t => wr_defs (snd t)) traces).
    { assert (T := TRACES). clear - T. induction T as [|t l ts ls [E _] _ IH]; [reflexivity|]. cbn [map]. rewrite E, IH. reflexivity. }
    unfold line_constraints. match goal with |- context [describe false ?a sigs] => replace a with (map (fun t => wr_defs (snd t)) traces) by (symmetry; exact ET) end. rewrite ED. cbn [bind].
    set (columns := map (fun x => snd (fst x)) xs). set (templates := map given_name (map (fun x => fst (fst x)) xs)).
    set (trs := map (fun t : ltrace => (fst (fst t), snd t)) tables).
    assert (L0 : List.length trs = n) by (unfold trs; rewrite map_length; symmetry; exact (F2_length _ _ _ TRACES)).
    assert (L1 : List.length columns = k) by apply map_length. assert (L2 : List.length templates = k) by (unfold templates; now rewrite !map_length).
    destruct sizes as [Ln Lk].
    destruct (manager_zip order trs columns templates pivot filters win) as (ds & E & Hl & Hn).
    { intros tr t Itr It. unfold templates in It. rewrite map_map in It. apply in_map_iff in It as (x & <- & Ix). split; [apply name_plain, event_name, Ix|].
      unfold trs in Itr. apply in_map_iff in Itr as (lt & <- & Ilt). destruct (F2_in_r _ _ _ _ TRACES Ilt) as (w & Iw & _ & [T _]). cbn [snd].
      assert (K := KNOWN w x Iw Ix). apply in_map_iff in K as ([a kl] & Ea & Ia). cbn [fst] in Ea. subst a. destruct (T _ _ Ia) as (_ & fr & G & _).
      apply (PyStrFacts.dget_In eqs eqs_eq) in G. now apply (in_map fst) in G. }
    { rewrite L0, L1, L2. clear - FITS Ln Lk. lia. }
    { rewrite L0, L1, L2. clear - FITS Ln Lk. lia. }
    { rewrite L0, L1, L2. clear - FITS Ln Lk. lia. }
    rewrite L0, L1, L2 in *. replace (Nat.max n (Nat.max k k)) with (Nat.max n k) in * by lia.
    exists ds. split; [match goal with |- context [manager order ?a ?b ?c pivot filters win true] => replace (manager order a b c pivot filters win true) with (Ok ds) by (symmetry; exact E) end; reflexivity|].
    apply F2_of_nth; [congruence|]. intros i l d Il Id. destruct (Hls i l Il) as (A1 & A2 & A3 & A4).
    destruct (Hn i d Id) as (tr & c & t & A & B & C & R & _ & _ & _ & Lb).
    unfold constraint_labels in Lb. rewrite (map_nth_error md_label _ _ Id) in Lb.
    assert (HT : exists lt, tr = (fst (fst lt), snd lt) /\ fst lt = (ln_name l, wr_defs (ln_report l)) /\ Shows (ln_report l) (snd lt)).
    { apply nth_or_only_map in A as (lt & A & ->). exists lt. split; [reflexivity|]. destruct A as [A|A].
      - rewrite A in TRACES. inversion TRACES as [|w ? ws ? [Q1 Q2] Q3 E1]; subst. inversion Q3; subst. apply (nth_or_only_fun [w] i w) in A1; [subst w; auto|now left].
      - destruct (F2_nth _ _ _ TRACES i lt A) as (w & Ew & Q1 & Q2). apply (nth_or_only_fun traces i w) in A1; [subst w; auto|now right]. }
    destruct HT as (lt & -> & W3 & W4). cbn [fst snd] in *.
    apply nth_or_only_map in A2 as (x & X1 & [= X2 X3]). assert (X4 := nth_or_only_In _ _ _ X1).
    assert (c = ln_column l) as ->. { apply nth_or_only_map in B as (x' & B & ->). rewrite (nth_or_only_fun _ _ _ _ B X1). congruence. }
    assert (t = ln_event l) as ->. { unfold templates in C. rewrite map_map in C. apply nth_or_only_map in C as (x' & C & ->). rewrite (nth_or_only_fun _ _ _ _ C X1). congruence. }
    split; [rewrite X2; apply name_plain, event_name, X4|]. split; [exact A3|]. split; [|exists (snd lt); auto].
    unfold ln_label. rewrite A4. rewrite W3 in Lb. cbn [fst] in Lb. congruence.
  Qed.

  Hypothesis FILTERS : NoDup (map fst filters).
  Context {F : Type} (uuid : nat -> F) (draw : option str) (label : cell -> str) (max per_line : Z) (title : option str).
  Notation curve := (ln_curve pivot win filters).
  Notation heading v := (if cell_eqb v (CStr PIVOT_VAL) then [] else pivot ++ $": " ++ label v).
  Lemma traces_view ls : Lines traces signals ls -> (forall l, In l ls -> Regular pivot l) -> exists pivots fs,
      NoDup pivots /\ (forall v, In v pivots <-> exists x s, In x ls /\ curve x v s) /\
      ((forall v, In v pivots -> exists z, v = CInt z) -> StronglySorted (fun a b => exists y z, a = CInt y /\ b = CInt z /\ (y <= z)%Z) pivots) /\
      List.length fs = List.length pivots /\
      (forall i v ft, nth_error pivots i = Some v -> nth_error fs i = Some ft -> exists pairs,
         Drawn (fun x s => curve x v s) ln_label ls pairs /\ PlotOf time_leb (fun l => l) draw pairs (heading v) ft) /\
      line_view order uuid tables sigs pivot filters win false draw label max per_line title = page uuid max per_line title fs.
  Proof.
    intros HL RG. destruct (lines_made ls HL) as (ds & E & FM).
    destruct (cons_of_all order ORDER pivot filters win ls FILTERS RG ls ds FM (fun x I => I)) as (cs & Ec & FC & FK). exists (manager_pivots order ds).
    assert (SH : forall l, In l ls -> exists frames, Shows (ln_report l) frames).
    { intros l Il. destruct (F2_in_l _ _ _ _ FM Il) as (d & _ & _ & _ & _ & frames & S & _). eauto. }
    destruct (plot_page time_leb dedup_times time_order cell_eqb (CStr PIVOT_VAL) uuid draw pivot label cs (manager_pivots order ds) max per_line title (good_of pivot filters win ls RG SH cs FC)) as (fs & Hl & Hp & Hv).
    exists fs. destruct (manager_pivots_ok order ds ORDER) as (P1 & _ & P3). split; [exact P1|]. split; [exact (pivots_of order ORDER pivot filters win ls ds cs FC FK)|]. split; [exact P3|]. split; [exact Hl|]. split.
    - intros i v ft Iv If. exists (pairs_of cell_eqb c_str c_result v cs). assert (D := pairs_of_lines pivot filters win v ls cs FC). split; [exact D|].
      apply (plot_same time_leb dedup_times); [|exact (Hp i v ft Iv If)]. apply (drawn_same _ _ _ _ D). intros x s Ix C. exact (sorted_of pivot filters win ls RG SH x v s Ix C).
    - unfold line_view. rewrite E. cbn [bind fst snd]. rewrite Ec. cbn [bind]. exact Hv.
  Qed.
  Lemma traces_concat ls : Lines traces signals ls -> (forall l, In l ls -> Regular pivot l) -> exists pivots fs,
      NoDup pivots /\ (forall v, In v pivots <-> exists x s, In x ls /\ curve x v s) /\
      ((forall v, In v pivots -> exists z, v = CInt z) -> StronglySorted (fun a b => exists y z, a = CInt y /\ b = CInt z /\ (y <= z)%Z) pivots) /\
      List.length fs = List.length ls /\
      (forall i x ft, nth_error ls i = Some x -> nth_error fs i = Some ft -> exists pairs,
         Drawn (fun v s => curve x v s) (fun v => if cell_eqb v (CStr PIVOT_VAL) then join $"," (map snd signals) else pivot ++ $": " ++ label v) pivots pairs /\
         PlotOf time_leb (fun l => l) draw pairs (ln_label x) ft) /\
      line_view order uuid tables sigs pivot filters win true draw label max per_line title = page uuid max per_line title fs.
  Proof.
    intros HL RG. destruct (lines_made ls HL) as (ds & E & FM).
    destruct (cons_of_all order ORDER pivot filters win ls FILTERS RG ls ds FM (fun x I => I)) as (cs & Ec & FC & FK). exists (manager_pivots order ds).
    assert (SH : forall l, In l ls -> exists frames, Shows (ln_report l) frames).
    { intros l Il. destruct (F2_in_l _ _ _ _ FM Il) as (d & _ & _ & _ & _ & frames & S & _). eauto. }
    destruct (concat_page time_leb dedup_times time_order cell_eqb (CStr PIVOT_VAL) uuid draw (map (fun x => column x) xs) pivot label cs (manager_pivots order ds) max per_line title (good_of pivot filters win ls RG SH cs FC)) as (fs & Hl & Hp & Hv).
    exists fs. destruct (manager_pivots_ok order ds ORDER) as (P1 & _ & P3). split; [exact P1|]. split; [exact (pivots_of order ORDER pivot filters win ls ds cs FC FK)|]. split; [exact P3|].
    split; [rewrite Hl; symmetry; exact (F2_length _ _ _ FC)|]. rewrite map_map. cbn [snd]. split.
    - intros i x ft Ix If. destruct (F2_nth _ _ _ (F2_flip _ _ _ FC) i x Ix) as (c & Ic & H).
      eexists. assert (D := own_of pivot filters win (fun v => if cell_eqb v (CStr PIVOT_VAL) then join $"," (map (fun x => column x) xs) else pivot ++ $": " ++ label v) x c (manager_pivots order ds) H). split; [exact D|].
      assert (Q := Hp i c ft Ic If). rewrite (proj1 H) in Q.
      apply (plot_same time_leb dedup_times); [|exact Q]. apply (drawn_same _ _ _ _ D). intros v s _ C. exact (sorted_of pivot filters win ls RG SH x v s (nth_error_In _ _ Ix) C).
    - unfold line_view. rewrite E. cbn [bind fst snd]. rewrite Ec. cbn [bind]. exact Hv.
  Qed.
End View.
