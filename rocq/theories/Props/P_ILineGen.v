(** C64: the page of an interactive plot. *)
From Coq Require Import List Ascii String ZArith Bool Lia.
From Verif Require Import Lib.PyStr Model.ILineGen Spec.ILineGen Proofs.ILineGenP.
Import ListNotations.
Local Open Scope list_scope.

(** The page is one table: plot [i] is in line [i / w] and column [i mod w], its legend right below it, and its script
    holds its data under the name of its cell. *)
Theorem C64_page : forall F T V (uuid : nat -> F) max per_line title (fs : list (frame T V * str)) p, (0 < per_line)%Z ->
  page uuid max per_line title fs = Ok p ->
  (exists rows cells w, w = Z.to_nat (Z.min per_line (Z.of_nat (List.length fs))) /\
      read_table (fst p) = Some (match title with Some [] => None | t => t end, cells) /\ List.length cells = (2 * rows)%nat /\
      (List.length fs <= rows * w < List.length fs + w)%nat /\ Forall (fun r => List.length r = w) cells /\
      (forall r c, (r < rows)%nat -> (c < w)%nat ->
         cell_at cells (2 * r) c = Some (TGraph (uuid (r * w + c)%nat)) /\ cell_at cells (2 * r + 1) c = Some (TLegend (uuid (r * w + c)%nat))) /\
      List.length (snd p) = List.length fs /\
      forall i f t, nth_error fs i = Some (f, t) -> exists d, nth_error (snd p) i = Some (uuid i, t, d) /\ DataOf f d /\
        cell_at cells (2 * (i / w)) (i mod w) = Some (TGraph (uuid i)) /\ cell_at cells (2 * (i / w) + 1) (i mod w) = Some (TLegend (uuid i))) /\
  Forall (fun ft => (Z.of_nat (size (fst ft)) <= max)%Z) fs.
Proof. exact @page_ok. Qed.
(** It fails exactly without plots, with no plot per line, or with a plot that is too large. *)
Theorem C64_fails : forall F T V (uuid : nat -> F) max per_line title (fs : list (frame T V * str)) e, (0 <= per_line)%Z ->
  page uuid max per_line title fs = Err e <->
  (fs = [] /\ e = ERuntime) \/ (fs <> [] /\ per_line = 0%Z /\ e = EZeroDiv) \/
  (0 < per_line)%Z /\ e = EValue /\ Exists (fun ft : frame T V * str => (max < Z.of_nat (size (fst ft)))%Z) fs.
Proof. exact @page_err. Qed.
(** With distinct names every script belongs to one cell. *)
Theorem C64_distinct : forall F T V (uuid : nat -> F) max per_line title (fs : list (frame T V * str)) p i j f t d f' t' d', (0 < per_line)%Z ->
  (forall a b, uuid a = uuid b -> a = b) -> page uuid max per_line title fs = Ok p ->
  nth_error (snd p) i = Some (f, t, d) -> nth_error (snd p) j = Some (f', t', d') -> f = f' -> i = j.
Proof. exact @page_distinct. Qed.

Definition ex_frame : frame nat nat := Frame [1; 2] [$"a"; $"b"] [[10; 20]; [30; 40]].
Example C64_ex : page (fun i => i) 4 2 (Some $"T") [(ex_frame, $"x"); (ex_frame, $"y"); (ex_frame, $"z")] =
  Ok ([TTable; TCaption $"T"; TRow; TGraph 0; TGraph 1; TEndRow; TRow; TLegend 0; TLegend 1; TEndRow;
       TRow; TGraph 2; TGraph 3; TEndRow; TRow; TLegend 2; TLegend 3; TEndRow; TEndTable],
      let d := ([$"index"; $"a"; $"b"], [[DT 1; DV 10; DV 20]; [DT 2; DV 30; DV 40]]) in [(0, $"x", d); (1, $"y", d); (2, $"z", d)]) /\
  page (fun i => i) 3 2 None [(ex_frame, $"x")] = Err EValue /\
  page (fun i => i) 3 0 None [(ex_frame, $"x")] = Err EZeroDiv /\ page (T:=nat) (V:=nat) (fun i => i) 3 0 None [] = Err ERuntime.
Proof. repeat split; vm_compute; reflexivity. Qed.
(** With a negative number of plots per line the page has no cells, and the first plot is a KeyError. *)
Theorem C64_negative_refuted : ~ (forall T V (uuid : nat -> nat) max per_line title (fs : list (frame T V * str)) e,
  page uuid max per_line title fs = Err e -> e <> EKey).
Proof. intros H. apply (H nat nat (fun i => i) 9%Z (-1)%Z None [(ex_frame, $"x")] EKey); vm_compute; reflexivity. Qed.
(** The script of a plot need not hold the times only: a frame with fewer rows of values than times keeps bare times. *)
Example C64_short_ex : snd (df_to_dygraph (Frame [1; 2] [$"a"] [[10]])) = [[DT 1; DV 10]; [DT 2]].
Proof. reflexivity. Qed.

Print Assumptions C64_page.
Print Assumptions C64_fails.
Print Assumptions C64_distinct.
