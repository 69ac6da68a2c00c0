(** Proofs about ILinePlotGen. *)
From Coq Require Import List Ascii String ZArith Bool Lia.
From Verif Require Import Lib.PyStr Model.ILineGen Spec.ILineGen.
Import ListNotations.
Local Open Scope list_scope.

Section Gen.
  Context {F T V : Type} (uuid : nat -> F).
  Definition row_g (i w : nat) : list (tok F) := map (fun k => TGraph (uuid k)) (seq i w).
  Definition row_l (i w : nat) : list (tok F) := map (fun k => TLegend (uuid k)) (seq i w).
  Fixpoint table (rows i w : nat) : list (list (tok F)) :=
    match rows with O => [] | S r => row_g i w :: row_l i w :: table r (i + w) w end.
  Lemma read_cells (cs : list (tok F)) : forall acc r, Forall (fun c => match c with TGraph _ | TLegend _ => True | _ => False end) cs ->
    read_rows (Some acc) (cs ++ TEndRow :: r) = match read_rows None r with Some rows => Some ((acc ++ cs) :: rows) | None => None end.
  Proof.
    induction cs as [|c cs IH]; intros acc r H; cbn [app].
    - rewrite app_nil_r. cbn [read_rows]. destruct r; reflexivity.
    - inversion H as [|? ? H1 H2]; subst.
      transitivity (read_rows (Some (acc ++ [c])) (cs ++ TEndRow :: r)).
      { destruct c; try contradiction; destruct (cs ++ TEndRow :: r); reflexivity. }
      rewrite IH by assumption. now rewrite <- app_assoc.
  Qed.
  Lemma read_line i w r : read_rows None (line uuid i w ++ r) =
    match read_rows None r with Some rows => Some (row_g i w :: row_l i w :: rows) | None => None end.
  Proof.
    unfold line. fold (row_g i w) (row_l i w).
    assert (E : ([TRow] ++ row_g i w ++ [TEndRow; TRow] ++ row_l i w ++ [TEndRow]) ++ r =
                TRow :: (row_g i w ++ TEndRow :: TRow :: (row_l i w ++ TEndRow :: r))).
    { rewrite <- !app_assoc. cbn [app]. reflexivity. }
    rewrite E. clear E.
    assert (S : forall x : list (tok F), read_rows None (TRow :: x) = read_rows (Some []) x) by (intros [|]; reflexivity).
    rewrite S, read_cells.
    2:{ apply Forall_forall. intros c H. apply in_map_iff in H as (k & <- & _). exact I. }
    rewrite S, read_cells.
    2:{ apply Forall_forall. intros c H. apply in_map_iff in H as (k & <- & _). exact I. }
    destruct (read_rows None r); reflexivity.
  Qed.
  Lemma read_lines rows : forall i w, read_rows None (lines uuid rows i w ++ [TEndTable]) = Some (table rows i w).
  Proof.
    induction rows as [|r IH]; intros i w; cbn [lines]; [reflexivity|]. rewrite <- app_assoc, read_line, IH. reflexivity.
  Qed.
  Lemma table_len rows : forall i w, List.length (table rows i w) = (2 * rows)%nat.
  Proof. induction rows as [|r IH]; intros i w; cbn [table List.length]; auto. rewrite IH. lia. Qed.
  Lemma table_width rows : forall i w, Forall (fun r => List.length r = w) (table rows i w).
  Proof.
    induction rows as [|r IH]; intros i w; cbn [table]; repeat constructor; auto; unfold row_g, row_l; now rewrite map_length, seq_length.
  Qed.
  Lemma row_at {A} (f : nat -> A) i w c : (c < w)%nat -> nth_error (map f (seq i w)) c = Some (f (i + c)%nat).
  Proof.
    intros H. rewrite nth_error_map. rewrite (nth_error_nth' _ 0%nat) by now rewrite seq_length. now rewrite seq_nth.
  Qed.
  Lemma table_at rows : forall i w r c, (r < rows)%nat -> (c < w)%nat ->
    cell_at (table rows i w) (2 * r) c = Some (TGraph (uuid (i + r * w + c))) /\ cell_at (table rows i w) (2 * r + 1) c = Some (TLegend (uuid (i + r * w + c))).
  Proof.
    induction rows as [|n IH]; intros i w r c Hr Hc; [lia|]. cbn [table]. unfold cell_at in *. destruct r as [|r].
    - cbn [Nat.mul nth_error Nat.add]. unfold row_g, row_l. rewrite !row_at by assumption. rewrite Nat.add_0_r. auto.
    - replace (2 * S r)%nat with (S (S (2 * r))) by lia. replace (S (S (2 * r)) + 1)%nat with (S (S (2 * r + 1))) by lia. cbn [nth_error].
      destruct (IH (i + w)%nat w r c) as [A B]; [lia|lia|]. rewrite A, B. replace (i + w + r * w + c)%nat with (i + S r * w + c)%nat by lia. auto.
  Qed.

  Lemma init_ok num per_line title g : (0 <= num)%Z -> init uuid num per_line title = Ok g -> (0 < per_line)%Z ->
    exists rows, let w := Z.to_nat (Z.min per_line num) in
      g_html g = [TTable] ++ match title with Some ((_ :: _) as t) => [TCaption t] | _ => [] end ++ lines uuid rows 0 w ++ [TEndTable] /\
      n_figs g = (rows * w)%nat /\ (0 < w)%nat /\ (Z.to_nat num <= rows * w)%nat /\ (rows * w < Z.to_nat num + w)%nat.
  Proof.
    intros N. unfold init. destruct (num =? 0)%Z eqn:E0; [discriminate|]. apply Z.eqb_neq in E0.
    set (per := if (num <? per_line)%Z then num else per_line). destruct (per =? 0)%Z eqn:E1; [discriminate|]. intros H P. injection H as <-.
    assert (E : per = Z.min per_line num).
    { unfold per. destruct (num <? per_line)%Z eqn:X; [apply Z.ltb_lt in X|apply Z.ltb_ge in X]; lia. }
    rewrite <- E. clearbody per. set (rows := if (num mod per =? 0)%Z then (num / per)%Z else (num / per + 1)%Z).
    exists (Z.to_nat rows). cbn [g_html n_figs]. split; [reflexivity|]. split; [reflexivity|].
    assert (Pp : (0 < per)%Z) by lia. split; [lia|].
    pose proof (Z.div_mod num per ltac:(lia)) as D. pose proof (Z.mod_pos_bound num per Pp) as B.
    assert (Q0 : (0 <= num / per)%Z) by (apply Z.div_pos; lia).
    unfold rows. destruct (num mod per =? 0)%Z eqn:M; [apply Z.eqb_eq in M|apply Z.eqb_neq in M].
    - split; apply Nat2Z.inj_le || apply Nat2Z.inj_lt; rewrite ?Nat2Z.inj_mul, ?Nat2Z.inj_add, ?Nat2Z.inj_mul, !Z2Nat.id by lia; nia.
    - split; apply Nat2Z.inj_le || apply Nat2Z.inj_lt; rewrite ?Nat2Z.inj_mul, ?Nat2Z.inj_add, ?Nat2Z.inj_mul, !Z2Nat.id by lia; nia.
  Qed.
  Lemma init_err num per_line title e : (0 <= num)%Z -> init uuid num per_line title = Err e <->
    (num = 0%Z /\ e = ERuntime) \/ (num <> 0%Z /\ per_line = 0%Z /\ e = EZeroDiv).
  Proof.
    intros N. unfold init. destruct (num =? 0)%Z eqn:E0; [apply Z.eqb_eq in E0|apply Z.eqb_neq in E0].
    - split; [intros H; injection H as <-; auto|]. intros [[_ ->]|[H _]]; [reflexivity|contradiction].
    - destruct (num <? per_line)%Z eqn:X; [apply Z.ltb_lt in X|apply Z.ltb_ge in X].
      + destruct (num =? 0)%Z eqn:E1; [apply Z.eqb_eq in E1; contradiction|]. split; [discriminate|]. intros [[H _]|(_ & H & _)]; [contradiction|lia].
      + destruct (per_line =? 0)%Z eqn:E1; [apply Z.eqb_eq in E1|apply Z.eqb_neq in E1].
        * split; [intros H; injection H as <-; auto|]. intros [[H _]|(_ & _ & ->)]; [contradiction|reflexivity].
        * split; [discriminate|]. intros [[H _]|(_ & H & _)]; contradiction.
  Qed.
  (** The table of the page. *)
  Lemma init_table num per_line title g : (0 <= num)%Z -> init uuid num per_line title = Ok g -> (0 < per_line)%Z ->
    exists rows w, w = Z.to_nat (Z.min per_line num) /\ n_figs g = (rows * w)%nat /\ (0 < w)%nat /\ (Z.to_nat num <= rows * w)%nat /\ (rows * w < Z.to_nat num + w)%nat /\
      read_table (g_html g) = Some (match title with Some [] => None | t => t end, table rows 0 w).
  Proof.
    intros N H P. destruct (init_ok _ _ _ _ N H P) as (rows & E & A). cbv zeta in *. set (w := Z.to_nat (Z.min per_line num)) in *.
    exists rows, w. destruct A as (A1 & A2 & A3 & A4). repeat (split; [auto|]). rewrite E. destruct title as [[|c t]|]; cbn [app read_table].
    - pose proof (read_lines rows 0 w) as R. destruct rows; [cbn in A3; lia|]. cbn [lines] in *. unfold line in *. cbn [app] in *. now rewrite R.
    - now rewrite read_lines.
    - pose proof (read_lines rows 0 w) as R. destruct rows; [cbn in A3; lia|]. cbn [lines] in *. unfold line in *. cbn [app] in *. now rewrite R.
  Qed.

  Lemma extend_len (d : list (list (datum T V))) : forall vs, List.length (extend d vs) = List.length d.
  Proof. induction d as [|x d IH]; intros [|v vs]; cbn; auto. Qed.
  Lemma extend_at (d : list (list (datum T V))) : forall vs i x v, nth_error d i = Some x -> nth_error vs i = Some v -> nth_error (extend d vs) i = Some (x ++ map DV v).
  Proof.
    induction d as [|y d IH]; intros [|w vs] [|i] x v H1 H2; try discriminate; cbn in *.
    - injection H1 as ->. injection H2 as ->. reflexivity.
    - now apply IH.
  Qed.
  Lemma dygraph_data (f : frame T V) : DataOf f (df_to_dygraph f).
  Proof.
    unfold DataOf, df_to_dygraph. cbn [fst snd]. split; auto. split; [now rewrite extend_len, map_length|].
    intros i t v H1 H2. rewrite (extend_at _ _ i [DT t] v); auto. rewrite nth_error_map, H1. reflexivity.
  Qed.
  Lemma size_sum (f : frame T V) : fold_right Z.add 0%Z (map (fun v => Z.of_nat (List.length v)) (f_values f)) = Z.of_nat (size f).
  Proof.
    unfold size. induction (f_values f) as [|v vs IH]; cbn [map fold_right List.concat]; auto. rewrite app_length, Nat2Z.inj_add, IH. reflexivity.
  Qed.
  Lemma add_plot_ok max (g : gen (F:=F)) n (f : frame T V) t s : add_plot uuid max g n f t = Ok s <->
    (Z.of_nat (size f) <= max)%Z /\ (n < n_figs g)%nat /\ s = (uuid n, t, df_to_dygraph f).
  Proof.
    unfold add_plot. rewrite size_sum. destruct (max <? Z.of_nat (size f))%Z eqn:E; [apply Z.ltb_lt in E|apply Z.ltb_ge in E].
    - split; [discriminate|]. intros [H _]. lia.
    - destruct (Nat.ltb_spec n (n_figs g)) as [L|L]; split.
      + intros H. injection H as <-. auto.
      + now intros (_ & _ & ->).
      + discriminate.
      + intros (_ & H & _). lia.
  Qed.
  Lemma add_plot_err max (g : gen (F:=F)) n (f : frame T V) t e : add_plot uuid max g n f t = Err e <->
    (max < Z.of_nat (size f))%Z /\ e = EValue \/ (Z.of_nat (size f) <= max)%Z /\ (n_figs g <= n)%nat /\ e = EKey.
  Proof.
    unfold add_plot. rewrite size_sum. destruct (max <? Z.of_nat (size f))%Z eqn:E; [apply Z.ltb_lt in E|apply Z.ltb_ge in E].
    - split; [intros H; injection H as <-; auto|]. intros [[_ ->]|[H _]]; [reflexivity|lia].
    - destruct (Nat.ltb_spec n (n_figs g)) as [L|L]; split.
      + discriminate.
      + intros [[H _]|(_ & H & _)]; lia.
      + intros H. injection H as <-. auto.
      + intros [[H _]|(_ & _ & ->)]; [lia|reflexivity].
  Qed.
  Lemma add_plots_ok max (g : gen (F:=F)) (fs : list (frame T V * str)) : forall n, (n + List.length fs <= n_figs g)%nat ->
    match add_plots uuid max g n fs with
    | Ok ss => Forall (fun ft => (Z.of_nat (size (fst ft)) <= max)%Z) fs /\ List.length ss = List.length fs /\
               forall i f t, nth_error fs i = Some (f, t) -> nth_error ss i = Some (uuid (n + i)%nat, t, df_to_dygraph f)
    | Err e => e = EValue /\ Exists (fun ft => (max < Z.of_nat (size (fst ft)))%Z) fs
    end.
  Proof.
    induction fs as [|[f t] fs IH]; intros n L; cbn [add_plots].
    - repeat split; auto. intros [|i] f t; discriminate.
    - cbn [List.length] in L. destruct (add_plot uuid max g n f t) as [s|e] eqn:E; cbn [bind].
      + apply add_plot_ok in E as (E1 & E2 & ->). specialize (IH (S n) ltac:(lia)).
        destruct (add_plots uuid max g (S n) fs) as [ss|e]; cbn [bind].
        * destruct IH as (I1 & I2 & I3). split; [now constructor|]. split; [cbn; lia|]. intros [|i] f' t' H; cbn [nth_error] in *.
          -- injection H as <- <-. now rewrite Nat.add_0_r.
          -- rewrite (I3 i f' t' H). do 4 f_equal. lia.
        * destruct IH as [-> IH]. split; auto.
      + apply add_plot_err in E as [[H ->]|(_ & H & _)]; [|lia]. split; auto.
  Qed.

  (** The page as a whole. *)
  Definition Page (per_line : Z) (title : option str) (fs : list (frame T V * str)) (p : list (tok F) * list (script F T V)) : Prop :=
    exists rows cells w, w = Z.to_nat (Z.min per_line (Z.of_nat (List.length fs))) /\
      read_table (fst p) = Some (match title with Some [] => None | t => t end, cells) /\ List.length cells = (2 * rows)%nat /\
      (List.length fs <= rows * w < List.length fs + w)%nat /\ Forall (fun r => List.length r = w) cells /\
      (forall r c, (r < rows)%nat -> (c < w)%nat ->
         cell_at cells (2 * r) c = Some (TGraph (uuid (r * w + c))) /\ cell_at cells (2 * r + 1) c = Some (TLegend (uuid (r * w + c)))) /\
      List.length (snd p) = List.length fs /\
      forall i f t, nth_error fs i = Some (f, t) -> exists d, nth_error (snd p) i = Some (uuid i, t, d) /\ DataOf f d /\
        cell_at cells (2 * (i / w)) (i mod w) = Some (TGraph (uuid i)) /\ cell_at cells (2 * (i / w) + 1) (i mod w) = Some (TLegend (uuid i)).
  Lemma page_ok max per_line title fs p : (0 < per_line)%Z -> page uuid max per_line title fs = Ok p ->
    Page per_line title fs p /\ Forall (fun ft => (Z.of_nat (size (fst ft)) <= max)%Z) fs.
  Proof.
    intros P. unfold page. destruct (init uuid (Z.of_nat (List.length fs)) per_line title) as [g|] eqn:E; cbn [bind]; [|discriminate].
    destruct (init_table _ _ _ _ (Nat2Z.is_nonneg _) E P) as (rows & w & Ew & En & Pw & L1 & L2 & R). rewrite Nat2Z.id in L1, L2.
    pose proof (add_plots_ok max g fs 0 ltac:(lia)) as A. destruct (add_plots uuid max g 0 fs) as [ss|]; cbn [bind]; [|discriminate].
    destruct A as (A1 & A2 & A3). intros H. injection H as <-. split; auto. exists rows, (table rows 0 w), w. cbn [fst snd].
    split; [exact Ew|]. split; [exact R|]. split; [apply table_len|]. split; [lia|]. split; [apply table_width|].
    assert (C : forall r c, (r < rows)%nat -> (c < w)%nat -> cell_at (table rows 0 w) (2 * r) c = Some (TGraph (uuid (r * w + c))) /\
       cell_at (table rows 0 w) (2 * r + 1) c = Some (TLegend (uuid (r * w + c)))) by (intros r c Hr Hc; exact (table_at rows 0 w r c Hr Hc)).
    split; [exact C|]. split; [exact A2|]. intros i f t Hi. exists (df_to_dygraph f). split; [exact (A3 i f t Hi)|]. split; [apply dygraph_data|].
    assert (Li : (i < List.length fs)%nat) by (apply nth_error_Some; congruence).
    pose proof (Nat.div_mod i w ltac:(lia)) as D. pose proof (Nat.mod_upper_bound i w ltac:(lia)) as B.
    replace (uuid i) with (uuid (i / w * w + i mod w)) by (f_equal; lia). apply C; auto. apply Nat.div_lt_upper_bound; lia.
  Qed.
  Lemma page_err max per_line title fs e : (0 <= per_line)%Z -> page uuid max per_line title fs = Err e <->
    (fs = [] /\ e = ERuntime) \/ (fs <> [] /\ per_line = 0%Z /\ e = EZeroDiv) \/
    (0 < per_line)%Z /\ e = EValue /\ Exists (fun ft : frame T V * str => (max < Z.of_nat (size (fst ft)))%Z) fs.
  Proof.
    intros P. unfold page. pose proof (init_err (Z.of_nat (List.length fs)) per_line title) as X.
    destruct (init uuid (Z.of_nat (List.length fs)) per_line title) as [g|e0] eqn:E; cbn [bind].
    - assert (Pp : (0 < per_line)%Z /\ fs <> []).
      { split.
        - destruct (Z.eq_dec per_line 0) as [-> |]; [|lia]. destruct fs as [|a fs].
          + discriminate E.
          + assert (Ok g = Err EZeroDiv) by (apply X; [lia|]; right; repeat split; cbn; lia). discriminate.
        - intros ->. discriminate E. }
      destruct Pp as [Pp Nf]. destruct (init_table _ _ _ _ (Nat2Z.is_nonneg _) E Pp) as (rows & w & Ew & En & Pw & L1 & L2 & R). rewrite Nat2Z.id in L1, L2.
      pose proof (add_plots_ok max g fs 0 ltac:(lia)) as A. destruct (add_plots uuid max g 0 fs) as [ss|]; cbn [bind].
      + split; [discriminate|]. intros [[H _]|[(_ & H & _)|(_ & _ & H)]]; [contradiction|lia|]. exfalso. destruct A as [A _].
        rewrite Forall_forall in A. apply Exists_exists in H as (x & H1 & H2). specialize (A x H1). lia.
      + destruct A as [-> A]. split; [intros H; injection H as <-; auto|]. intros [[H _]|[(_ & H & _)|(_ & -> & H)]]; [contradiction|lia|reflexivity].
    - assert (Y := proj1 (X e0 (Nat2Z.is_nonneg _)) eq_refl). clear E. destruct Y as [[H ->]|(H & -> & ->)].
      + destruct fs; [|discriminate]. split; [intros K; injection K as <-; auto|]. intros [[_ ->]|[(K & _)|(_ & _ & K)]]; [reflexivity|contradiction|inversion K].
      + split.
        * intros K. injection K as <-. right. left. repeat split; auto. intros ->. now apply H.
        * intros [[-> _]|[(_ & _ & ->)|(K & _)]]; [now elim H|reflexivity|lia].
  Qed.
  Lemma page_distinct max per_line title (fs : list (frame T V * str)) p i j f t d f' t' d' : (0 < per_line)%Z ->
    (forall a b, uuid a = uuid b -> a = b) -> page uuid max per_line title fs = Ok p ->
    nth_error (snd p) i = Some (f, t, d) -> nth_error (snd p) j = Some (f', t', d') -> f = f' -> i = j.
  Proof.
    intros P U H Hi Hj E. apply page_ok in H as [(rows & cells & w & _ & _ & _ & _ & _ & _ & L & A) _]; auto.
    assert (X : forall k g u v, nth_error (snd p) k = Some (g, u, v) -> g = uuid k).
    { intros k g u v Hk. assert (k < List.length fs)%nat by (rewrite <- L; apply nth_error_Some; congruence).
      destruct (nth_error fs k) as [[a b]|] eqn:Ek; [|apply nth_error_None in Ek; lia]. destruct (A k a b Ek) as (d0 & A1 & _). congruence. }
    apply X in Hi, Hj. apply U. congruence.
  Qed.
End Gen.
