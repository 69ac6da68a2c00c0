(** Proofs: reports read through the files of the cache. *)
From Coq Require Import List Ascii String ZArith NArith Bool Lia.
From Verif Require Import Lib.PyStr Lib.PyStrFacts Lib.F64 Lib.F64Ord Model.Base Model.Line Model.Registry Model.Populate Model.Window Model.Cache
  Model.Csv Model.CsvCache Spec.Lines Spec.Payload Spec.Arrays Spec.Parts Spec.Trace Spec.Interval Spec.Tables Spec.Written Spec.History Spec.Cached
  Proofs.PayloadP Proofs.FrameP Proofs.PopulateP Proofs.SolveP Proofs.WrittenP Proofs.WrittenQ Proofs.CacheP Proofs.CsvP Proofs.CsvCacheP.
Import ListNotations.

(** ** Looking at a report through fewer classes *)
Definition view1 (f : str -> option str) (i : item) : item :=
  match i with
  | Wrote L b ps => match f b with Some b' => Wrote L b' ps | None => Foreign L end
  | _ => i
  end.
Definition view f (items : list item) : list item := map (view1 f) items.
Lemma view1_str f i : item_str (view1 f i) = item_str i.
Proof. destruct i as [l|L|L a ps]; auto. cbn [view1]. now destruct (f a). Qed.
Lemma view_str f items : map item_str (view f items) = map item_str items.
Proof. unfold view. rewrite map_map. apply map_ext. apply view1_str. Qed.
Lemma view_starts f items : starts_event items -> starts_event (view f items).
Proof. destruct items as [|[l|L|L a ps] r]; auto. intros _. cbn [view map view1]. destruct (f a); exact I. Qed.
Lemma view_lines f items : event_lines (view f items) = event_lines items.
Proof.
  induction items as [|[l|L|L a ps] r IH]; [reflexivity|exact IH| |]; cbn [view map view1].
  - cbn [event_lines flat_map app]. f_equal. exact IH.
  - destruct (f a); cbn [event_lines flat_map app]; f_equal; exact IH.
Qed.

Section Kept.
  Context {F : Type}.
  Variable fparse : str -> option F.
  Variables (all : classes).
  Let ws := map (fun d : str * klass => (k_word (snd d), d)) all.
  Hypotheses (Nk : NoDup (map fst all)) (Nw : NoDup (map (fun d => k_word (snd d)) all)).

  Lemma dispatch_class line a : Dispatch ws line a -> exists k, In (a, k) all /\ occurs (k_word k) line.
  Proof.
    intros (pre & w & k & post & E & O & _). assert (H : In (w, (a, k)) ws) by (rewrite E; apply in_or_app; right; now left).
    unfold ws in H. apply in_map_iff in H as ([a' k'] & E' & Hi). cbn in E'. injection E' as <- <- <-. eauto.
  Qed.
  Lemma nodup_inj {A B} (g : A -> B) l x y : NoDup (map g l) -> In x l -> In y l -> g x = g y -> x = y.
  Proof.
    induction l as [|a l IH]; intros N Hx Hy E; [destruct Hx|]. cbn [map] in N. inversion N as [|? ? Ha N']; subst.
    destruct Hx as [->|Hx], Hy as [->|Hy]; auto.
    - exfalso. apply Ha. rewrite E. now apply in_map.
    - exfalso. apply Ha. rewrite <- E. now apply in_map.
  Qed.
  Lemma dispatch_single w a k line : occurs w line -> Dispatch [(w, (a, k))] line a.
  Proof.
    intros O. exists [], w, k, []. split; [reflexivity|]. split; [exact O|]. destruct (k_fallback k) eqn:E; [right|left]; (split; [auto|]).
    - split; [|intros ? ? ? []]. intros w' a' k' [H|[]] Hf. injection H as <- <- <-. congruence.
    - intros ? ? ? [].
  Qed.

  Section One.
    Variables (a : str) (k : klass) (items : list item).
    Hypotheses (Hin : In (a, k) all) (Hok : Forall (item_ok ws) items).
    Hypothesis Hamb : forall line d1 d2, In line (map item_str items) -> In d1 all -> In d2 all ->
      contains (k_word (snd d1)) line = true -> contains (k_word (snd d2)) line = true -> snd d1 = snd d2.
    Let f := fun b => if eqs a b then Some ([] : str) else None.
    Let ws1 := [(k_word k, ([] : str, k))].
    Lemma one_ok : Forall (item_ok ws1) (view f items).
    Proof.
      unfold view. apply Forall_map. apply Forall_forall. intros i Hi. rewrite Forall_forall in Hok. specialize (Hok i Hi).
      destruct i as [l|L|L b ps]; cbn [view1]; auto.
      - destruct Hok as [HL HN]. split; auto. intros w a' k' [H|[]]. injection H as <- <- <-. apply (HN _ a k).
        unfold ws. apply in_map_iff. exists (a, k). auto.
      - destruct Hok as (HL & Hd & Hp & HD). destruct (dispatch_class _ _ HD) as (k2 & Hi2 & O2). unfold f.
        destruct (eqs_spec a b) as [<-|N].
        + split; auto. split; auto. split; auto. apply dispatch_single.
          assert (E : (a, k) = (a, k2)) by (apply (nodup_inj fst all); auto). injection E as <-. exact O2.
        + split; auto. intros w a' k' [H|[]] O. injection H as <- <- <-. apply N.
          assert (E : k = k2).
          { apply (Hamb (item_str (Wrote L b ps)) (a, k) (b, k2)); auto; [now apply in_map| |]; cbn [snd]; now apply occurs_iff. }
          subst k2. assert (E : (a, k) = (b, k)) by (apply (nodup_inj (fun d => k_word (snd d)) all); auto). now injection E.
    Qed.
    Lemma one_stamps : forall i us, List.length us = List.length (event_lines items) ->
      map (fun s => (s_line s, s_parts s)) (filter (of_attr []) (stamped i (view f items) us)) = written_for a items.
    Proof.
      clear Hok Hamb. induction items as [|it r IH]; intros i us E; [reflexivity|].
      destruct it as [l|L|L b ps]; cbn [view map view1].
      - apply IH. exact E.
      - destruct us as [|u us]; [discriminate|]. cbn [stamped]. apply IH. now injection E.
      - destruct us as [|u us]; [discriminate|]. injection E as E. cbn [written_for flat_map]. unfold f at 1. destruct (eqs a b).
        + cbn [stamped filter]. unfold of_attr at 1. cbn [s_attr eqs map s_line s_parts app]. f_equal. now apply IH.
        + cbn [stamped app]. now apply IH.
    Qed.
  End One.
  Lemma stamped_pos items : forall i us, Forall (fun s => (i <= s_pos s < i + Z.of_nat (List.length items))%Z) (stamped i items us).
  Proof.
    induction items as [|it r IH]; intros i us; [constructor|].
    assert (W : forall us, Forall (fun s => (i <= s_pos s < i + Z.of_nat (List.length (it :: r)))%Z) (stamped (i + 1) r us)).
    { intros us'. eapply Forall_impl; [|apply IH]. intros s H. cbn beta in *. cbn [List.length]. rewrite Nat2Z.inj_succ. lia. }
    destruct it as [l|L|L b ps]; cbn [stamped]; [apply W| |]; destruct us as [|u us]; try constructor; try apply W.
    cbn [s_pos List.length]. lia.
  Qed.

  (** ** The frame of one attribute *)
  Lemma cells_named L ps : Forall part_ok ps -> ~ In [] (map fst (flat_map (part_cells L) ps)).
  Proof.
    induction 1 as [|p ps Hp H IH]; [auto|]. cbn [flat_map]. rewrite map_app. intros C. apply in_app_or in C as [C|C]; auto.
    destruct p as [g|n vs]; cbn in C, Hp.
    - destruct C as [C|[]]. tauto.
    - rewrite map_map in C. cbn [fst] in C. apply in_map_iff in C as (i & E & _). destruct Hp as [[Hn _] _]. destruct n; [congruence|discriminate].
  Qed.
  Lemma frame_is_kept ss fr (es : list (tline * list part)) :
    let L := trace_len (map s_parts ss) in
    let cells := fun e : tline * list part => flat_map (part_cells L) (snd e) in
    Forall2 (row_full L) ss fr -> map (fun s => (s_line s, s_parts s)) ss = es ->
    Forall (fun s => Forall part_ok (s_parts s)) ss ->
    (forall q, In q (map s_parts ss) -> NoDup (map fst (flat_map (part_cells L) q))) ->
    Forall (fun s => fits (s_pos s)) ss ->
    (forall x y, In x es -> In y es -> map fst (cells x) = map fst (cells y)) ->
    (forall x n, In x es -> In n (map fst (cells x)) -> ~ In n [$"Time"; $"__comm"; $"__pid"; $"__cpu"; $"__line"]) ->
    (forall n,
      (forall x v more, In x es -> In (n, (v, more)) (cells x) -> exists z, int_literal v z /\ fits z) \/
      ((forall x v more z, In x es -> In (n, (v, more)) (cells x) -> ~ int_literal v z) /\
       texts_ok fparse (flat_map (fun x => flat_map (fun c => if eqs n (fst c) then [join $" " (fst (snd c) :: snd (snd c))] else []) (cells x)) es))) ->
    texts_ok fparse (map (fun x => l_comm (fst x)) es) ->
    (forall x, In x es -> fits (Z.of_N (dec_val (l_pid (fst x)))) /\ fits (Z.of_N (dec_val (l_cpu (fst x))))) ->
    frame_kept fparse fr \/ fr = [].
  Proof.
    intros L cells HF Hes Hparts Hnd Hpos Hsame Hres Hcols Hcomm Hids.
    destruct ss as [|s0 ss0] eqn:Ess; [inversion HF; auto|]. rewrite <- Ess in *. left.
    assert (Hs0 : In s0 ss) by (rewrite Ess; now left). clear Ess.
    set (names0 := map fst (flat_map (part_cells L) (s_parts s0))).
    assert (Hse : forall s, In s ss -> In (s_line s, s_parts s) es).
    { intros s Hs. rewrite <- Hes. apply in_map_iff. eauto. }
    assert (Hes' : forall x, In x es -> exists s, In s ss /\ s_line s = fst x /\ s_parts s = snd x).
    { intros x Hx. rewrite <- Hes in Hx. apply in_map_iff in Hx as (s & <- & Hs). eauto. }
    assert (Hnames : forall s, In s ss -> map fst (flat_map (part_cells L) (s_parts s)) = names0).
    { intros s Hs. apply (Hsame (s_line s, s_parts s) (s_line s0, s_parts s0)); auto. }
    assert (Hfree : forall n, In n names0 -> ~ In n ($"Time" :: meta_names)).
    { intros n Hn. apply (Hres (s_line s0, s_parts s0) n); auto. }
    assert (N0 : NoDup names0) by (apply Hnd; now apply in_map).
    assert (Nm : NoDup ($"Time" :: meta_names)).
    { repeat (constructor; [intros C; repeat (destruct C as [C|C]; [discriminate C|]); destruct C|]). constructor. }
    assert (NN : NoDup ($"Time" :: meta_names ++ names0)) by (apply (nodup_app2 ($"Time" :: meta_names)); auto).
    assert (Hrow : forall s r, row_full L s r -> In s ss -> map fst (snd r) = meta_names ++ names0).
    { intros s r [_ Hk] Hs. rewrite Hk; [now rewrite Hnames|]. intros n Hn C. rewrite Hnames in Hn by auto. apply (Hfree n Hn). now right. }
    assert (P1 : forall r, In r fr -> exists s, In s ss /\ row_full L s r).
    { clear -HF. revert HF. generalize L. intros L' HF. induction HF as [|s r ss fr H HF IH]; intros r' Hr; [destruct Hr|].
      destruct Hr as [->|Hr]; [exists s; split; auto; now left|]. destruct (IH r' Hr) as (s' & ? & ?). exists s'. split; auto. now right. }
    assert (P2 : forall s, In s ss -> exists r, In r fr /\ row_full L s r).
    { clear -HF. revert HF. generalize L. intros L' HF. induction HF as [|s r ss fr H HF IH]; intros s' Hs; [destruct Hs|].
      destruct Hs as [->|Hs]; [exists r; split; auto; now left|]. destruct (IH s' Hs) as (r' & ? & ?). exists r'. split; auto. now right. }
    assert (Hlook : forall s r n c, row_full L s r -> In s ss -> (In (n, c) (snd r) <-> dlookup n (snd r) = Some c)).
    { intros s r n c Hr Hs. unfold dlookup. split; [|apply (dget_In eqs eqs_eq)]. apply (In_dget eqs eqs_eq).
      rewrite (Hrow s r Hr Hs). now inversion NN. }
    assert (Hmeta : forall n s r c, In n meta_names -> row_full L s r -> In s ss -> (In (n, c) (snd r) <-> meta_cell (stamp_event s) n = Some c)).
    { intros n s r c Hn Hr Hs. rewrite (Hlook s r n c Hr Hs). destruct Hr as [(_ & _ & Hr) _]. rewrite Hr; [reflexivity|].
      rewrite Hnames by auto. intros C. apply (Hfree n C). now right. }
    exists (meta_names ++ names0). split; [discriminate|]. split; [exact NN|]. split.
    { intros C. apply in_app_or in C as [C|C]; [repeat (destruct C as [C|C]; [discriminate C|]); destruct C|].
      revert C. apply cells_named. rewrite Forall_forall in Hparts. auto. }
    split.
    { apply Forall_forall. intros r Hr. destruct (P1 r Hr) as (s & Hs & H). eauto. }
    assert (Hint : forall n (g : stamp -> Z), In n meta_names -> (forall s, meta_cell (stamp_event s) n = Some (CInt (g s))) ->
      (forall s, In s ss -> fits (g s)) -> column_kept fparse fr n).
    { intros n g Hn Hg Hfit. left. intros c (r & Hr & Hc). destruct (P1 r Hr) as (s & Hs & H). apply (Hmeta n s r c Hn H Hs) in Hc.
      rewrite Hg in Hc. injection Hc as <-. eauto. }
    intros n Hn. apply in_app_or in Hn as [Hn|Hn].
    - destruct Hn as [<-|[<-|[<-|[<-|[]]]]].
      + right. exists (map (fun x => l_comm (fst x)) es). split; [|exact Hcomm]. intros c. split.
        * intros (r & Hr & Hc). destruct (P1 r Hr) as (s & Hs & H). apply (Hmeta _ s r c) in Hc; auto; [|now left].
          injection Hc as <-. exists (l_comm (s_line s)). split; auto. apply in_map_iff. exists (s_line s, s_parts s). auto.
        * intros (t & Ht & ->). apply in_map_iff in Ht as (x & <- & Hx). destruct (Hes' x Hx) as (s & Hs & E1 & _).
          destruct (P2 s Hs) as (r & Hr & H). exists r. split; auto. apply (Hmeta _ s r); auto; [now left|]. cbn. now rewrite E1.
      + apply (Hint _ (fun s => Z.of_N (dec_val (l_pid (s_line s))))); [right; now left|reflexivity|].
        intros s Hs. apply (Hids (s_line s, s_parts s)). auto.
      + apply (Hint _ (fun s => Z.of_N (dec_val (l_cpu (s_line s))))); [right; right; now left|reflexivity|].
        intros s Hs. apply (Hids (s_line s, s_parts s)). auto.
      + apply (Hint _ s_pos); [right; right; right; now left|reflexivity|]. now apply Forall_forall.
    - assert (Hcell : forall s r, row_full L s r -> In s ss -> exists v more, In (n, (v, more)) (flat_map (part_cells L) (s_parts s)) /\
          forall c, In (n, c) (snd r) -> col_cell v more c).
      { intros s r Hr Hs. assert (X : In n (map fst (flat_map (part_cells L) (s_parts s)))) by now rewrite Hnames.
        apply in_map_iff in X as ([n' [v more]] & E & Hi). cbn [fst] in E. subst n'. exists v, more. split; auto.
        intros c Hc. apply (Hlook s r n c Hr Hs) in Hc. destruct Hr as [(_ & Hr & _) _]. destruct (Hr n v more Hi) as (c' & E & Hcc).
        rewrite Hc in E. injection E as <-. exact Hcc. }
      destruct (Hcols n) as [HI|[HT Htx]].
      + left. intros c (r & Hr & Hc). destruct (P1 r Hr) as (s & Hs & H). destruct (Hcell s r H Hs) as (v & more & Hi & Hcc).
        destruct (HI (s_line s, s_parts s) v more (Hse s Hs) Hi) as (z & Hz & Hfit). destruct (Hcc c Hc) as [(z' & Hz' & ->)|[Hno _]].
        * exists z'. split; auto. rewrite (literal_unique v z' z); auto. eapply literal_no_space; eauto.
        * exfalso. eapply Hno; eauto.
      + right. eexists. split; [|exact Htx]. intros c. split.
        * intros (r & Hr & Hc). destruct (P1 r Hr) as (s & Hs & H). destruct (Hcell s r H Hs) as (v & more & Hi & Hcc).
          destruct (Hcc c Hc) as [(z' & Hz' & ->)|[_ ->]].
          { exfalso. eapply (HT (s_line s, s_parts s)); eauto. }
          exists (join $" " (v :: more)). split; auto. apply in_flat_map. exists (s_line s, s_parts s). split; auto.
          apply in_flat_map. exists (n, (v, more)). split; [exact Hi|]. cbn [fst snd]. rewrite eqs_refl. now left.
        * intros (t & Ht & ->). apply in_flat_map in Ht as (x & Hx & Ht). apply in_flat_map in Ht as ([n' [v more]] & Hc & Ht).
          cbn [fst snd] in Ht. destruct (eqs_spec n n') as [<-|]; [|destruct Ht]. destruct Ht as [<-|[]].
          destruct (Hes' x Hx) as (s & Hs & _ & E2). destruct (P2 s Hs) as (r & Hr & H). exists r. split; auto.
          apply (Hlook s r); auto. destruct H as [(_ & Hrr & _) _]. unfold cells in Hc. rewrite <- E2 in Hc.
          destruct (Hrr n v more Hc) as (c & E & Hcc). rewrite E. f_equal. destruct Hcc as [(z & Hz & _)|[_ ->]]; auto.
          exfalso. eapply (HT x v more z); auto. unfold cells. now rewrite <- E2.
  Qed.
End Kept.

(** ** Histories over reports *)
Lemma written_parts a items : map snd (written_for a items) = parts_of a items.
Proof.
  induction items as [|[l|L|L b ps] r IH]; auto. cbn [written_for parts_of flat_map]. rewrite map_app. f_equal; [|exact IH].
  now destruct (eqs a b).
Qed.
Section Histories.
  Context {F content digest header : Type}.
  Variables (trepr : float -> str) (tparse : str -> option float) (frepr : F -> str) (fparse : str -> option F)
            (f_of : Z -> F) (num_cell : F -> cell) (bool_cell : bool -> cell).
  Variables (deq : digest -> digest -> bool) (md5 : content -> digest) (file : content -> list str) (head : content -> header)
            (mk : klass -> list event -> res frame) (fuel : nat) (all : classes) (T : content -> Prop).
  Let body := fun c => ftrace_body (file c).
  Let enc := csv_of trepr frepr f_of.
  Let dec := frame_of tparse fparse num_cell bool_cell.
  Let K := fun k => exists a, In (a, k) all.
  Hypothesis Htime : forall x, tparse (trepr x) = Some x.
  Hypotheses (Nk : NoDup (map fst all)) (Nw : NoDup (map (fun d => k_word (snd d)) all))
             (Nn : NoDup (map (fun d => k_pyname (snd d)) all)).
  Hypothesis Hmk : forall k es, K k -> mk k es = create_dataframe fuel generate_data_dict es.
  Hypothesis Hrep : forall c, T c -> exists items, report fparse fuel all (file c) items.
  Hypothesis Hamb : unambiguous body K T.

  Lemma names_differ : names_unique K.
  Proof.
    intros k1 k2 [a1 H1] [a2 H2] E. assert (X : (a1, k1) = (a2, k2)) by (apply (nodup_inj (fun d => k_pyname (snd d)) all); auto).
    now injection X.
  Qed.
  Lemma empty_frame k f : K k -> mk k [] = Ok f -> f = [].
  Proof. intros Hk H. rewrite Hmk in H by auto. cbn in H. now injection H as <-. Qed.
  Lemma tables_kept : tables_faithful body enc dec mk K T.
  Proof.
    intros k c es f f' [a Ha] HT (us & HA & HR) Hf Hd.
    destruct (Hrep c HT) as (items & hdr & Ef & Hh & Hs & Hok & Hlen & Hcls).
    assert (Eb : body c = map item_str items) by (unfold body; rewrite Ef; eapply body_written; eauto).
    rewrite Eb in HA, HR.
    set (g := fun b => if eqs a b then Some ([] : str) else None).
    assert (Hone : Forall (item_ok [(k_word k, ([], k))]) (view g items)).
    { apply (one_ok all Nk Nw a k items Ha Hok). intros line d1 d2 Hl H1 H2 C1 C2. apply (Hamb c line); auto; try (eexists; rewrite <- surjective_pairing; eassumption).
      now rewrite Eb. }
    rewrite <- (view_str g) in HA, HR. rewrite (times_written _ _ Hone) in HA.
    apply (recorded_written _ _ _ Hone) in HR. rewrite view_lines in HA.
    assert (El : List.length us = List.length (event_lines items)).
    { apply Assigned_length in HA. now rewrite map_length in HA. }
    assert (Est := one_stamps a items 0%Z us El). fold g in Est.
    set (ss := filter (of_attr []) (stamped 0 (view g items) us)) in *.
    assert (Ep : map s_parts ss = parts_of a items).
    { rewrite <- written_parts, <- Est, map_map. reflexivity. }
    destruct (Hcls a k Ha) as (Hc & (K1 & K2 & K3 & K4 & K5) & Hfuel).
    rewrite written_parts in *. 
    assert (Hp : Forall (fun s => Forall part_ok (s_parts s)) ss).
    { apply Forall_forall. intros s Hi. apply filter_In in Hi as [Hi _]. assert (X := stamped_parts _ _ Hone 0%Z us).
      rewrite Forall_forall in X. auto. }
    rewrite <- Ep in *. destruct (frame_full fuel ss Hp Hc Hfuel) as (fr & Efr & HF).
    rewrite Hmk in Hf by (eexists; eassumption). rewrite HR in Hf. change (create_dataframe fuel generate_data_dict (map ev_of ss) = Ok f) in Hf.
    rewrite Efr in Hf. injection Hf as <-.
    assert (Hk : frame_kept fparse fr \/ fr = []).
    { apply (frame_is_kept fparse ss fr (written_for a items)); auto; [apply Hc|].
      apply Forall_forall. intros s Hi. apply filter_In in Hi as [Hi _]. assert (X := stamped_pos (view g items) 0%Z us).
      rewrite Forall_forall in X. specialize (X s Hi). unfold view in X. rewrite map_length in X. unfold fits. lia. }
    unfold dec, enc in Hd. rewrite (frame_round trepr tparse frepr fparse f_of num_cell bool_cell Htime fr Hk) in Hd. now injection Hd as <-.
  Qed.

  Hypothesis Hdig : digest_faithful deq md5 T.
  Notation reach := (Reach deq md5 body head enc dec mk K T).
  Notation construct := (construct deq md5 body head enc dec mk).
  Theorem cached_same s cf : reach false s -> selection K (c_defs cf) -> fst (construct cf s) = fst (construct (uncached cf) s).
  Proof.
    destruct Hdig as [D1 D2]. apply transparent; auto. apply names_differ. apply tables_kept. apply empty_frame.
  Qed.
  Theorem cached_crash s cf : reach true s -> selection K (c_defs cf) -> c_nocache cf = false ->
    (match f_cache s with Some d => match d_meta d with Some (MOk _) => False | _ => True end | None => False end ->
       exists e, fst (construct cf s) = Err e /\ (e = EIO \/ e = EJson)) /\
    (match f_cache s with Some d => exists m, d_meta d = Some (MOk m) | None => True end ->
       fst (construct cf s) = fst (construct (uncached cf) s)).
  Proof.
    destruct Hdig as [D1 D2]. apply after_crashes; auto. apply names_differ. apply tables_kept. apply empty_frame.
  Qed.

  Lemma reach_T b s : reach b s -> T (f_trace s).
  Proof.
    destruct Hdig as [D1 D2]. intros H. apply reach_crash in H; auto; [apply H| | |]; [apply names_differ|apply tables_kept|apply empty_frame].
  Qed.

  Section Selection.
    Variables (defs : classes) (items : list item).
    Hypotheses (Nd : NoDup (map fst defs)) (Hsub : incl defs all).
    Lemma sub_nodup {B} (g : str * klass -> B) : NoDup (map g all) -> NoDup (map g defs).
    Proof.
      intros N. clear -Nd Hsub N. induction defs as [|d l IH]; [constructor|]. cbn [map] in *. inversion Nd as [|? ? Hd N']; subst.
      constructor; [|apply IH; auto; intros x Hx; apply Hsub; now right].
      intros C. apply in_map_iff in C as (d' & E & Hi). apply Hd. apply in_map_iff. exists d'. split; auto.
      f_equal. apply (nodup_inj g all); auto; apply Hsub; [now right|now left].
    Qed.
    Let sel := fun b => if existsb (eqs b) (map fst defs) then Some b else None.
    Let ws := map (fun d : str * klass => (k_word (snd d), d)) all.
    Let ws' := map (fun d : str * klass => (k_word (snd d), d)) defs.
    Lemma sel_ok : (forall line d1 d2, In line (map item_str items) -> In d1 all -> In d2 all ->
        contains (k_word (snd d1)) line = true -> contains (k_word (snd d2)) line = true -> snd d1 = snd d2) ->
      Forall (item_ok ws) items -> Forall (item_ok ws') (view sel items).
    Proof.
      intros Hu Hok. unfold view. apply Forall_map. apply Forall_forall. intros i Hi. rewrite Forall_forall in Hok. specialize (Hok i Hi).
      destruct i as [l|L|L b ps]; cbn [view1]; auto.
      - destruct Hok as [HL HN]. split; auto. intros w a' k' H. apply (HN w a' k'). unfold ws', ws in *.
        apply in_map_iff in H as (d & E & Hd). apply in_map_iff. exists d. split; auto.
      - destruct Hok as (HL & Hd & Hp & HD). destruct (dispatch_class _ _ _ HD) as (k2 & Hi2 & O2).
        assert (Only : forall d, In d all -> occurs (k_word (snd d)) (item_str (Wrote L b ps)) -> d = (b, k2)).
        { intros d Hd' O. apply (nodup_inj (fun d => k_word (snd d)) all); auto. f_equal.
          apply (Hu (item_str (Wrote L b ps))); auto; [now apply in_map| |]; now apply occurs_iff. }
        unfold sel. destruct (existsb (eqs b) (map fst defs)) eqn:Ex.
        + split; auto. split; auto. split; auto. apply existsb_eqs in Ex.
          apply in_map_iff in Ex as ([b' k'] & E & Hi'). cbn [fst] in E. subst b'.
          assert (E : (b, k') = (b, k2)) by (apply (nodup_inj fst all); auto). injection E as ->.
          change (item_str (Wrote L b ps)) with (line_str L ++ [nl]) in *.
          apply in_split in Hi' as (pre & post & Epp). exists (map (fun d : str * klass => (k_word (snd d), d)) pre), (k_word k2), k2,
            (map (fun d : str * klass => (k_word (snd d), d)) post).
          split; [unfold ws'; rewrite Epp, map_app; reflexivity|]. split; [exact O2|].
          assert (Npre : forall d, In d (pre ++ post) -> d <> (b, k2)).
          { intros d Hd' ->. rewrite Epp in Nd. rewrite map_app in Nd. cbn [map fst] in Nd. apply NoDup_remove_2 in Nd. apply Nd.
            rewrite <- map_app. apply in_map_iff. exists (b, k2). auto. }
          assert (Hno : forall w' a' k', In (w', (a', k')) (map (fun d : str * klass => (k_word (snd d), d)) (pre ++ post)) -> ~ occurs w' (line_str L ++ [nl])).
          { intros w' a' k' H O. apply in_map_iff in H as (d & E & Hd'). injection E as <- ->. apply (Npre _ Hd'). apply Only; auto.
            apply Hsub. rewrite Epp. apply in_app_or in Hd' as [?|?]; apply in_or_app; [left|right; right]; auto. }
          rewrite map_app in Hno.
          destruct (k_fallback k2) eqn:Efb; [right|left]; (split; [reflexivity|]).
          * split.
            -- intros w' a' k' H Hf. unfold ws' in H. rewrite Epp, map_app in H. apply in_app_or in H as [H|[H|H]].
               ++ apply (Hno w' a' k'). apply in_or_app. now left.
               ++ cbn [snd] in H. injection H as <- <- <-. congruence.
               ++ apply (Hno w' a' k'). apply in_or_app. now right.
            -- intros w' a' k' H. apply (Hno w' a' k'). apply in_or_app. now right.
          * intros w' a' k' H _. apply (Hno w' a' k'). apply in_or_app. now left.
        + split; auto. intros w a' k' H O. unfold ws' in H. apply in_map_iff in H as (d & E & Hd'). injection E as <- ->.
          assert (E : (a', k') = (b, k2)) by (apply Only; auto). injection E as -> ->.
          assert (C : existsb (eqs b) (map fst defs) = true) by (apply existsb_eqs; apply in_map_iff; exists (b, k2); auto). congruence.
    Qed.
    Lemma sel_parts a k : In (a, k) defs -> parts_of a (view sel items) = parts_of a items.
    Proof.
      intros Ha. induction items as [|it r IH]; auto. cbn [view map]. cbn [parts_of flat_map]. f_equal; [|exact IH].
      destruct it as [l|L|L b ps]; auto. cbn [view1]. unfold sel. destruct (eqs_spec a b) as [<-|N].
      - assert (E : existsb (eqs a) (map fst defs) = true) by (apply existsb_eqs, in_map_iff; exists (a, k); auto). rewrite E. now rewrite eqs_refl.
      - destruct (existsb (eqs b) (map fst defs)); auto. destruct (eqs_spec a b); [congruence|reflexivity].
    Qed.
    Lemma sel_stamps a k p : In (a, k) defs -> forall i us,
      filter (fun x => eqs a (s_attr x) && p x) (stamped i (view sel items) us) = filter (fun x => eqs a (s_attr x) && p x) (stamped i items us).
    Proof.
      intros Ha. induction items as [|it r IH]; intros i us; auto. destruct it as [l|L|L b ps]; cbn [view map view1].
      - cbn [stamped]. apply IH.
      - cbn [stamped]. destruct us as [|u us]; [reflexivity|]. apply IH.
      - unfold sel at 1. destruct (existsb (eqs b) (map fst defs)) eqn:Ex.
        + cbn [stamped]. destruct us as [|u us]; [reflexivity|]. cbn [filter s_attr]. fold (view sel r). now rewrite IH.
        + cbn [stamped]. destruct us as [|u us]; [reflexivity|]. cbn [filter s_attr]. fold (view sel r). rewrite IH.
          destruct (eqs_spec a b) as [->|N]; [|reflexivity].
          exfalso. assert (C : existsb (eqs b) (map fst defs) = true) by (apply existsb_eqs; apply in_map_iff; exists (b, k); auto). congruence.
    Qed.
  End Selection.

  Lemma uncached_same cf : c_nocache cf = true -> uncached cf = cf.
  Proof. destruct cf as [d n m w a]. cbn [c_nocache]. intros ->. reflexivity. Qed.
  Theorem cached_read b s cf items : reach b s -> c_defs cf <> [] -> NoDup (map fst (c_defs cf)) -> incl (c_defs cf) all ->
    report fparse fuel all (file (f_trace s)) items ->
    b = false \/ c_nocache cf = true \/ match f_cache s with Some d => exists m, d_meta d = Some (MOk m) | None => True end ->
    exists tr ts us, fst (construct cf s) = Ok tr /\
      Forall2 printed_time (event_lines items) ts /\ Assigned fzero ts us /\
      t_base tr = hd fzero us /\ t_end tr = last us fzero /\ t_head tr = Some (head (f_trace s)) /\
      map fst (t_frames tr) = map fst (c_defs cf) /\
      (windows_ok (c_win cf) (c_abs cf) (t_base tr) -> forall a k, In (a, k) (c_defs cf) ->
       exists fr, dget eqs a (t_frames tr) = Some fr /\
         Forall2 (row_of (trace_len (parts_of a items)) (fun t => if c_norm cf then fsub t (t_base tr) else t))
           (filter (fun x => eqs a (s_attr x) && in_both (c_win cf) (c_abs cf) (t_base tr) (s_time x)) (stamped 0 items us)) fr).
  Proof.
    intros Hr Hne Nd Hsub (hdr & Ef & Hh & Hs & Hok & Hlen & Hcls) Hm.
    assert (Nw' := sub_nodup (c_defs cf) Nd Hsub _ Nw). 
    assert (Hsel : selection K (c_defs cf)).
    { split; auto. split; auto. split; auto. apply Forall_forall. intros [a k] Hi. exists a. auto. }
    assert (Hsame : fst (construct cf s) = fst (construct (uncached cf) s)).
    { destruct b.
      - destruct Hm as [Hm|[Hm|Hm]]; [discriminate| |].
        + now rewrite (uncached_same cf Hm).
        + destruct (c_nocache cf) eqn:En; [now rewrite (uncached_same cf En)|].
          now apply (cached_crash s cf Hr Hsel En).
      - now apply cached_same. }
    rewrite Hsame.
    set (sel := fun b => if existsb (eqs b) (map fst (c_defs cf)) then Some b else None).
    assert (HT := reach_T _ _ Hr).
    assert (Eb : body (f_trace s) = map item_str items) by (unfold body; rewrite Ef; eapply body_written; eauto).
    assert (Hok' : Forall (item_ok (map (fun d => (k_word (snd d), d)) (c_defs cf))) (view sel items)).
    { apply sel_ok; auto. intros line d1 d2 Hl H1 H2 C1 C2. apply (Hamb (f_trace s) line); auto; try (eexists; rewrite <- surjective_pairing; eassumption).
      now rewrite Eb. }
    destruct (read_back deq md5 file head enc dec mk fuel (uncached cf) s hdr (view sel items)) as (tr & ts & us & E & H1 & H2 & H3 & H4 & H5 & H6 & H7); auto.
    - intros a k es Hi. apply Hmk. exists a. auto.
    - rewrite view_str. exact Ef.
    - now apply view_starts.
    - intros a k Hi. unfold sel. rewrite (sel_parts (c_defs cf) items a k Hi). destruct (Hcls a k) as (X & _ & Y); auto.
    - exists tr, ts, us. rewrite view_lines in H1. split; [unfold Cache.construct; destruct (do_parse _ _ _ _ _ _ _ _ _); exact E|].
      repeat (split; [assumption|]). intros Hw a k Hi. destruct (H7 Hw a k Hi) as (fr & Efr & HF). exists fr. split; auto.
      unfold sel in HF. rewrite (sel_parts (c_defs cf) items a k Hi) in HF.
      rewrite (sel_stamps (c_defs cf) items a k (fun x => in_both (c_win cf) (c_abs cf) (t_base tr) (s_time x)) Hi) in HF. exact HF.
  Qed.
End Histories.
