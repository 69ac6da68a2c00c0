(** Constructing a trace from a written report (ftrace.py:315-335). *)
From Coq Require Import List Ascii String ZArith NArith Bool Lia Sorted Permutation.
From Verif Require Import Lib.PyStr Lib.PyStrFacts Lib.F64 Lib.F64Facts Lib.F64Ord
  Model.Base Model.Line Model.Registry Model.Populate Model.Window Model.Cache
  Spec.Lines Spec.Payload Spec.Arrays Spec.Parts Spec.Trace Spec.Interval Spec.Select Spec.Written
  Proofs.FrameP Proofs.LineP Proofs.PopulateP Proofs.RegistryP Proofs.WindowP Proofs.WrittenP.
Import ListNotations.

Lemma Assigned_fle prev ts us : nn prev = true -> Forall (fun t => nn t = true) ts -> Assigned prev ts us ->
  StronglySorted (fun a b => fle a b = true) us.
Proof.
  intros Hp Ht H. revert Hp Ht. induction H as [prev|prev t ts us Hl HA IH|prev t u ts us Hl Hn HA IH]; intros Hp Ht; [constructor| |];
    inversion Ht; subst.
  - constructor; [now apply IH|]. apply (Assigned_sorted t ts us); auto.
  - assert (Nu : nn u = true).
    { assert (HA' : Assigned prev (t :: ts) (u :: us)) by (apply As_tie; auto).
      destruct (Assigned_sorted _ _ _ Hp Ht HA') as (HF & _). inversion HF; subst.
      match goal with H : nn u = true /\ _ |- _ => apply H end. }
    constructor; [now apply IH|]. apply (Assigned_sorted u ts us); auto.
Qed.

Lemma Forall2_filter {A B} (P : A -> B -> Prop) (p : A -> bool) (q : B -> bool) l l' :
  Forall2 (fun a b => P a b /\ p a = q b) l l' -> Forall2 P (filter p l) (filter q l').
Proof.
  induction 1 as [|a b l l' [H E] _ IH]; [constructor|]. cbn [filter]. rewrite E. destruct (q b); auto.
Qed.
Lemma Forall2_map_r {A B C} (P : A -> C -> Prop) (g : B -> C) l l' :
  Forall2 (fun a b => P a (g b)) l l' -> Forall2 P l (map g l').
Proof. induction 1; constructor; auto. Qed.
Lemma filter_filter {A} (p q : A -> bool) l : filter p (filter q l) = filter (fun x => q x && p x) l.
Proof.
  induction l as [|a l IH]; auto. cbn [filter]. destruct (q a); cbn [andb filter]; [|exact IH].
  destruct (p a); now rewrite IH.
Qed.
Lemma sorted_filter {A} (R : A -> A -> Prop) p l : StronglySorted R l -> StronglySorted R (filter p l).
Proof.
  induction 1 as [|a l HS IH HF]; [constructor|]. cbn [filter]. destruct (p a); auto. constructor; auto.
  apply Forall_forall. intros x Hx. apply filter_In in Hx as [Hx _]. rewrite Forall_forall in HF. auto.
Qed.

Lemma combine_fst {A B} (a : list A) : forall b : list B, List.length b = List.length a -> map fst (combine a b) = a.
Proof. induction a as [|x a IH]; intros [|y b] E; try discriminate; auto. cbn. rewrite IH; auto. Qed.

(** The documented selection is what the windows do to a sorted frame. *)
Lemma window_exact win abs base (f : list (float * dict)) :
  windows_ok win abs base -> time_sorted f -> Forall (fun r => nn (fst r) = true) f ->
  windowify (calc_max_window win abs base) f = filter (fun r => in_both win abs base (fst r)) f.
Proof.
  intros (H1 & H2 & H3 & H4 & H5) Hs Hn.
  assert (Hw : num (fst (calc_max_window win abs base)) = true /\ num_end (snd (calc_max_window win abs base))).
  { destruct (max_window_spec win abs base fzero H1 H2 eq_refl H3 H4) as (A & B & _). auto. }
  destruct (window_rows dict (calc_max_window win abs base) f (proj1 Hw) (proj2 Hw) Hn) as (f' & _ & _ & E & ->).
  rewrite (E Hs). apply filter_ext_in. intros r Hr. apply in_both_exact; auto.
  - rewrite Forall_forall in Hn. apply Hn in Hr. now apply num_nn.
  - destruct H5 as [[E0 _]|[E0 _]]; auto.
  - unfold calc_max_window. cbn [snd]. destruct H5 as [[E0 H5]|[E0 H5]]; rewrite E0.
    + now destruct (snd win).
    + exact H5.
Qed.

Section Read.
  Context {content digest header csv : Type}.
  Variables (deq : digest -> digest -> bool) (md5 : content -> digest)
            (file : content -> list str) (head : content -> header)
            (enc : frame -> csv) (dec : csv -> option frame)
            (mk : klass -> list event -> res frame).
  Notation parse := (do_parse deq md5 (fun x => ftrace_body (file x)) head enc dec mk).

  Theorem read_back fuel (c : config) (s : fsys) hdr items :
    NoDup (map fst (c_defs c)) -> NoDup (map (fun d => k_word (snd d)) (c_defs c)) ->
    (forall a k es, In (a, k) (c_defs c) -> mk k es = create_dataframe fuel generate_data_dict es) ->
    c_nocache c = true \/ (f_cache s = None /\ c_defs c <> []) ->
    file (f_trace s) = hdr ++ map item_str items ->
    Forall junk_ok hdr -> starts_event items ->
    Forall (item_ok (map (fun d => (k_word (snd d), d)) (c_defs c))) items ->
    (forall a k, In (a, k) (c_defs c) -> columns_ok (parts_of a items) /\
       forall q, In q (parts_of a items) -> (arrays q < fuel)%nat) ->
    exists tr ts us, fst (parse c s) = Ok tr /\
      Forall2 printed_time (event_lines items) ts /\ Assigned fzero ts us /\
      t_base tr = hd fzero us /\ t_end tr = last us fzero /\ t_head tr = Some (head (f_trace s)) /\
      map fst (t_frames tr) = map fst (c_defs c) /\
      (windows_ok (c_win c) (c_abs c) (t_base tr) -> forall a k, In (a, k) (c_defs c) ->
       exists fr, dget eqs a (t_frames tr) = Some fr /\
         Forall2 (row_of (trace_len (parts_of a items)) (fun t => if c_norm c then fsub t (t_base tr) else t))
           (filter (fun x => eqs a (s_attr x) && in_both (c_win c) (c_abs c) (t_base tr) (s_time x)) (stamped 0 items us)) fr).
  Proof.
    intros Nk Nw Hmk Hnc Hfile Hh Hs Hok Hcols.
    set (ws := map (fun d => (k_word (snd d), d)) (c_defs c)) in *.
    destruct (written_core ws hdr items Hh Hs Hok) as (st & ts & us & Hst & Hts & Hnn & HA & HB & HE & _ & HF).
    assert (Hall : Forall (fun d => exists x, (do f <- mk (snd d) (arr (fst d) st) ;; Ok (fst d, f)) = Ok x /\
        (fst x = fst d /\ Forall2 (row_of (trace_len (parts_of (fst d) items)) (fun t => t))
                        (filter (of_attr (fst d)) (stamped 0 items us)) (snd x))) (c_defs c)).
    { apply Forall_forall. intros [a k] Hi. destruct (Hcols a k Hi) as [C1 C2].
      destruct (HF a fuel C1 C2) as (fr & Efr & HR). exists (a, fr). cbn [fst snd]. rewrite (Hmk a k _ Hi), Efr.
      split; [reflexivity|]. split; [reflexivity|exact HR]. }
    apply mapM_rows in Hall as (fs & Efs & Hfs).
    assert (Ek : map fst fs = map fst (c_defs c)).
    { clear -Hfs. induction Hfs as [|d x l l' [E _] _ IH]; auto. cbn [map]. now rewrite E, IH. }
    set (win := if ftruthy (p_base st) then calc_max_window (c_win c) (c_abs c) (p_base st) else (fzero, None)).
    assert (Hp : fst (parse c s) = Ok (Tr (finish c (p_base st) win fs) (p_base st) (p_end st) (Some (head (f_trace s))))).
    { unfold do_parse.
      assert (El : (if c_nocache c then Ok (None, []) else load deq md5 s) = Ok (None, [])).
      { destruct Hnc as [-> |[E _]]; auto. destruct (c_nocache c); auto. unfold load. now rewrite E. }
      rewrite El.
      assert (Eb : negb (c_nocache c) && forallb (fun d => is_cached (digest:=digest) (header:=header) dec None (snd d)) (c_defs c) = false).
      { destruct Hnc as [-> |[_ E]]; auto. destruct (c_defs c); [congruence|]. now rewrite andb_false_r. }
      rewrite Eb. rewrite (word_table_ok _ (c_defs c) []) by (cbn; now rewrite map_map).
      rewrite filter_all by (intros x _; now destruct (dget eqs (fst x) (c_defs c))).
      replace ([] ++ map Select.entry (c_defs c)) with ws by (apply map_ext; now intros [a k]).
      cbn [bind]. rewrite Hfile, Hst. cbn [bind cached_frame].
      match goal with |- context [mapM ?f (c_defs c)] =>
        replace (mapM f (c_defs c)) with (Ok fs) by (rewrite <- Efs; reflexivity) end.
      cbn [bind fst]. reflexivity. }
    exists (Tr (finish c (p_base st) win fs) (p_base st) (p_end st) (Some (head (f_trace s)))), ts, us.
    cbn [t_base t_end t_head t_frames]. do 6 (split; [assumption || reflexivity|]).
    assert (Lf : List.length (apply_user (c_norm c) (p_base st) win (map snd fs)) = List.length fs).
    { unfold apply_user. destruct (c_norm c); now rewrite !map_length. }
    split.
    { unfold finish. rewrite <- Ek. rewrite combine_fst; auto. now rewrite map_length. }
    intros Hw a k Hi.
    assert (Hx : exists f, In (a, f) fs /\ Forall2 (row_of (trace_len (parts_of a items)) (fun t => t))
                        (filter (of_attr a) (stamped 0 items us)) f).
    { clear -Hfs Hi. induction Hfs as [|d x l l' [E HR] _ IH]; [destruct Hi|]. destruct Hi as [->|Hi].
      - cbn [fst] in *. exists (snd x). split; [left; destruct x; cbn in *; now rewrite E|exact HR].
      - destruct (IH Hi) as (f & ? & ?). exists f. split; [now right|auto]. }
    destruct Hx as (f & Hin & HR).
    set (out := (if c_norm c then normalize_time (p_base st) else fun g => g) (windowify win f)).
    exists out. split.
    { apply (In_dget eqs eqs_eq).
      - unfold finish. rewrite combine_fst by (now rewrite map_length). now rewrite Ek.
      - unfold finish, apply_user, out. clear -Hin. induction fs as [|x fs IH]; [destruct Hin|].
        destruct (c_norm c); cbn [map combine]; (destruct Hin as [->|Hin]; [left; reflexivity|right; now apply IH]). }
    assert (Hnu : Forall (fun u => nn u = true) us /\ Forall (fun u => ftruthy u = true) us).
    { destruct (Assigned_sorted _ _ _ (eq_refl : nn fzero = true) Hnn HA) as (S1 & _ & S3 & _). split; auto.
      eapply Forall_impl; [|exact S1]. cbv beta. tauto. }
    assert (Hso := Assigned_fle fzero ts us eq_refl Hnn HA).
    set (ss := filter (of_attr a) (stamped 0 items us)) in *.
    assert (Et : map fst f = map s_time ss).
    { clear -HR. induction HR as [|x r l l' (E & _) _ IH]; auto. cbn [map]. now rewrite E, IH. }
    assert (Hss : StronglySorted (fun x y => fle (s_time x) (s_time y) = true) ss).
    { apply sorted_filter. now apply (stamped_sorted (fun a b => fle a b = true)). }
    assert (Hsn : Forall (fun x => nn (s_time x) = true) ss).
    { apply Forall_forall. intros x Hx. apply filter_In in Hx as [Hx _].
      assert (K := stamped_forall (fun t => nn t = true) items 0%Z us (proj1 Hnu)). rewrite Forall_forall in K. auto. }
    assert (Hbase : ss = [] \/ ftruthy (p_base st) = true).
    { rewrite HB. destruct us as [|u us']; [left|right].
      - unfold ss. replace (stamped 0 items []) with (@nil stamp); auto. generalize 0%Z. clear.
        induction items as [|[l|L|L b ps] r IH]; intros z; auto. cbn [stamped]. apply IH.
      - destruct Hnu as [_ HT]. now inversion HT. }
    assert (Hfs' : time_sorted f).
    { unfold time_sorted. clear -Et Hss. revert f Et. induction Hss as [|x l _ IH HFl]; intros [|r f] E; try discriminate; constructor.
      - injection E as _ E. now apply IH.
      - injection E as E1 E. apply Forall_forall. intros r' Hr'. assert (Hm : In (fst r') (map s_time l)) by (rewrite <- E; now apply in_map).
        apply in_map_iff in Hm as (y & Ey & Hy). rewrite Forall_forall in HFl. apply HFl in Hy. now rewrite E1, <- Ey. }
    assert (Hfn : Forall (fun r => nn (fst r) = true) f).
    { apply (Forall_map fst (fun t => nn t = true)). rewrite Et. now apply (Forall_map s_time (fun t => nn t = true)). }
    assert (Eo : windowify win f = filter (fun r => in_both (c_win c) (c_abs c) (p_base st) (fst r)) f).
    { destruct Hbase as [E|E].
      - rewrite E in Et. destruct f; [reflexivity|discriminate].
      - unfold win. rewrite E. now apply window_exact. }
    rewrite (filter_ext _ (fun x => of_attr a x && in_both (c_win c) (c_abs c) (p_base st) (s_time x))) by reflexivity.
    rewrite <- filter_filter. fold ss.
    assert (HW : Forall2 (row_of (trace_len (parts_of a items)) (fun t => t))
                   (filter (fun x => in_both (c_win c) (c_abs c) (p_base st) (s_time x)) ss) (windowify win f)).
    { rewrite Eo. apply Forall2_filter. eapply Forall2_impl; [|exact HR]. intros x r Hr. split; auto. destruct Hr as (-> & _). reflexivity. }
    unfold out. destruct (c_norm c); [|exact HW].
    unfold normalize_time. destruct (ftruthy (p_base st)) eqn:Eb.
    - apply Forall2_map_r. eapply Forall2_impl; [|exact HW]. intros x r (E1 & E2 & E3). cbn in *. rewrite E1. split; auto.
    - destruct Hbase as [E|E]; [|congruence]. rewrite E in HW |- *. inversion HW; subst. constructor.
  Qed.
End Read.
