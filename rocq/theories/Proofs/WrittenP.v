(** Reading back a whole report (ftrace.py:388-477, base.py:289-303, ftrace.py:306-335). *)
From Coq Require Import List Ascii String ZArith NArith Bool Lia Sorted Permutation.
From Verif Require Import Lib.PyStr Lib.PyStrFacts Lib.Regex Lib.RegexFacts Lib.SearchFacts Lib.F64 Lib.F64Facts
  Model.Base Model.Line Model.Registry Model.Populate
  Spec.Lines Spec.Payload Spec.Arrays Spec.Parts Spec.Trace Spec.Written
  Proofs.ArraysP Proofs.PayloadP Proofs.ScanP Proofs.FrameP Proofs.LineP Proofs.PopulateP.
Import ListNotations.

(** ** Lines that are not events *)
Definition need (l : str) (r : re) : Prop :=
  forall s s', mat r s s' -> exists u, s_rest s = u ++ s_rest s' /\ occurs l u.
Lemma need_lit l : need l (RLit l).
Proof. intros s s' H. apply mat_lit in H as (E & _). exists l. split; auto. exists [], []. now rewrite app_nil_r. Qed.
Lemma need_l l r1 r2 : need l r1 -> need l (RSeq r1 r2).
Proof.
  intros H s s' M. apply mat_seq_inv in M as (s1 & M1 & M2). apply H in M1 as (u & E & (a & b & ->)).
  apply mat_suffix in M2 as (v & Ev). exists ((a ++ l ++ b) ++ v). split; [rewrite E, Ev; now rewrite <- !app_assoc|].
  exists a, (b ++ v). now rewrite <- !app_assoc.
Qed.
Lemma need_r l r1 r2 : need l r2 -> need l (RSeq r1 r2).
Proof.
  intros H s s' M. apply mat_seq_inv in M as (s1 & M1 & M2). apply H in M2 as (u & E & (a & b & ->)).
  apply mat_suffix in M1 as (v & Ev). exists (v ++ a ++ l ++ b). split; [rewrite Ev, E; now rewrite <- !app_assoc|].
  exists (v ++ a), b. now rewrite <- !app_assoc.
Qed.
Lemma need_match l r s m : need l r -> re_match r s = Some m -> occurs l s.
Proof.
  unfold re_match. intros H E. apply mt_sound in E as (s' & M & _). apply H in M as (u & E & (a & b & ->)).
  cbn [s_rest] in E. exists a, (b ++ s_rest s'). now rewrite E, <- !app_assoc.
Qed.
Lemma special_needs s m : re_match pat_special s = Some m -> occurs $": " s /\ In "["%char s.
Proof.
  rewrite pat_special_eq. intros H. split.
  - eapply need_match; [|exact H]. do 4 apply need_r. unfold R_pid, R_cpu, R_flags, R_sp_ts, R_ts.
    do 9 apply need_r. apply need_l, need_lit.
  - assert (O : occurs $"[" s).
    { eapply need_match; [|exact H]. do 4 apply need_r. unfold R_pid, R_cpu. do 3 apply need_r.
      apply need_l, need_lit. }
    destruct O as (a & b & ->). apply in_or_app. right. now left.
Qed.
Lemma rstrip_prefix s : exists sp, s = rstrip s ++ sp.
Proof.
  unfold rstrip. assert (G : forall t, exists p, t = p ++ drop_while is_space t).
  { induction t as [|c t [p IH]]; [now exists []|]. cbn [drop_while]. destruct (is_space c); [|now exists []].
    exists (c :: p). cbn. now rewrite <- IH. }
  destruct (G (rev s)) as [p E]. exists (rev p). rewrite <- rev_app_distr, <- E. now rewrite rev_involutive.
Qed.
Lemma junk_prefix a b : junk_ok (a ++ b) -> junk_ok a.
Proof.
  intros [H|H]; [left|right].
  - intros (x & y & ->). apply H. exists x, (y ++ b). now rewrite <- !app_assoc.
  - intros Hi. apply H. apply in_or_app. auto.
Qed.
Lemma junk_nomatch s : junk_ok s -> re_match pat_special s = None.
Proof.
  intros H. destruct (re_match pat_special s) as [m|] eqn:E; auto. apply special_needs in E as [E1 E2].
  destruct H; contradiction.
Qed.
Lemma junk_fields s : junk_ok s -> parse_fields s = Ok None.
Proof.
  intros H. unfold parse_fields. destruct (rstrip_prefix s) as [sp E]. rewrite junk_nomatch; auto.
  rewrite E in H. now apply junk_prefix in H.
Qed.
Lemma junk_line s : junk_ok s -> is_trace_line s = false.
Proof. intros H. unfold is_trace_line. now rewrite junk_nomatch. Qed.

Lemma body_written ws hdr items : Forall junk_ok hdr -> starts_event items -> Forall (item_ok ws) items ->
  ftrace_body (hdr ++ map item_str items) = map item_str items.
Proof.
  intros H Hs Hok. unfold ftrace_body. induction H as [|l hdr Hl H IH]; cbn [app drop_until].
  - destruct items as [|i items]; [reflexivity|]. cbn [map drop_until]. inversion Hok; subst.
    assert (T : is_trace_line (item_str i) = true).
    { destruct i as [l|L|L a ps]; [destruct Hs| |]; cbn [item_str]; apply trace_line; auto;
        match goal with H : item_ok _ _ |- _ => apply H end. }
    now rewrite T.
  - now rewrite junk_line.
Qed.

(** ** Payloads have no empty array *)
Fixpoint adj (s : str) : bool :=
  match s with
  | [] => false
  | c :: r => (Ascii.eqb c "{" && match r with d :: _ => Ascii.eqb d "}" | [] => false end) || adj r
  end.
Lemma adj_pre x y : ~ In "{"%char x -> adj (x ++ y) = adj y.
Proof.
  induction x as [|c x IH]; intros H; auto. cbn [app adj]. destruct (Ascii.eqb_spec c "{") as [->|N].
  - exfalso. apply H. now left.
  - cbn [andb orb]. apply IH. intros Hi. apply H. now right.
Qed.
Lemma adj_no x : ~ In "{"%char x -> adj x = false.
Proof. intros H. rewrite <- (app_nil_r x), adj_pre; auto. Qed.
Lemma adj_blank x y : adj x = false -> adj y = false -> adj (x ++ " "%char :: y) = false.
Proof.
  induction x as [|c x IH]; intros Hx Hy; [exact Hy|]. cbn [app adj] in *. apply orb_false_iff in Hx as [H1 H2].
  rewrite IH; auto. rewrite orb_false_r. destruct (Ascii.eqb c "{"); auto. destruct x; auto.
Qed.
Lemma adj_found a b : adj (a ++ "{"%char :: "}"%char :: b) = true.
Proof. induction a as [|c a IH]; [reflexivity|]. cbn [app adj]. rewrite IH. apply orb_true_r. Qed.
Lemma in_join x vs c : In c (join x vs) -> In c x \/ exists v, In v vs /\ In c v.
Proof.
  induction vs as [|v vs IH]; intros H; [destruct H|]. destruct vs as [|w vs].
  - cbn in H. right. exists v. split; [now left|auto].
  - change (join x (v :: w :: vs)) with (v ++ x ++ join x (w :: vs)) in H.
    apply in_app_or in H as [H|H]; [right; exists v; split; [now left|auto]|].
    apply in_app_or in H as [H|H]; [now left|]. apply IH in H as [H|(u & Hu & H)]; [now left|].
    right. exists u. split; [now right|auto].
Qed.
Lemma adj_seg g : seg_ok g -> adj (seg_str g) = false.
Proof.
  destruct g as [w|n vs]; cbn [seg_ok seg_str]; [intros [_ H]; now apply adj_no|].
  intros (H1 & H2 & H3 & H4 & H5 & H6 & H7).
  assert (J : ~ In "{"%char (join $" " vs) /\ ~ In "}"%char (join $" " vs)).
  { rewrite Forall_forall in H7. split; intros Hi; apply in_join in Hi as [[Hi|[]]|(v & Hv & Hi)]; try discriminate;
      apply H7 in Hv; tauto. }
  rewrite adj_pre by auto. destruct (join $" " vs) as [|c r]; [congruence|].
  change ($"={" ++ (c :: r) ++ $"}") with ("="%char :: "{"%char :: c :: r ++ $"}").
  cbn [adj]. destruct (Ascii.eqb_spec c "}") as [->|N]; [exfalso; apply J; now left|].
  cbn [andb orb]. change (Ascii.eqb "=" "{") with false. cbn [andb orb]. rewrite andb_false_r. cbn [orb].
  change (adj ((c :: r) ++ $"}") = false). apply adj_no. intros Hi. apply in_app_or in Hi as [Hi|[Hi|[]]]; [|discriminate].
  now apply J in Hi.
Qed.
Lemma adj_render l : Forall seg_ok l -> adj (render l) = false.
Proof.
  unfold render. induction 1 as [|g l Hg H IH]; [reflexivity|]. destruct l as [|g' l].
  - cbn. now apply adj_seg.
  - change (join $" " (map seg_str (g :: g' :: l))) with (seg_str g ++ " "%char :: join $" " (map seg_str (g' :: l))).
    apply adj_blank; auto. now apply adj_seg.
Qed.
Lemma drop_empty_payload ps : Forall part_ok ps -> drop_empty (payload ps) = payload ps.
Proof.
  intros H. unfold drop_empty. destruct (contains $"={}" (payload ps)) eqn:E; auto.
  apply contains_spec in E as (a & b & E). apply parts_segs_ok in H as [H _].
  assert (A := adj_render _ H). fold (payload ps) in A. rewrite E in A.
  change (a ++ $"={}" ++ b) with (a ++ ["="%char] ++ "{"%char :: "}"%char :: b) in A.
  rewrite app_assoc, adj_found in A. discriminate.
Qed.

(** ** Recorded events *)
Definition ev_of (s : stamp) : event := set_data (stamp_event s) (payload (s_parts s)).
Definition fields_of (L : tline) : fields :=
  Flds (l_comm L) (Z.of_N (dec_val (l_pid L))) (Z.of_N (dec_val (l_cpu L))) (line_time L) (l_data L).
Lemma item_fields L : line_ok L -> parse_fields (line_str L ++ [nl]) = Ok (Some (fields_of L)).
Proof. intros H. apply parse_line; auto. repeat constructor. Qed.
Definition of_attr (a : str) (s : stamp) : bool := eqs a (s_attr s).

Lemma times_written ws items : Forall (item_ok ws) items -> forall i,
  map (fun p => f_time (snd p)) (parsed i (map item_str items)) = map line_time (event_lines items).
Proof.
  induction 1 as [|it items Hi H IH]; intros i; [reflexivity|]. cbn [map parsed].
  destruct it as [l|L|L a ps]; cbn [item_ok] in Hi.
  - cbn [item_str]. rewrite junk_fields by auto. apply IH.
  - cbn [item_str]. rewrite item_fields by apply Hi. cbn [map snd f_time fields_of]. rewrite IH. reflexivity.
  - cbn [item_str]. rewrite item_fields by apply Hi. cbn [map snd f_time fields_of]. rewrite IH. reflexivity.
Qed.
Lemma recorded_written ws a items : Forall (item_ok ws) items -> forall i us es,
  Recorded ws a (parsed i (map item_str items)) us es ->
  es = map ev_of (filter (of_attr a) (stamped i items us)).
Proof.
  induction 1 as [|it items Hi H IH]; intros i us es HR.
  - cbn in HR. inversion HR; subst. reflexivity.
  - cbn [map parsed] in HR. destruct it as [l|L|L b ps]; cbn [item_ok] in Hi.
    + cbn [item_str] in HR. rewrite junk_fields in HR by auto. cbn [stamped]. now apply IH.
    + destruct Hi as [HL HN]. cbn [item_str] in HR, HN. rewrite item_fields in HR by auto.
      inversion HR; subst; cbn [stamped]; [|eauto].
      match goal with D : Dispatch _ _ _ |- _ => exfalso; destruct D as (pre & w & k & post & -> & O & _) end.
      apply (HN w a k); auto. apply in_or_app. right. now left.
    + destruct Hi as (HL & Hd & Hp & HD). cbn [item_str] in HR, HD. rewrite item_fields in HR by auto.
      inversion HR; subst; cbn [stamped filter].
      * match goal with D : Dispatch _ _ a |- _ => assert (a = b) as <- by (eapply Dispatch_unique; eauto) end.
        unfold of_attr at 1. cbn [s_attr]. rewrite eqs_refl. cbn [map]. f_equal; [|eauto].
        unfold ev_of, set_data, stamp_event, fields_of. cbn. rewrite Hd, drop_empty_payload; auto.
      * unfold of_attr at 1. cbn [s_attr]. destruct (eqs_spec a b) as [->|N]; [contradiction|]. eauto.
Qed.
Lemma parts_written a items : forall i us, List.length us = List.length (event_lines items) ->
  map s_parts (filter (of_attr a) (stamped i items us)) = parts_of a items.
Proof.
  induction items as [|it items IH]; intros i us E; [reflexivity|].
  destruct it as [l|L|L b ps]; cbn [stamped]; [now apply IH| |].
  - destruct us as [|u us]; [discriminate|]. apply IH. now injection E.
  - destruct us as [|u us]; [discriminate|]. injection E as E. cbn [filter parts_of flat_map].
    unfold of_attr at 1. cbn [s_attr]. destruct (eqs a b); cbn [map s_parts app]; [f_equal|]; now apply IH.
Qed.
Lemma stamped_parts ws items : Forall (item_ok ws) items -> forall i us,
  Forall (fun s => Forall part_ok (s_parts s)) (stamped i items us).
Proof.
  induction 1 as [|it items Hi H IH]; intros i us; [constructor|].
  destruct it as [l|L|L b ps]; cbn [stamped]; auto; destruct us; auto. constructor; auto. apply Hi.
Qed.
Lemma stamped_forall P items : forall i us, Forall P us -> Forall (fun s => P (s_time s)) (stamped i items us).
Proof.
  induction items as [|it items IH]; intros i us H; [constructor|].
  destruct it as [l|L|L b ps]; cbn [stamped]; auto; destruct us; auto; inversion H; subst; auto.
Qed.
Lemma stamped_sorted R items : forall i us, StronglySorted R us ->
  StronglySorted (fun x y => R (s_time x) (s_time y)) (stamped i items us).
Proof.
  induction items as [|it items IH]; intros i us H; [constructor|].
  destruct it as [l|L|L b ps]; cbn [stamped]; auto; destruct us as [|u us]; try constructor; inversion H; subst; auto.
  apply (stamped_forall (R u)). auto.
Qed.

(** ** Frames *)
Lemma expand_plain L ps : has_array ps = false -> flat_map (expand L) (flat_map part_segs ps) = map seg_str (flat_map part_segs ps).
Proof.
  rewrite <- has_array_segs. induction (flat_map part_segs ps) as [|g l IH]; auto. cbn [existsb flat_map map].
  intros H. apply orb_false_iff in H as [H1 H2]. rewrite IH by auto. now destruct g.
Qed.
Lemma nodup_app2 {A} (l l' : list A) : NoDup l -> NoDup l' -> (forall x, In x l' -> ~ In x l) -> NoDup (l ++ l').
Proof.
  induction 1 as [|a l Ha H IH]; intros Hl Hd; auto. cbn [app]. constructor.
  - intros C. apply in_app_or in C as [C|C]; [contradiction|]. apply (Hd a C). now left.
  - apply IH; auto. intros x Hx C. apply (Hd x Hx). now right.
Qed.
Lemma dset_fresh {V} k (v : V) (d : list (str * V)) : ~ In k (map fst d) -> dset eqs k v d = d ++ [(k, v)].
Proof.
  induction d as [|[k0 v0] d IH]; intros H; auto. cbn [dset app]. cbn [map fst] in H.
  destruct (eqs_spec k0 k) as [->|N]; [exfalso; apply H; now left|]. destruct (eqs_spec k k0) as [->|_]; [congruence|].
  rewrite IH; auto. intros C. apply H. now right.
Qed.
Lemma dupdate_fresh {V} (ps : list (str * V)) : forall d, NoDup (map fst d ++ map fst ps) -> dupdate eqs d ps = d ++ ps.
Proof.
  induction ps as [|[k v] ps IH]; intros d H; [now rewrite app_nil_r|]. unfold dupdate. cbn [fold_left fst snd].
  change (dupdate eqs (dset eqs k v d) ps = d ++ (k, v) :: ps). cbn [map fst] in H.
  rewrite dset_fresh; [|intros C; apply NoDup_remove_2 in H; apply H; apply in_or_app; now left].
  rewrite IH; [now rewrite <- app_assoc|]. rewrite map_app, <- app_assoc. exact H.
Qed.
(** The columns trappy adds come first. *)
Definition meta_names : list str := [$"__comm"; $"__pid"; $"__cpu"; $"__line"].
Definition row_full (L : str -> nat) (s : stamp) (r : float * dict) : Prop :=
  row_of L (fun t => t) s r /\
  ((forall n, In n (map fst (flat_map (part_cells L) (s_parts s))) -> ~ In n meta_names) ->
   map fst (snd r) = meta_names ++ map fst (flat_map (part_cells L) (s_parts s))).
Lemma row_written L s data : Forall part_ok (s_parts s) ->
  NoDup (map fst (flat_map (part_cells L) (s_parts s))) ->
  data = join $" " (flat_map (expand L) (flat_map part_segs (s_parts s))) ->
  exists r, (do d <- row_dict generate_data_dict (set_data (stamp_event s) data) ;; Ok (s_time s, d)) = Ok r /\
    row_full L s r.
Proof.
  intros Hp Hn ->. destruct (payload_dict L _ Hp Hn) as (d & Ed & HF).
  set (data := join _ _) in *.
  assert (Er : exists r, row_dict generate_data_dict (set_data (stamp_event s) data) = Ok r).
  { unfold row_dict. cbn [ev_data set_data]. rewrite Ed. cbn [bind]. eauto. }
  destruct Er as [r Er]. rewrite Er. cbn [bind]. eexists. split; [reflexivity|].
  assert (Nd : NoDup (map fst d)) by now apply gdd_NoDup in Ed.
  assert (HL := row_dict_lookup generate_data_dict (set_data (stamp_event s) data) d r Nd Ed Er).
  assert (EK : map fst d = map fst (flat_map (part_cells L) (s_parts s))).
  { clear -HF. induction HF as [|x y l l' [E _] _ IH]; auto. cbn [map]. now rewrite E, IH. }
  split; cycle 1.
  { cbn [snd]. intros Hd. unfold row_dict in Er. cbn [ev_data set_data] in Er. rewrite Ed in Er. cbn [bind] in Er. injection Er as <-.
    rewrite dupdate_fresh; [rewrite map_app; cbn [map fst]; now rewrite EK|]. cbn [map fst]. change ($"__comm" :: _) with meta_names.
    rewrite EK. apply nodup_app2; auto.
    repeat (constructor; [intros C; repeat (destruct C as [C|C]; [discriminate C|]); destruct C|]). constructor. }
  split; [reflexivity|]. cbn [snd]. split.
  - intros k v more Hi. rewrite HL.
    assert (X : exists c, In (k, c) d /\ col_cell v more c).
    { clear -HF Hi. induction HF as [|x y l l' [E C] _ IH]; [destruct Hi|]. destruct Hi as [->|Hi].
      - exists (snd y). split; [left; destruct y; cbn in *; now rewrite E|exact C].
      - destruct (IH Hi) as (c & ? & ?). exists c. split; [now right|auto]. }
    destruct X as (c & Hc & C). exists c. unfold dlookup. rewrite (In_dget eqs eqs_eq k c); auto.
  - intros k Hk. rewrite HL. unfold dlookup. rewrite <- EK in Hk.
    assert (Hk' : dget eqs k d = None) by now apply (dget_None eqs eqs_eq). now rewrite Hk'.
Qed.
Lemma mapM_rows {A B} (f : A -> res B) (P : A -> B -> Prop) l :
  Forall (fun a => exists b, f a = Ok b /\ P a b) l -> exists l', mapM f l = Ok l' /\ Forall2 P l l'.
Proof.
  induction 1 as [|a l (b & E & Hb) _ (l' & IH & HF)]; [exists []; split; [reflexivity|constructor]|].
  exists (b :: l'). cbn [mapM]. rewrite E. cbn [bind]. rewrite IH. split; [reflexivity|now constructor].
Qed.
Lemma mapM_map {A B C} (g : A -> B) (f : B -> res C) l : mapM f (map g l) = mapM (fun a => f (g a)) l.
Proof. induction l as [|a l IH]; auto. cbn [map mapM]. now rewrite IH. Qed.
Lemma frame_full fuel ss :
  Forall (fun s => Forall part_ok (s_parts s)) ss ->
  columns_ok (map s_parts ss) -> (forall q, In q (map s_parts ss) -> (arrays q < fuel)%nat) ->
  exists fr, create_dataframe fuel generate_data_dict (map ev_of ss) = Ok fr /\
    Forall2 (row_full (trace_len (map s_parts ss))) ss fr.
Proof.
  intros Hp [Hn Ha] Hf. set (L := trace_len (map s_parts ss)) in *.
  assert (Ex : exists data, explode_all fuel (map ev_of ss) = Ok (map (fun s => set_data (stamp_event s) (data s)) ss) /\
     Forall (fun s => data s = join $" " (flat_map (expand L) (flat_map part_segs (s_parts s)))) ss).
  { destruct ss as [|s0 ss0] eqn:Ess; [exists (fun _ => []); split; [reflexivity|constructor]|]. rewrite <- Ess in *.
    assert (Hok : Forall (Forall part_ok) (map s_parts ss)) by now apply Forall_map.
    assert (Hev : map ev_data (map ev_of ss) = map payload (map s_parts ss)) by now rewrite !map_map.
    destruct (has_array (s_parts s0)) eqn:E0.
    - exists (fun s => join $" " (flat_map (expand L) (flat_map part_segs (s_parts s)))). split.
      + unfold L. rewrite Ess in *. cbn [map] in Hok, Hev, Hf |- *. rewrite (explode_all_array fuel (s_parts s0) (map s_parts ss0)); auto.
        f_equal. generalize (trace_len (s_parts s0 :: map s_parts ss0)) as T. intros T.
        cbn [combine map fst snd]. apply f_equal2; [reflexivity|]. clear. induction ss0 as [|s ss IH]; auto. cbn [map combine fst snd]. now rewrite IH.
      + apply Forall_forall. auto.
    - exists (fun s => payload (s_parts s)). split.
      + rewrite Ess in *. cbn [map] in Hok, Hev |- *. rewrite (explode_all_noarray fuel (s_parts s0) (map s_parts ss0)); auto.
      + apply Forall_forall. intros s Hs. unfold payload, render. rewrite expand_plain; auto.
        rewrite Ess in Ha. cbn [map] in Ha. destruct Ha as [Ha|Ha]; [congruence|]. apply Ha.
        change (In (s_parts s) (map s_parts (s0 :: ss0))). rewrite <- Ess. apply in_map_iff. eauto. }
  destruct Ex as (data & Ex & HD). unfold create_dataframe. rewrite Ex. cbn [bind]. rewrite mapM_map.
  apply mapM_rows. rewrite Forall_forall in HD, Hp |- *. intros s Hs.
  assert (K := row_written L s (data s) (Hp s Hs)).
  assert (N : NoDup (map fst (flat_map (part_cells L) (s_parts s)))).
  { apply Hn. apply in_map_iff. eauto. }
  exact (K N (HD s Hs)).
Qed.

Lemma frame_written fuel ss :
  Forall (fun s => Forall part_ok (s_parts s)) ss ->
  columns_ok (map s_parts ss) -> (forall q, In q (map s_parts ss) -> (arrays q < fuel)%nat) ->
  exists fr, create_dataframe fuel generate_data_dict (map ev_of ss) = Ok fr /\
    Forall2 (row_of (trace_len (map s_parts ss)) (fun t => t)) ss fr.
Proof.
  intros A B C. destruct (frame_full fuel ss A B C) as (fr & E & H). exists fr. split; auto.
  revert H. generalize (trace_len (map s_parts ss)). intros L H. clear -H. induction H as [|x y l l' [H _] _ IH]; constructor; auto.
Qed.

(** ** Everything up to the frames *)
Lemma written_core ws hdr items : Forall junk_ok hdr -> starts_event items -> Forall (item_ok ws) items ->
  exists st ts us, populate ws fzero (ftrace_body (hdr ++ map item_str items)) = Ok st /\
    Forall2 printed_time (event_lines items) ts /\ Forall (fun t => nn t = true) ts /\ Assigned fzero ts us /\
    p_base st = hd fzero us /\ p_end st = last us fzero /\ p_lines st = Z.of_nat (List.length items) /\
    forall a fuel, columns_ok (parts_of a items) -> (forall q, In q (parts_of a items) -> (arrays q < fuel)%nat) ->
      exists fr, create_dataframe fuel generate_data_dict (arr a st) = Ok fr /\
        Forall2 (row_of (trace_len (parts_of a items)) (fun t => t)) (filter (of_attr a) (stamped 0 items us)) fr.
Proof.
  intros Hh Hs Hok. rewrite (body_written ws) by auto.
  destruct (pop_lines_total ws (map item_str items) (PSt fzero fzero 0 (map (fun e => (fst (snd e), [])) ws)) eq_refl)
    as (st & Hst & _).
  exists st, (map line_time (event_lines items)).
  destruct (populate_spec ws fzero _ st Hst) as (us & HA & HE & HB & HLn & _ & HR).
  rewrite (times_written ws) in HA by auto. exists us. split; [exact Hst|]. split; [|split; [|split; [exact HA|split; [exact HB|split; [exact HE|split]]]]].
  - clear -Hok. induction Hok as [|it items Hi _ IH]; [constructor|].
    destruct it as [l|L|L a ps]; [exact IH| |]; (constructor; [apply line_time_printed, Hi|exact IH]).
  - rewrite <- (times_written ws items Hok 0%Z). apply parsed_nn.
  - rewrite HLn. now rewrite map_length.
  - intros a fuel Hc Hf. rewrite (recorded_written ws a items Hok 0%Z us _ (HR a)).
    apply Assigned_length in HA. rewrite map_length in HA. rewrite <- (parts_written a items 0%Z us) in * by auto.
    apply frame_written; auto. apply Forall_forall. intros s Hi. apply filter_In in Hi as [Hi _].
    assert (K := stamped_parts ws items Hok 0%Z us). rewrite Forall_forall in K. now apply K.
Qed.
Theorem written_frames ws hdr items : Forall junk_ok hdr -> starts_event items -> Forall (item_ok ws) items ->
  exists st ts us, populate ws fzero (ftrace_body (hdr ++ map item_str items)) = Ok st /\
    Forall2 printed_time (event_lines items) ts /\ Assigned fzero ts us /\
    p_base st = hd fzero us /\ p_end st = last us fzero /\ p_lines st = Z.of_nat (List.length items) /\
    forall a fuel, columns_ok (parts_of a items) -> (forall q, In q (parts_of a items) -> (arrays q < fuel)%nat) ->
      exists fr, create_dataframe fuel generate_data_dict (arr a st) = Ok fr /\
        Forall2 (row_of (trace_len (parts_of a items)) (fun t => t)) (filter (fun s => eqs a (s_attr s)) (stamped 0 items us)) fr.
Proof.
  intros H1 H2 H3. destruct (written_core ws hdr items H1 H2 H3) as (st & ts & us & A & B & _ & C).
  exists st, ts, us. split; [exact A|]. split; [exact B|]. exact C.
Qed.

(** boolean checkers used only for concrete examples *)
Definition nospaceb (s : str) : bool := forallb (fun c => negb (is_space c)) s.
Definition part_okb (p : part) : bool :=
  match p with
  | PF g => negb (has_char "=" (g_key g)) && forallb (fun w => negb (has_char "=" w)) (g_more g) &&
            ne (g_key g) && nospaceb (g_key g) && nospaceb (g_val g) &&
            forallb (fun w => ne w && nospaceb w) (g_more g) && negb (has_char "{" (List.concat (g_words g)))
  | PA n vs => seg_okb (SArr n vs) && seg_identb (SArr n vs) && forallb nospaceb vs
  end.
Lemma nospaceb_ok s : nospaceb s = true -> no_space s.
Proof.
  unfold nospaceb. rewrite forallb_forall. intros H. apply Forall_forall. intros c Hc. apply H in Hc.
  now apply negb_true_iff in Hc.
Qed.
Lemma part_okb_ok p : part_okb p = true -> part_ok p.
Proof.
  destruct p as [g|n vs]; cbn [part_okb part_ok]; rewrite ?andb_true_iff; intros H.
  - destruct H as ((((((H1 & H2) & H3) & H4) & H5) & H6) & H7). rewrite forallb_forall in H2, H6. repeat split.
    + now apply has_char_false.
    + apply Forall_forall. intros w Hw. apply has_char_false. auto.
    + now apply ne_ok.
    + now apply nospaceb_ok.
    + now apply nospaceb_ok.
    + apply Forall_forall. intros w Hw. apply H6 in Hw. apply andb_true_iff in Hw as [A B].
      split; [now apply ne_ok|now apply nospaceb_ok].
    + now apply has_char_false.
  - destruct H as ((H1 & H2) & H3). split; [now apply seg_okb_ok|]. split.
    + assert (K : forallb seg_identb [SArr n vs] = true) by (cbn [forallb]; now rewrite H2).
      apply segs_identb_ok in K. now inversion K.
    + rewrite forallb_forall in H3. apply Forall_forall. intros v Hv. apply nospaceb_ok. auto.
Qed.
Definition item_okb (ws : words) (i : item) : bool :=
  match i with
  | Junk l => negb (contains $": " l) || negb (has_char "[" l)
  | Foreign L => line_okb L && match get_trace_class (item_str i) ws with None => true | _ => false end
  | Wrote L a ps => line_okb L && eqs (l_data L) (payload ps) && forallb part_okb ps &&
      match get_trace_class (item_str i) ws with Some b => eqs a b | None => false end
  end.
Lemma items_okb_ok ws l : forallb (item_okb ws) l = true -> Forall (item_ok ws) l.
Proof.
  rewrite forallb_forall. intros H. apply Forall_forall. intros i Hi. apply H in Hi. clear H.
  destruct i as [l0|L|L a ps]; cbn [item_okb item_ok] in *.
  - apply orb_true_iff in Hi as [Hi|Hi]; [left|right].
    + apply negb_true_iff in Hi. now apply occurs_false.
    + now apply has_char_false.
  - apply andb_true_iff in Hi as [H1 H2]. split; [now apply line_okb_ok|].
    destruct (get_trace_class _ ws) eqn:E; [discriminate|]. apply get_class_None. exact E.
  - rewrite !andb_true_iff in Hi. destruct Hi as (((H1 & H2) & H3) & H4). apply eqs_eq in H2.
    split; [now apply line_okb_ok|]. split; auto. split.
    + rewrite forallb_forall in H3. apply Forall_forall. intros p Hp. apply part_okb_ok. auto.
    + destruct (get_trace_class _ ws) as [b|] eqn:E; [|discriminate]. apply eqs_eq in H4 as <-. now apply get_class_iff.
Qed.
