(** Boolean checkers for concrete reports (used only in examples). *)
From Coq Require Import List Ascii String ZArith NArith Bool Lia.
From Verif Require Import Lib.PyStr Lib.PyStrFacts Lib.F64 
  Model.Base Model.Registry Model.Populate Model.Events Model.Classes
  Spec.Lines Spec.Payload Spec.Arrays Spec.Parts Spec.Trace Spec.Written Spec.Events Spec.Classes
  Proofs.PayloadP Proofs.ScanP Proofs.FrameP Proofs.LineP Proofs.PopulateP Proofs.EventsP Proofs.EventsQ Proofs.WrittenP.
Import ListNotations.
Local Open Scope list_scope.

Definition wb (w : str) : bool := ne w && nospaceb w.
Lemma wb_ok w : wb w = true -> word_ok w.
Proof. unfold wb. intros H. apply andb_true_iff in H as [A B]. split; [now apply ne_ok|now apply nospaceb_ok]. Qed.
Definition nameb (ws : list str) : bool :=
  match ws with
  | [] => false
  | w :: r => forallb wb ws && forallb (fun x => negb (has_char "=" x)) r && match py_int0 w with None => true | _ => false end
  end.
Lemma forallb_Forall {A} (p : A -> bool) (P : A -> Prop) l : (forall x, p x = true -> P x) -> forallb p l = true -> Forall P l.
Proof. intros H. rewrite forallb_forall. intros F. apply Forall_forall. auto. Qed.
Lemma nameb_ok ws : nameb ws = true -> name_ok ws.
Proof.
  destruct ws as [|w r]; [discriminate|]. unfold nameb. rewrite !andb_true_iff. intros ((H1 & H2) & H3).
  exists w, r. split; auto. apply (forallb_Forall _ word_ok) in H1; [|apply wb_ok]. split; auto. split.
  - revert H2. apply forallb_Forall. intros x. apply has_char_false.
  - intros z Hz. inversion H1 as [|x l [_ Hn] _]; subst. apply py_int0_iff in Hz; auto. now rewrite Hz in H3.
Qed.
Definition groupb (g : pgroup) : bool :=
  negb (has_char "=" (g_key g)) && forallb (fun w => negb (has_char "=" w)) (g_more g).
Lemma groupb_ok g : groupb g = true -> group_ok g.
Proof.
  unfold groupb. rewrite andb_true_iff. intros (A & B). split; [now apply has_char_false|].
  revert B. apply forallb_Forall. intros x. apply has_char_false.
Qed.
Fixpoint eql (a b : list str) : bool :=
  match a, b with [], [] => true | x :: a, y :: b => eqs x y && eql a b | _, _ => false end.
Lemma eql_eq a : forall b, eql a b = true -> a = b.
Proof.
  induction a as [|x a IH]; intros [|y b]; cbn [eql]; try discriminate; auto. intros H. apply andb_true_iff in H as [A B].
  apply eqs_eq in A as ->. f_equal. auto.
Qed.
Definition ffieldb (f : ffield) : bool :=
  wb (f_key f) && negb (has_char "=" (f_key f)) && negb (has_char "," (f_key f)) && negb (has_char "=" (f_text f)) &&
  is_prefix (f_val f) (f_text f) && eql (split_ws (uncomma (f_text f))) (f_val f :: f_more f).
Lemma ffieldb_ok f : ffieldb f = true -> ffield_ok f.
Proof.
  unfold ffieldb. rewrite !andb_true_iff. intros (((((A & B) & C) & D) & E) & F). split; [now apply wb_ok|].
  do 3 (split; [now apply has_char_false|]). split; [now apply is_prefix_spec|]. apply Words_iff. now apply eql_eq.
Qed.
Definition nob (s : str) : bool := negb (has_char "{" s).
Definition textb (f : form) (t : text) : bool :=
  match f, t with
  | Fields, TFields ps => forallb part_okb ps
  | Switches, TSwitch p state n => nameb (sw_comm p) && nameb (sw_comm n) && nospaceb state && nob (text_str t)
  | Enters, TEnter _ _ _ _ _ _ _ => true
  | Exits, TExit _ _ => true
  | Clocks, TClock name gs => negb (has_char " " name) && forallb groupb gs &&
      forallb (fun g => negb (eqs (g_key g) $"clk_name") && forallb wb (g_words g) && ne (g_key g)) gs && nob (text_str t)
  | Pairs, TPairs ps => negb (match ps with [] => true | _ => false end) &&
      forallb (fun kv => negb (has_char " " (fst kv)) && negb (has_char " " (snd kv))) ps && nob (text_str t)
  | Commas, TCommas fs => negb (match fs with [] => true | _ => false end) && forallb ffieldb fs && nob (text_str t)
  | CommasIs, TIs b c a => forallb ffieldb (b ++ c :: a) && eqs (f_key c) $"checkpoint" && nob (text_str t) &&
      negb (contains $"checkpoint is " (text_str (TCommas (b ++ c :: a))))
  | Free, TFree s => nob s
  | _, _ => false
  end.
Lemma textb_ok f t : textb f t = true -> text_ok f t.
Proof.
  destruct f, t; try discriminate; cbn [textb text_ok]; rewrite ?andb_true_iff; intros H; auto.
  - revert H. apply forallb_Forall. apply part_okb_ok.
  - destruct H as (((A & B) & C) & D). split; [now apply nameb_ok|]. split; [now apply nameb_ok|].
    split; [now apply nospaceb_ok|now apply has_char_false].
  - destruct H as (((A & B) & C) & D). split; [now apply has_char_false|]. split; [revert B; apply forallb_Forall; apply groupb_ok|].
    split; [|now apply has_char_false]. revert C. apply forallb_Forall. intros g. rewrite !andb_true_iff. intros ((X & Y) & Z).
    split; [intros E; apply negb_true_iff, eqs_neq in X; auto|]. split; [|now apply ne_ok]. revert Y. apply forallb_Forall. apply wb_ok.
  - destruct H as ((A & B) & C). split; [now destruct ps|]. split; [|now apply has_char_false]. revert B. apply forallb_Forall.
    intros kv. rewrite andb_true_iff. intros (X & Y). split; now apply has_char_false.
  - destruct H as ((A & B) & C). split; [now destruct fs|]. split; [|now apply has_char_false]. revert B. apply forallb_Forall, ffieldb_ok.
  - destruct H as (((A & B) & C) & D). split; [revert A; apply forallb_Forall, ffieldb_ok|]. split; [now apply eqs_eq|].
    split; [now apply has_char_false|]. apply occurs_false. now apply negb_true_iff.
  - now apply has_char_false.
Qed.
Definition entryb (defs : list (str * klass)) (i : entry) : bool :=
  let ws := map (fun d => (k_word (snd d), d)) defs in
  match i with
  | EJunk l => negb (contains $": " l) || negb (has_char "[" l)
  | EForeign L => line_okb L && match get_trace_class (entry_str i) ws with None => true | _ => false end
  | EWrote L a t => line_okb L && eqs (l_data L) (text_str t) &&
      match get_trace_class (entry_str i) ws with Some b => eqs a b | None => false end &&
      forallb (fun d => if eqs a (fst d) then textb (fst (kind_of (snd d))) t else true) defs
  end.
Lemma entriesb_ok defs l : forallb (entryb defs) l = true -> Forall (entry_ok defs) l.
Proof.
  rewrite forallb_forall. intros H. apply Forall_forall. intros i Hi. apply H in Hi. clear H.
  destruct i as [l0|L|L a t]; cbn [entryb entry_ok] in *.
  - apply orb_true_iff in Hi as [Hi|Hi]; [left|right].
    + apply negb_true_iff in Hi. now apply occurs_false.
    + now apply has_char_false.
  - apply andb_true_iff in Hi as [H1 H2]. split; [now apply line_okb_ok|].
    destruct (get_trace_class _ _) eqn:E; [discriminate|]. apply get_class_None. exact E.
  - rewrite !andb_true_iff in Hi. destruct Hi as (((H1 & H2) & H3) & H4). apply eqs_eq in H2.
    split; [now apply line_okb_ok|]. split; auto. split.
    + destruct (get_trace_class _ _) as [b|] eqn:E; [|discriminate]. apply eqs_eq in H3 as <-. now apply get_class_iff.
    + intros k Hk. rewrite forallb_forall in H4. apply H4 in Hk. cbn [fst snd] in Hk. rewrite eqs_refl in Hk. now apply textb_ok.
Qed.
Fixpoint nodupb (l : list str) : bool :=
  match l with [] => true | x :: r => negb (existsb (eqs x) r) && nodupb r end.
Lemma existsb_In x l : existsb (eqs x) l = false -> ~ In x l.
Proof.
  intros H Hi. enough (existsb (eqs x) l = true) by congruence. apply existsb_exists. exists x. split; auto. apply eqs_refl.
Qed.
Lemma nodupb_ok l : nodupb l = true -> NoDup l.
Proof.
  induction l as [|x l IH]; intros H; constructor; cbn [nodupb] in H; apply andb_true_iff in H as [A B]; auto.
  apply existsb_In. now apply negb_true_iff.
Qed.
Definition titlesb (c : columns) (ts : list text) : bool :=
  let L := lengths ts in
  forallb (fun t => nodupb (map fst (text_cells L t)) &&
    match c with
    | Renamed l => forallb (fun on => negb (existsb (eqs (snd on)) (map fst (text_cells L t)))) l
    | Mask => forallb (fun t => existsb (eqs $"cpus") (map fst (text_cells L t))) ts
    | _ => true
    end) ts &&
  match parts_in ts with [] => true | p :: _ => has_array p || forallb (fun q => negb (has_array q)) (parts_in ts) end.
Lemma titlesb_ok c ts : titlesb c ts = true -> titles_ok c ts.
Proof.
  unfold titlesb. rewrite andb_true_iff, forallb_forall. intros (H1 & H2). split.
  - intros t Ht. apply H1 in Ht. apply andb_true_iff in Ht as [A B]. split; [now apply nodupb_ok|]. destruct c; auto.
    + intros old new Hi. rewrite forallb_forall in B. apply B in Hi. cbn [snd] in Hi. apply existsb_In. now apply negb_true_iff.
    + intros _ t' Ht'. rewrite forallb_forall in B. apply B in Ht'. apply existsb_exists in Ht' as (x & Hx & E). apply eqs_eq in E as ->. exact Hx.
  - destruct (parts_in ts) as [|p ps]; auto. apply orb_true_iff in H2 as [H2|H2]; [now left|right]. rewrite forallb_forall in H2.
    intros q Hq. apply H2 in Hq. now apply negb_true_iff.
Qed.
