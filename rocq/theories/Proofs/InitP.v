(** Construction of event objects (C98). *)
From Coq Require Import List Ascii String ZArith NArith Bool Lia.
From Verif Require Import Lib.PyStr Model.Registry Model.Builtin Model.Init Spec.Init.
Import ListNotations.
Local Open Scope list_scope.

Lemma attr_none l : attr_raw l = None <-> NoRaw l.
Proof.
  unfold NoRaw. induction l as [|c l IH]; cbn [attr_raw]; [split; [constructor|reflexivity]|].
  destruct (c_raw c) eqn:E.
  - split; [discriminate|]. intros H. inversion H; congruence.
  - rewrite IH. split; [now constructor|]. intros H. now inversion H.
Qed.
Lemma attr_some l b : attr_raw l = Some b <-> HasRaw l b.
Proof.
  split.
  - induction l as [|c l IH]; cbn [attr_raw]; [discriminate|]. destruct (c_raw c) eqn:E.
    + intros [= ->]. exists [], c, l. repeat split; auto.
    + intros H. destruct (IH H) as (pre & d & post & -> & Hd & Hp). exists (c :: pre), d, post. repeat split; auto.
  - intros (pre & c & post & -> & Hc & Hp). induction Hp as [|d pre Hd _ IH]; cbn [app attr_raw]; [now rewrite Hc|now rewrite Hd].
Qed.
Lemma attr_base l : attr_raw (l ++ [base_class]) = attr_raw l.
Proof. induction l as [|c l IH]; cbn [app attr_raw]; [reflexivity|]. now rewrite IH. Qed.
Lemma find_app l : forall i,
  (Plain l /\ find_init i (l ++ [base_class]) = Some (i + List.length l, IBase)) \/
  exists pre c k post, l = pre ++ c :: post /\ c_init c = Some k /\ Plain pre /\ find_init i (l ++ [base_class]) = Some (i + List.length pre, k).
Proof.
  induction l as [|c l IH]; intros i; cbn [app find_init].
  - left. split; [constructor|]. cbn. now rewrite Nat.add_0_r.
  - destruct (c_init c) as [k|] eqn:E.
    + right. exists [], c, k, l. cbn. rewrite Nat.add_0_r. repeat split; auto. constructor.
    + destruct (IH (S i)) as [(H & ->)|(pre & d & k & post & -> & Hd & Hp & ->)].
      * left. split; [now constructor|]. cbn [List.length]. now rewrite Nat.add_succ_r.
      * right. exists (c :: pre), d, k, post. cbn [List.length app]. rewrite Nat.add_succ_r. repeat split; auto. now constructor.
Qed.
Lemma find_at i mro l : skipn i mro = l ++ [base_class] -> find_init i (skipn i mro) = find_init i (l ++ [base_class]).
Proof. now intros ->. Qed.
Lemma skip_add {A} n m : forall x : list A, skipn (n + m) x = skipn m (skipn n x).
Proof. induction n as [|n IH]; intros x; [reflexivity|]. destruct x; cbn [Nat.add skipn]; [now rewrite skipn_nil|apply IH]. Qed.
Lemma skip_after {A} (x : list A) n (pre : list A) c post : skipn n x = pre ++ c :: post -> skipn (S (n + List.length pre)) x = post.
Proof.
  intros H. replace (S (n + List.length pre)) with (n + (List.length pre + 1)) by lia. rewrite skip_add, H, skip_add.
  rewrite skipn_app, skipn_all, Nat.sub_diag. reflexivity.
Qed.
(** A call with a keyword. *)
Lemma call_kw f mro i l raw fb : skipn i mro = l ++ [base_class] -> Forall (fun c => c_init c <> Some IBase) l -> passed raw || passed fb = true ->
  call_init (S f) mro i raw fb = Ok (Obj (given raw false) (given fb false)) /\ Plain l \/
  call_init (S f) mro i raw fb = Err EType /\ ~ Plain l.
Proof.
  intros Hs Hb Hp. cbn [call_init]. rewrite Hs.
  destruct (find_app l i) as [(H & ->)|(pre & c & k & post & -> & Hc & Hpre & ->)]; [now left|].
  right. split.
  - destruct k; rewrite ?Hp; try reflexivity. apply Forall_app in Hb as [_ Hb]. inversion Hb. congruence.
  - intros H. apply Forall_app in H as [_ H]. inversion H. congruence.
Qed.
Lemma plain_split (pre : list pyclass) c k post pre' c' k' post' : pre ++ c :: post = pre' ++ c' :: post' ->
  c_init c = Some k -> c_init c' = Some k' -> Plain pre -> Plain pre' -> pre = pre' /\ c = c' /\ post = post'.
Proof.
  intros E Hc Hc' Hp Hp'. revert pre' E Hp'. induction Hp as [|d pre Hd Hp IH]; intros [|d' pre'] E Hp'; cbn [app] in E.
  - injection E as -> ->. auto.
  - injection E as E1 E2. subst. inversion Hp'. congruence.
  - injection E as E1 E2. subst. congruence.
  - injection E as -> E. inversion Hp'; subst. destruct (IH pre' E) as (-> & -> & ->); auto.
Qed.
Ltac kill_plain := match goal with
  | H : Plain (_ ++ ?c :: _), E : c_init ?c = Some _ |- _ => apply Forall_app in H as [_ H]; inversion H; congruence end.

Section Of.
  Variable l : list pyclass.
  Hypothesis Hb : Forall (fun c => c_init c <> Some IBase) l.
  Notation mro := (l ++ [base_class]).
  (** The possible shapes. *)
  Lemma run f : (2 <= f)%nat ->
    let out := construct (S f) l in
    (Plain l /\ out = Ok (Obj false false)) \/
    exists pre c k post, l = pre ++ c :: post /\ c_init c = Some k /\ Plain pre /\
      match k with
      | IRaw => match attr_raw l with
                | None => out = Err EAttribute
                | Some b => (Plain post /\ out = Ok (Obj b false)) \/ (~ Plain post /\ out = Err EType)
                end
      | IFallback => (Plain post /\ out = Ok (Obj false true)) \/ (~ Plain post /\ out = Err EType)
      | IDefault => match attr_raw l with
                    | Some b => (pre = [] /\ Plain post /\ out = Ok (Obj b false)) \/ (~ (pre = [] /\ Plain post) /\ out = Err EType)
                    | None => out = call_init f mro 1 None None
                    end
      | IBase => False
      end.
  Proof.
    intros Hf out. unfold construct in out. destruct f as [|f]; [lia|].
    destruct (find_app l 0) as [(H & E)|(pre & c & k & post & El & Hc & Hpre & E)].
    - left. split; [exact H|]. subst out. cbn [call_init skipn]. rewrite E. reflexivity.
    - right. exists pre, c, k, post. do 3 (split; [assumption|]).
      assert (Hs : skipn (S (List.length pre)) mro = post ++ [base_class]).
      { apply (skip_after mro 0 pre c). cbn [skipn]. rewrite El, <- app_assoc. reflexivity. }
      assert (Hbp : Forall (fun c => c_init c <> Some IBase) post).
      { rewrite El in Hb. apply Forall_app in Hb as [_ Hb']. now inversion Hb'. }
      assert (Eo : out = match k with
          | IBase => Ok (Obj false false)
          | IDefault => call_init (S f) mro 1 (attr_raw l) None
          | IRaw => match attr_raw l with None => Err EAttribute | Some b => call_init (S f) mro (S (List.length pre)) (Some b) None end
          | IFallback => call_init (S f) mro (S (List.length pre)) None (Some true)
          end).
      { subst out. change (call_init (S (S f)) mro 0 None None) with (match find_init 0 (skipn 0 mro) with
          | None => Err EType
          | Some (_, IBase) => Ok (Obj (given (@None bool) false) (given (@None bool) false))
          | Some (j, k) => if passed (@None bool) || passed (@None bool) then Err EType else
            match k with
            | IDefault => call_init (S f) mro 1 (attr_raw mro) None
            | IRaw => match attr_raw mro with None => Err EAttribute | Some b => call_init (S f) mro (S j) (Some b) None end
            | _ => call_init (S f) mro (S j) None (Some true)
            end end).
        cbn [skipn]. rewrite E, attr_base. cbn [Nat.add passed orb]. now destruct k. }
      destruct k.
      + destruct (attr_raw l) as [b|] eqn:Ea; [|rewrite Eo; reflexivity].
        destruct pre as [|p pre].
        * destruct (call_kw f mro 1 post (Some b) None Hs Hbp eq_refl) as [[R P]|[R P]]; rewrite R in Eo; [left|right]; repeat split; auto.
          intros [_ HP]. contradiction.
        * assert (Hs1 : skipn 1 mro = (pre ++ c :: post) ++ [base_class]) by (rewrite El; reflexivity).
          destruct (call_kw f mro 1 (pre ++ c :: post) (Some b) None Hs1) as [[R P]|[R P]]; auto.
          -- rewrite El in Hb. now inversion Hb.
          -- kill_plain.
          -- right. rewrite R in Eo. split; [intros [? _]; discriminate|exact Eo].
      + destruct (attr_raw l) as [b|] eqn:Ea; [|exact Eo].
        destruct (call_kw f mro (S (List.length pre)) post (Some b) None Hs Hbp eq_refl) as [[R P]|[R P]]; rewrite R in Eo; auto.
      + destruct (call_kw f mro (S (List.length pre)) post None (Some true) Hs Hbp eq_refl) as [[R P]|[R P]]; rewrite R in Eo; auto.
      + rewrite El in Hb. apply Forall_app in Hb as [_ Hb']. inversion Hb'. congruence.
  Qed.
  (** [default_init] without [parse_raw] calls the first [__init__] after the first class. *)
  Lemma again f c0 l' : l = c0 :: l' -> attr_raw l = None -> (1 <= f)%nat ->
    let out := call_init (S f) mro 1 None None in
    (Plain l' /\ out = Ok (Obj false false)) \/
    exists pre c k post, l' = pre ++ c :: post /\ c_init c = Some k /\ Plain pre /\
      match k with
      | IRaw => out = Err EAttribute
      | IFallback => (Plain post /\ out = Ok (Obj false true)) \/ (~ Plain post /\ out = Err EType)
      | IDefault => out = call_init f mro 1 None None
      | IBase => False
      end.
  Proof.
    intros El Ea Hf out. destruct f as [|f]; [lia|].
    assert (H1 : skipn 1 mro = l' ++ [base_class]) by (rewrite El; reflexivity).
    assert (Eo : out = match find_init 1 (l' ++ [base_class]) with
          | None => Err EType
          | Some (_, IBase) => Ok (Obj false false)
          | Some (j, k) =>
            match k with
            | IDefault => call_init (S f) mro 1 None None
            | IRaw => Err EAttribute
            | _ => call_init (S f) mro (S j) None (Some true)
            end end).
    { subst out. cbn [call_init]. rewrite attr_base, Ea, H1. destruct (find_init 1 (l' ++ [base_class])) as [[j []]|]; reflexivity. }
    destruct (find_app l' 1) as [(H & E)|(pre & c & k & post & El' & Hc & Hpre & E)]; rewrite E in Eo.
    - left. auto.
    - right. exists pre, c, k, post. do 3 (split; [assumption|]).
      assert (Hs : skipn (S (1 + List.length pre)) mro = post ++ [base_class]).
      { apply (skip_after mro 1 pre c). rewrite H1, El', <- app_assoc. reflexivity. }
      assert (Hbl : Forall (fun c => c_init c <> Some IBase) (pre ++ c :: post)) by (rewrite El, El' in Hb; now inversion Hb).
      apply Forall_app in Hbl as [_ Hbl]. inversion Hbl as [|? ? Hc0 Hbp]; subst.
      destruct k; [exact Eo|exact Eo| |congruence].
      destruct (call_kw f ((c0 :: pre ++ c :: post) ++ [base_class]) (S (1 + List.length pre)) post None (Some true) Hs Hbp eq_refl)
        as [[R P]|[R P]]; rewrite R in Eo; auto.
  Qed.
  Lemma again_forever f c0 l' pre d post : l = c0 :: l' -> attr_raw l = None -> l' = pre ++ d :: post -> Plain pre -> c_init d = Some IDefault ->
    call_init f mro 1 None None = Err EFuel.
  Proof.
    intros El Ea El' Hp Hd. induction f as [|f IH]; [reflexivity|].
    assert (H1 : skipn 1 mro = l' ++ [base_class]) by (rewrite El; reflexivity).
    cbn [call_init]. rewrite H1.
    destruct (find_app l' 1) as [(H & _)|(pre' & c' & k' & post' & E' & Hc' & Hp' & ->)].
    - exfalso. rewrite El' in H. kill_plain.
    - rewrite E' in El'. destruct (plain_split _ _ _ _ _ _ _ _ El' Hc' Hd Hp' Hp) as (-> & -> & ->).
      assert (k' = IDefault) by congruence. subst k'. cbn [passed orb]. now rewrite attr_base, Ea.
  Qed.
End Of.

Lemma only_plain k l : OnlyInit k l -> ~ Plain l.
Proof. intros (pre & c & post & -> & Hc & _) H. kill_plain. Qed.
Lemma only_at k l pre c k' post : OnlyInit k l -> l = pre ++ c :: post -> c_init c = Some k' -> Plain pre -> k' = k /\ Plain post.
Proof.
  intros (pre' & c' & post' & -> & Hc' & Hp' & Hq') E Hc Hp.
  destruct (plain_split _ _ _ _ _ _ _ _ E Hc' Hc Hp' Hp) as (-> & -> & ->). split; [congruence|exact Hq'].
Qed.
Definition proper (l : list pyclass) : Prop := Forall (fun c => c_init c <> Some IBase) l.
Lemma proper_tail c l : proper (c :: l) -> proper l.
Proof. intros H. now inversion H. Qed.

Theorem makes_iff l limit raw fb : proper l -> (4 <= limit)%nat -> construct limit l = Ok (Obj raw fb) <-> Makes l raw fb.
Proof.
  intros Hb Hl. destruct limit as [|f]; [lia|]. destruct f as [|f]; [lia|]. split.
  - intros H. destruct (run l Hb (S f) ltac:(lia)) as [(P & E)|(pre & c & k & post & El & Hc & Hpre & HK)].
    + rewrite E in H. injection H as <- <-. now constructor.
    + cbv zeta in HK. destruct k; [| | |contradiction].
      * destruct (attr_raw l) as [b|] eqn:Ea.
        -- destruct HK as [(-> & P & E)|(_ & E)]; [|congruence]. rewrite E in H. injection H as <- <-. cbn [app] in El. subst l.
           apply Mk_default; auto. now apply attr_some.
        -- rewrite HK in H. destruct l as [|c0 l']; [now destruct pre|].
           destruct (again (c0 :: l') Hb f c0 l' eq_refl Ea ltac:(lia)) as [(P & E)|(pre' & d & k & post' & El' & Hd & Hp' & HK')].
           ++ destruct pre as [|p pre].
              ** cbn [app] in El. injection El as -> ->. rewrite E in H. injection H as <- <-. apply Mk_default_none; auto. now apply attr_none.
              ** cbn [app] in El. injection El as -> ->. exfalso. kill_plain.
           ++ destruct pre as [|p pre].
              ** cbn [app] in El. injection El as -> ->. cbv zeta in HK'. destruct k; [| |destruct HK' as [[P E]|[_ E]]|contradiction].
                 --- rewrite (again_forever (c :: post) (S f) c post pre' d post' eq_refl Ea El' Hp' Hd) in H. discriminate.
                 --- rewrite HK' in H. discriminate.
                 --- rewrite E in H. injection H as <- <-. apply Mk_default_fallback; auto; [|now apply attr_none]. exists pre', d, post'. auto.
                 --- rewrite E in H. discriminate.
              ** cbn [app] in El. injection El as -> ->. exfalso.
                 rewrite (again_forever (p :: pre ++ c :: post) (S f) p _ pre c post eq_refl Ea eq_refl) in H; [discriminate| |exact Hc].
                 now inversion Hpre.
      * destruct (attr_raw l) as [b|] eqn:Ea; [|congruence]. destruct HK as [[P E]|[_ E]]; [|congruence].
        rewrite E in H. injection H as <- <-. apply Mk_raw; [exists pre, c, post; auto|now apply attr_some].
      * destruct HK as [[P E]|[_ E]]; [|congruence]. rewrite E in H. injection H as <- <-. apply Mk_fallback. exists pre, c, post; auto.
  - intros H. destruct (run l Hb (S f) ltac:(lia)) as [(P & E)|(pre & c & k & post & El & Hc & Hpre & HK)].
    + destruct H as [l H|l b H _|l H|c l b H|c l H|c l H]; [exact E| | | | |].
      1,2: now apply only_plain in H. all: inversion P; congruence.
    + cbv zeta in HK. destruct H as [l H|l b H HR|l H|c0 l b H HP HR|c0 l H HP HR|c0 l H HO HR].
      * exfalso. subst l. kill_plain.
      * destruct (only_at _ _ _ _ _ _ H El Hc Hpre) as [-> P]. apply attr_some in HR. rewrite HR in HK. destruct HK as [[_ E]|[N _]]; [exact E|contradiction].
      * destruct (only_at _ _ _ _ _ _ H El Hc Hpre) as [-> P]. destruct HK as [[_ E]|[N _]]; [exact E|contradiction].
      * destruct pre as [|p pre]; cbn [app] in El; injection El as -> ->; [|inversion Hpre; congruence]. assert (k = IDefault) by congruence. subst k.
        apply attr_some in HR. rewrite HR in HK. destruct HK as [(_ & _ & E)|(N & _)]; [exact E|exfalso; auto].
      * destruct pre as [|p pre]; cbn [app] in El; injection El as -> ->; [|inversion Hpre; congruence]. assert (k = IDefault) by congruence. subst k.
        apply attr_none in HR. rewrite HR in HK. rewrite HK.
        destruct (again (c :: post) Hb f c post eq_refl HR ltac:(lia)) as [(P & E)|(pre' & d & k & post' & El' & Hd & Hp' & _)]; [exact E|].
        exfalso. subst post. kill_plain.
      * destruct pre as [|p pre]; cbn [app] in El; injection El as -> ->; [|inversion Hpre; congruence]. assert (k = IDefault) by congruence. subst k.
        apply attr_none in HR. rewrite HR in HK. rewrite HK.
        destruct (again (c :: post) Hb f c post eq_refl HR ltac:(lia)) as [(P & E)|(pre' & d & k & post' & El' & Hd & Hp' & HK')].
        { exfalso. now apply only_plain in HO. }
        destruct (only_at _ _ _ _ _ _ HO El' Hd Hp') as [-> P]. destruct HK' as [[_ E]|[N _]]; [exact E|contradiction].
Qed.
Theorem endless_iff l : proper l -> (forall limit, construct limit l = Err EFuel) <-> Endless l.
Proof.
  intros Hb. split.
  - intros H. specialize (H 4%nat).
    destruct (run l Hb 3 ltac:(lia)) as [(P & E)|(pre & c & k & post & El & Hc & Hpre & HK)]; [congruence|].
    cbv zeta in HK. rewrite H in HK. destruct k; [| | |contradiction].
    + destruct (attr_raw l) as [b|] eqn:Ea; [destruct HK as [(_ & _ & E)|(_ & E)]; discriminate|].
      destruct l as [|c0 l']; [now destruct pre|]. apply attr_none in Ea as HN. destruct pre as [|p pre]; cbn [app] in El; injection El as -> ->.
      * destruct (again (c :: post) Hb 2 c post eq_refl Ea ltac:(lia)) as [(P & E)|(pre' & d & k & post' & El' & Hd & Hp' & HK')]; [congruence|].
        cbv zeta in HK'. rewrite <- HK in HK'. destruct k; [|discriminate|destruct HK' as [[_ E]|[_ E]]; discriminate|contradiction].
        eapply En_two; eauto.
      * inversion Hpre; subst. eapply En_sub; eauto.
    + destruct (attr_raw l); [|discriminate]. destruct HK as [[_ E]|[_ E]]; discriminate.
    + destruct HK as [[_ E]|[_ E]]; discriminate.
  - intros H limit.
    assert (HX : exists c l' pre d post, l = c :: l' /\ l' = pre ++ d :: post /\ Plain pre /\ c_init d = Some IDefault /\ NoRaw l /\
        (c_init c = None \/ c_init c = Some IDefault)).
    { destruct H as [c l pre d post|c l pre d post]; exists c, l, pre, d, post; auto 10. }
    destruct HX as (c & l' & pre & d & post & El & El' & Hp & Hd & HN & Hc). apply attr_none in HN.
    destruct limit as [|f]; [reflexivity|]. unfold construct.
    assert (Eo : call_init (S f) (l ++ [base_class]) 0 None None = call_init f (l ++ [base_class]) 1 None None).
    { cbn [call_init skipn]. rewrite attr_base, HN.
      destruct (find_app l 0) as [(P & _)|(pre' & c' & k' & post' & E' & Hc' & Hp' & ->)].
      - exfalso. subst. inversion P as [|? ? _ P']. apply Forall_app in P' as [_ P']. inversion P'. congruence.
      - assert (k' = IDefault); [|now subst k'; cbn [passed orb]].
        destruct pre' as [|p' pre']; cbn [app] in E'; rewrite El in E'; injection E' as -> E'.
        + destruct Hc; congruence.
        + subst l'. inversion Hp'; subst. destruct (plain_split _ _ _ _ _ _ _ _ E' Hd Hc' Hp) as (_ & <- & _); auto. congruence. }
    rewrite Eo. apply (again_forever l f c l' pre d post); auto.
Qed.
(** Subclasses of dynamic classes. *)
Theorem subclass subs b limit : Plain subs -> subs <> [] -> NoRaw subs -> (4 <= limit)%nat ->
  construct limit (subs ++ dynamic b) = Err EType /\ forall n, construct n (subs ++ by_name) = Err EFuel.
Proof.
  intros HP Hne HR Hl. split.
  - assert (Hb : proper (subs ++ dynamic b)).
    { apply Forall_app. split; [|repeat constructor; discriminate]. eapply Forall_impl; [|exact HP]. cbn. congruence. }
    destruct limit as [|f]; [lia|].
    destruct (run _ Hb f ltac:(lia)) as [(P & E)|(pre & c & k & post & El & Hc & Hpre & HK)].
    + exfalso. unfold dynamic in P. apply Forall_app in P as [_ P]. inversion P. discriminate.
    + unfold dynamic in El. destruct (plain_split _ _ _ _ _ _ _ _ El eq_refl Hc HP Hpre) as (<- & <- & <-). injection Hc as <-. cbv zeta in HK.
      assert (Ea : attr_raw (subs ++ dynamic b) = Some b).
      { apply attr_some. exists subs. do 2 eexists. split; [reflexivity|]. split; [reflexivity|exact HR]. }
      rewrite Ea in HK. destruct HK as [(E & _)|(_ & E)]; [contradiction|exact E].
  - intros n. revert n. apply endless_iff.
    + apply Forall_app. split; [|repeat constructor; discriminate]. eapply Forall_impl; [|exact HP]. cbn. congruence.
    + destruct subs as [|c subs]; [contradiction|]. cbn [app]. inversion HP; subst. inversion HR; subst. eapply En_sub; [assumption|reflexivity|assumption|reflexivity|].
      constructor; auto. apply Forall_app. split; auto. repeat constructor.
Qed.

Lemma builtin_makes : Forall (fun e => proper (builtin_class (k_pyname (fst e))) /\
  Makes (builtin_class (k_pyname (fst e))) (existsb (eqs (k_pyname (fst e))) raw_classes) (k_fallback (fst e))) builtin_regs.
Proof.
  assert (Hp : forall n, proper (builtin_class n)).
  { intros n. unfold builtin_class. repeat match goal with |- proper (if ?b then _ else _) => destruct b end; repeat constructor; discriminate. }
  apply Forall_forall. intros e He. split; [apply Hp|]. apply (makes_iff _ 4); [apply Hp|lia|]. revert e He. apply Forall_forall.
  unfold builtin_regs. repeat (apply Forall_cons; [vm_compute; reflexivity|]). apply Forall_nil.
Qed.
Theorem builtin_constructs k scope limit : In (k, scope) builtin_regs -> (4 <= limit)%nat ->
  construct limit (builtin_class (k_pyname k)) = Ok (Obj (existsb (eqs (k_pyname k)) raw_classes) (k_fallback k)).
Proof.
  intros Hi Hl. pose proof builtin_makes as H. rewrite Forall_forall in H. specialize (H _ Hi). cbn [fst] in H. destruct H as [Hp Hm].
  now apply makes_iff.
Qed.
Theorem errors l limit e : proper l -> (4 <= limit)%nat -> construct limit l = Err e ->
  e = EType \/ e = EAttribute \/ (e = EFuel /\ Endless l).
Proof.
  intros Hb Hl H. destruct limit as [|f]; [lia|]. destruct f as [|f]; [lia|].
  destruct (run l Hb (S f) ltac:(lia)) as [(P & E)|(pre & c & k & post & El & Hc & Hpre & HK)]; [congruence|].
  cbv zeta in HK. rewrite H in HK. destruct k; [| | |contradiction].
  - destruct (attr_raw l) as [b|] eqn:Ea.
    + destruct HK as [(_ & _ & E)|(_ & E)]; [discriminate|]. injection E as ->. auto.
    + destruct l as [|c0 l']; [now destruct pre|]. apply attr_none in Ea as HN. destruct pre as [|p pre]; cbn [app] in El; injection El as -> ->.
      * destruct (again (c :: post) Hb f c post eq_refl Ea ltac:(lia)) as [(P & E)|(pre' & d & k & post' & El' & Hd & Hp' & HK')]; [congruence|].
        cbv zeta in HK'. rewrite <- HK in HK'. destruct k; [| |destruct HK' as [[_ E]|[_ E]]; [discriminate|]|contradiction].
        -- right. right. split; [|eapply En_two; eauto].
           rewrite (again_forever (c :: post) (S f) c post pre' d post' eq_refl Ea El' Hp' Hd) in HK. congruence.
        -- injection HK' as ->. auto.
        -- injection E as ->. auto.
      * inversion Hpre; subst. right. right. split; [|eapply En_sub; eauto].
        rewrite (again_forever (p :: pre ++ c :: post) (S f) p _ pre c post eq_refl Ea eq_refl) in HK; auto. congruence.
  - destruct (attr_raw l); [destruct HK as [[_ E]|[_ E]]; [discriminate|]; injection E as ->; auto|]. injection HK as ->. auto.
  - destruct HK as [[_ E]|[_ E]]; [discriminate|]. injection E as ->. auto.
Qed.
Theorem builtin_attr k scope : In (k, scope) builtin_regs ->
  given (attr_raw (builtin_class (k_pyname k))) false = existsb (eqs (k_pyname k)) raw_classes.
Proof.
  intros Hi. assert (H : Forall (fun e => given (attr_raw (builtin_class (k_pyname (fst e)))) false = existsb (eqs (k_pyname (fst e))) raw_classes) builtin_regs).
  { unfold builtin_regs. repeat (apply Forall_cons; [vm_compute; reflexivity|]). apply Forall_nil. }
  rewrite Forall_forall in H. exact (H _ Hi).
Qed.
Theorem dynamic_ok b limit : (4 <= limit)%nat -> construct limit (dynamic b) = Ok (Obj b false) /\ construct limit by_name = Ok (Obj false false).
Proof.
  intros H. destruct limit as [|[|n]]; [lia|lia|]. split; reflexivity.
Qed.
