(** C90: interactive line plots that are synchronised. *)
From Coq Require Import List Ascii String ZArith QArith Bool Lia Lqa Sorted.
From Verif Require Import Lib.PyStr Model.Sync Spec.Sync Proofs.SyncP.
Import ListNotations.
Local Open Scope nat_scope.
Local Open Scope list_scope.

(** Two or more plots of a group get the hull of what they show; the others are left alone. *)
Theorem C90_sync : forall grp p p', sync grp p = Ok p' ->
  let ms := filter (in_group grp) (p_graphs p) in
  (List.length ms < 2 -> p' = p) /\
  (2 <= List.length ms -> Synced grp (p_graphs p) (p_graphs p') /\ p_dom p' = p_dom p /\
     p_sync p' = if forallb (fun ne => e_zoom (snd ne)) ms then dset eqs grp (map fst ms) (p_sync p) else p_sync p).
Proof. exact sync_ok. Qed.
(** Whatever happens to a page, a plot has the rows it was made with and at most one empty row at each end. *)
Theorem C90_rows : forall acts p, run acts = Ok p -> Rows acts (p_graphs p).
Proof. exact run_Rows. Qed.
(** After a plot was added there are this one and those before it whose cells are still there, each once. *)
Theorem C90_there : forall n grp z x y raw p p', step p (Make n grp z x y raw) = Ok p' ->
  forall m, In m (map fst (p_graphs p')) <-> m = n \/ In m (map fst (p_graphs p)) /\ In m (p_dom p).
Proof. exact make_there. Qed.
Theorem C90_distinct : forall acts p, run acts = Ok p -> NoDup (map fst (p_graphs p)).
Proof. exact run_distinct. Qed.
(** Nothing fails as long as every plot has data. *)
Theorem C90_total : forall acts, Forall Full acts -> exists p, run acts = Ok p.
Proof. exact run_total. Qed.
(** Plots of a group that are made one after the other all show the hull of what they were made to show. *)
Theorem C90_common : forall acts p grp, run acts = Ok p -> Forall Made acts -> NoDup (map name_of acts) ->
  2 <= List.length (ranges fx grp acts) ->
  exists x y, Hull (ranges fx grp acts) x /\ Hull (ranges fy grp acts) y /\
    forall n e, In (n, e) (p_graphs p) -> e_group e = Some grp -> g_x (e_graph e) = x /\ g_y (e_graph e) = y.
Proof. exact run_common. Qed.
(** Their rows are in the order of time if each was made to show all of its rows. *)
Theorem C90_order : forall acts p, run acts = Ok p -> Forall Whole acts -> NoDup (map name_of acts) ->
  forall n e, In (n, e) (p_graphs p) -> InOrder (g_raw (e_graph e)).
Proof. exact run_order. Qed.
(** Zooming one of them zooms all of its group if all of these are to be zoomed together. *)
Theorem C90_zoom : forall acts p grp n x y p', run acts = Ok p -> Forall Made acts -> NoDup (map name_of acts) ->
  (forall m e, In (m, e) (p_graphs p) -> e_group e = Some grp -> e_zoom e = true) ->
  (exists e, In (n, e) (p_graphs p) /\ e_group e = Some grp) -> step p (UserZoom n x y) = Ok p' ->
  forall m e, In (m, e) (p_graphs p') -> e_group e = Some grp -> g_x (e_graph e) = x /\ g_y (e_graph e) = y.
Proof. exact run_zoom. Qed.

Definition ex_a : act := Make $"a" (Some $"g") true (0, 3)%Q (0, 1)%Q [(0, Some [1]); (3, Some [0])]%Q.
Definition ex_b : act := Make $"b" (Some $"g") true (1, 5)%Q (-1, 0)%Q [(1, Some [0]); (2, Some [-1]); (5, Some [0])]%Q.
Definition ex_c : act := Make $"c" None true (7, 9)%Q (4, 6)%Q [(7, Some [4]); (9, Some [6])]%Q.
Definition ex_page : page := match run [ex_a; ex_c; ex_b] with Ok p => p | Err _ => Page [] [] [] end.
Example C90_ex_run : run [ex_a; ex_c; ex_b] = Ok ex_page /\ 
  ex_page = Page
    [($"a", Entry (Graph (0, 5)%Q (-1, 1)%Q [(0, None); (0, Some [1]); (3, Some [0]); (5, None)]%Q true true) (Some $"g") true);
     ($"c", Entry (Graph (7, 9)%Q (4, 6)%Q [(7, Some [4]); (9, Some [6])]%Q false false) None true);
     ($"b", Entry (Graph (0, 5)%Q (-1, 1)%Q [(0, None); (1, Some [0]); (2, Some [-1]); (5, Some [0]); (5, None)]%Q true true) (Some $"g") true)]
    [($"g", [$"a"; $"b"])] [$"b"; $"c"; $"a"].
Proof. split; vm_compute; reflexivity. Qed.
Ltac whole := cbn; split; [lra|]; split; [unfold InOrder; repeat (apply SSorted_cons || apply SSorted_nil || apply Forall_cons || apply Forall_nil); cbn; lra|];
  let r := fresh in let I := fresh in intros r I; repeat (destruct I as [<-|I]; [cbn; lra|]); contradiction.
Example C90_ex : Forall Made [ex_a; ex_c; ex_b] /\ Forall Full [ex_a; ex_c; ex_b] /\ Forall Whole [ex_a; ex_c; ex_b] /\
  NoDup (map name_of [ex_a; ex_c; ex_b]) /\ 2 <= List.length (ranges fx $"g" [ex_a; ex_c; ex_b]) /\
  (forall m e, In (m, e) (p_graphs ex_page) -> e_group e = Some $"g" -> e_zoom e = true).
Proof.
  split; [repeat constructor|]. split; [repeat constructor; discriminate|]. split.
  { repeat (apply Forall_cons; [whole|]); apply Forall_nil. }
  split.
  { cbn. repeat constructor; cbn; intros C; repeat destruct C as [C|C]; congruence. }
  split; [cbn; lia|]. intros m e I _. vm_compute in I. repeat destruct I as [I|I]; try contradiction; injection I as <- <-; reflexivity.
Qed.
(** The example of a group in which nothing is done: a single plot. *)
Example C90_ex_single : (match run [ex_a] with Ok p => p_graphs p | Err _ => [] end) =
  [($"a", Entry (Graph (0, 3)%Q (0, 1)%Q [(0, Some [1]); (3, Some [0])]%Q false false) (Some $"g") true)].
Proof. vm_compute. reflexivity. Qed.

(** A cell was run again and another removed. *)
Example C90_ex_there : match run [ex_a; ex_c; ex_a; Drop $"c"; ex_b] with Ok p => map fst (p_graphs p) | Err _ => [] end = [$"a"; $"b"].
Proof. vm_compute. reflexivity. Qed.
(** A plot without data makes the script fail as soon as there is another of its group. *)
Theorem C90_total_refuted : ~ (forall acts, exists p, run acts = Ok p).
Proof.
  intros H. destruct (H [ex_a; Make $"d" (Some $"g") true (0, 1)%Q (0, 1)%Q []]) as (p & E). vm_compute in E. discriminate.
Qed.
(** The rows of plots that show only a part of their rows end up out of order. *)
Definition ex_n : act := Make $"n" (Some $"g") true (2, 3)%Q (0, 1)%Q [(1, Some [0]); (2, Some [1]); (4, Some [0])]%Q.
Definition ex_m : act := Make $"m" (Some $"g") true (2, 3)%Q (0, 1)%Q [(1, Some [0]); (2, Some [1]); (4, Some [0])]%Q.
Theorem C90_order_refuted : ~ (forall acts p, run acts = Ok p ->
  Forall (fun a => match a with Make _ _ _ _ _ raw => InOrder raw | _ => False end) acts -> NoDup (map name_of acts) ->
  forall n e, In (n, e) (p_graphs p) -> InOrder (g_raw (e_graph e))).
Proof.
  intros H. destruct (run [ex_n; ex_m]) as [p|] eqn:E; [|vm_compute in E; discriminate].
  assert (exists e, In ($"n", e) (p_graphs p) /\ g_raw (e_graph e) = [(2, None); (1, Some [0]); (2, Some [1]); (4, Some [0]); (3, None)]%Q) as (e & I & R).
  { vm_compute in E. injection E as <-. eexists. split; [now left|reflexivity]. }
  specialize (H _ _ E). assert (InOrder (g_raw (e_graph e))) as O.
  { apply (H) with (n := $"n"); [| |exact I].
    - repeat constructor; cbn; lra.
    - cbn. repeat constructor; cbn; intros C; repeat destruct C as [C|C]; congruence. }
  rewrite R in O. inversion O as [|? ? _ F]; subst. inversion F as [|? ? L _]; subst. cbn in L. lra.
Qed.
(** So do those of plots that show all when they are made, if the user zooms before the next one is added. *)
Theorem C90_order_zoom_refuted : ~ (forall acts p, run acts = Ok p ->
  Forall (fun a => Whole a \/ ~ Made a) acts ->
  forall n e, In (n, e) (p_graphs p) -> InOrder (g_raw (e_graph e))).
Proof.
  intros H. pose (acts := [ex_a; UserZoom $"a" (2, 3)%Q (0, 1)%Q; Make $"m" (Some $"g") true (2, 3)%Q (0, 1)%Q [(2, Some [1]); (3, Some [0])]%Q]).
  destruct (run acts) as [p|] eqn:E; [|vm_compute in E; discriminate].
  assert (exists e, In ($"a", e) (p_graphs p) /\ g_raw (e_graph e) = [(2, None); (0, Some [1]); (3, Some [0]); (3, None)]%Q) as (e & I & R).
  { vm_compute in E. injection E as <-. eexists. split; [now left|reflexivity]. }
  specialize (H _ _ E). assert (InOrder (g_raw (e_graph e))) as O.
  { apply (H) with (n := $"a"); [|exact I]. apply Forall_cons; [|apply Forall_cons; [|apply Forall_cons; [|apply Forall_nil]]].
    - left. whole.
    - right. intros [].
    - left. whole. }
  rewrite R in O. inversion O as [|? ? _ F]; subst. inversion F as [|? ? L _]; subst. cbn in L. lra.
Qed.
(** Plots stay linked after one has joined their group that is not to be zoomed with the others. *)
Theorem C90_zoom_refuted : ~ (forall acts p grp n x y p', run acts = Ok p -> Forall Made acts -> NoDup (map name_of acts) ->
  (exists m e, In (m, e) (p_graphs p) /\ e_group e = Some grp /\ e_zoom e = false) ->
  step p (UserZoom n x y) = Ok p' ->
  forall m e, m <> n -> In (m, e) (p_graphs p) -> e_group e = Some grp -> In (m, e) (p_graphs p')).
Proof.
  intros H. set (acts := [ex_a; ex_b; Make $"m" (Some $"g") false (2, 3)%Q (0, 1)%Q [(2, Some [1]); (3, Some [0])]%Q]) in *.
  destruct (run acts) as [p|] eqn:E; [|vm_compute in E; discriminate].
  destruct (step p (UserZoom $"a" (2, 3)%Q (0, 1)%Q)) as [p'|] eqn:S; [|discriminate].
  assert (Forall Made acts) as M by repeat constructor.
  assert (NoDup (map name_of acts)) as ND by (cbn; repeat constructor; cbn; intros C; repeat destruct C as [C|C]; congruence).
  assert (exists em eb, p_graphs p = [($"a", em); ($"b", eb); ($"m", Entry (Graph (0, 5) (-1, 1) [(0, None); (2, Some [1]); (3, Some [0]); (5, None)] true true) (Some $"g") false)]%Q /\
    e_group eb = Some $"g" /\ g_x (e_graph eb) = (0, 5)%Q) as (ea & eb & G & G1 & G2).
  { clear -E. vm_compute in E. injection E as <-. do 2 eexists. split; [reflexivity|]. split; reflexivity. }
  assert (forall e, In ($"b", e) (p_graphs p') -> g_x (e_graph e) = (2, 3)%Q) as K.
  { clear -E S. vm_compute in E. injection E as <-. vm_compute in S. injection S as <-. intros e I. cbn [p_graphs In] in I.
    repeat (destruct I as [I|I]; [first [discriminate I|injection I as <-; reflexivity]|]). contradiction. }
  specialize (K eb). assert (In ($"b", eb) (p_graphs p')) as I.
  { eapply H; [exact E|exact M|exact ND| |exact S|discriminate| |exact G1]; rewrite G; [|right; now left].
    do 2 eexists. split; [right; right; now left|]. now split. }
  specialize (K I). rewrite K in G2. discriminate.
Qed.
(** A plot is three pixels wider after the browser has been resized than when it was made in the same room. *)
Theorem C90_width_refuted : forall area per_line, ~ (width_resized area per_line == width_made area per_line)%Q.
Proof. intros a l C. unfold width_resized, width_made in C. lra. Qed.

Print Assumptions C90_sync.
Print Assumptions C90_rows.
Print Assumptions C90_there.
Print Assumptions C90_distinct.
Print Assumptions C90_total.
Print Assumptions C90_common.
Print Assumptions C90_order.
Print Assumptions C90_zoom.
Print Assumptions C90_total_refuted.
Print Assumptions C90_order_refuted.
Print Assumptions C90_order_zoom_refuted.
Print Assumptions C90_zoom_refuted.
Print Assumptions C90_width_refuted.
