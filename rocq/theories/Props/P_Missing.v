(** Property C110: rows that lack columns, through the files of the cache (trappy/base.py). *)
From Coq Require Import List Ascii String ZArith NArith Bool Lia.
From Verif Require Import Lib.PyStr Lib.PyStrFacts Lib.F64 Model.Base Model.Csv Model.CsvCache Spec.Tables Spec.Cached Spec.Missing Proofs.CsvP Proofs.CsvCacheP Proofs.CachedEx Proofs.MissingP.
Import ListNotations.
Local Open Scope list_scope.

(** A frame of such columns comes back row by row, each row with all the columns of the frame, in the order in which
    the rows first have them. *)
Theorem C110_read : forall (F : Type) trepr tparse (frepr : F -> str) (fparse : str -> option F) (f_of : Z -> F) num_cell bool_cell,
  (forall x, tparse (trepr x) = Some x) -> forall f, frame_sound frepr fparse f_of f ->
  exists names f', Firsts [] (flat_map (fun r => map fst (snd r)) f) names /\ NoDup names /\ (forall n, In n names <-> exists c, in_col f n c) /\
    frame_of tparse fparse num_cell bool_cell (csv_of trepr frepr f_of f) = Some f' /\ Forall2 (ReadBack f_of num_cell f names) f f'.
Proof. exact @gaps_round. Qed.

(** Integers as floating point numbers: a point and a zero behind the digits. *)
Definition point (z : Z) : str := str_of_Z z ++ $".0".
Definition unpoint (s : str) : option Z := match split_once "." s with Some (a, b) => if eqs b $"0" then csv_int a else None | None => None end.
Definition ex_gaps : frame :=
  [ (f_of_ratio 5 2, [($"id", CInt 3); ($"name", CStr $"big")]);
    (f_of_ratio 7 2, [($"id", CInt 4); ($"trip", CInt 12)]);
    (f_of_ratio 9 2, [($"id", CInt 5); ($"name", CStr $"LITTLE"); ($"trip", CInt (-7))]) ].
(** The times as text, and back. *)
Definition ex_text (x : float) : str := match x with BinarySingleNaN.B754_finite _ m e _ => str_of_Z (Z.pos m) ++ $"e" ++ str_of_Z e | _ => $"0" end.
Definition ex_read (s : str) : option float := find (fun x => eqs (ex_text x) s) (map fst ex_gaps).
Example C110_ex : option_map (map snd) (frame_of ex_read unpoint (fun z => CStr (point z)) (fun b : bool => CStr (if b then $"True" else $"False")) (csv_of ex_text point (fun z => z) ex_gaps)) =
  Some [ [($"id", CInt 3); ($"name", CStr $"big"); ($"trip", CNone)];
         [($"id", CInt 4); ($"name", CNone); ($"trip", CStr $"12.0")];
         [($"id", CInt 5); ($"name", CStr $"LITTLE"); ($"trip", CStr $"-7.0")] ].
Proof. vm_compute. reflexivity. Qed.
Ltac pick I := cbn [In] in I; repeat (destruct I as [I|I]; [first [discriminate I|injection I as <-; cbn [In]; tauto]|]); destruct I.
Example C110_ex_meets : frame_sound point unpoint (fun z => z) ex_gaps.
Proof.
  assert (In_gaps : forall n c, in_col ex_gaps n c -> In (n, c) [($"id", CInt 3); ($"name", CStr $"big"); ($"id", CInt 4); ($"trip", CInt 12); ($"id", CInt 5); ($"name", CStr $"LITTLE"); ($"trip", CInt (-7))]).
  { intros n c (r & [<-|[<-|[<-|[]]]] & I); cbn [snd In] in I |- *; tauto. }
  assert (Dots : forall z, In z [12; -7]%Z -> unpoint (point z) = Some z /\ ~ na_text (point z) /\ ~ int_text (point z)).
  { intros z I. assert (D : In "."%char (point z)) by (apply in_or_app; right; now left). split; [|split].
    - destruct I as [<-|[<-|[]]]; vm_compute; reflexivity.
    - destruct I as [<-|[<-|[]]]; intros K; vm_compute in K; intuition discriminate.
    - intros (sg & ds & E & Is & _ & Dg). rewrite E in D. apply in_app_or in D as [D|D]; [destruct Is as [<-|[<-|[<-|[]]]]; cbn in D; intuition discriminate|].
      rewrite Forall_forall in Dg. specialize (Dg _ D). discriminate Dg. }
  split; [|split].
  - exists $"id", (CInt 3). eexists. split; [now left|now left].
  - repeat constructor; vm_compute; intuition discriminate.
  - intros n c I. apply In_gaps in I.
    assert (n = $"id" \/ n = $"name" \/ n = $"trip") as N by (cbn [In] in I; repeat (destruct I as [I|I]; [injection I as <- _; tauto|]); destruct I). clear I c.
    split; [destruct N as [-> |[-> | ->]]; discriminate|]. split; [destruct N as [-> |[-> | ->]]; discriminate|].
    destruct N as [-> |[-> | ->]].
    + left. intros c I. apply In_gaps in I. assert (In c [CInt 3; CInt 4; CInt 5]) as K by (pick I).
      assert (NL : ~ Lacks ex_gaps $"id"). { intros (r & [<-|[<-|[<-|[]]]] & L); eapply L; now left. }
      destruct K as [<-|[<-|[<-|[]]]]; eexists; (split; [reflexivity|]); (split; [unfold fits; lia|]); intros L; contradiction.
    + right. exists [$"big"; $"LITTLE"]. split.
      * intros c. split.
        -- intros I. apply In_gaps in I. assert (In c [CStr $"big"; CStr $"LITTLE"]) as K by (pick I).
           destruct K as [<-|[<-|[]]]; eexists; (split; [|reflexivity]); cbn [In]; auto.
        -- intros (s & [<-|[<-|[]]] & ->); [exists (nth 0 ex_gaps (fzero, []))|exists (nth 2 ex_gaps (fzero, []))]; (split; [apply nth_In; cbn; lia|right; now left]).
      * split; [repeat constructor; intros K; vm_compute in K; intuition discriminate|]. intros _. exists $"big". split; [now left|]. split; [vm_compute; reflexivity|]. split; [|vm_compute; intuition discriminate].
        intros (sg & ds & E & Is & Ne & Dg). destruct Is as [<-|[<-|[<-|[]]]]; cbn [app] in E; try discriminate E. subst ds. apply Forall_inv in Dg. revert Dg. vm_compute. intuition discriminate.
    + left. intros c I. apply In_gaps in I. assert (In c [CInt 12; CInt (-7)]) as K by (pick I).
      destruct K as [<-|[<-|[]]]; eexists; (split; [reflexivity|]); (split; [unfold fits; lia|]); intros _; apply Dots; cbn [In]; auto.
Qed.

Print Assumptions C110_read.
