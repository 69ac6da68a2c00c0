(** Property C24: the cached tables (trappy/base.py). *)
From Coq Require Import List Ascii String ZArith NArith Bool.
From Verif Require Import Lib.PyStr Model.Csv Spec.Tables Proofs.CsvP.
Import ListNotations.
Local Open Scope list_scope.

(** ** C24 *)
(** At the level of text, every list of records is read back, whatever
    characters its fields contain. *)
Theorem C24_text : forall rows, Forall (fun r => r <> []) rows -> csv_parse (csv_text rows) = rows.
Proof. exact text_round. Qed.
(** Tables without ambiguous columns are read back. *)
Theorem C24_table : forall (T F : Type) trepr tparse frepr fparse (t : table T F),
  table_ok trepr tparse frepr fparse t -> read_csv tparse fparse (write_csv trepr frepr t) = Some t.
Proof. exact @table_round. Qed.
Theorem C24_empty : forall (T F : Type) (trepr : T -> str) (tparse : str -> option T) (frepr : F -> str) (fparse : str -> option F),
  read_csv tparse fparse (write_csv trepr frepr (Tab [] [])) = Some (Tab [] []).
Proof. exact @empty_round. Qed.
(** A text column survives exactly when no cell is a missing-value word and the
    cells are not all integers, not all numbers or missing, not all truth values. *)
Theorem C24_text_column_iff : forall (F : Type) (fparse : str -> option F) os,
  os <> [] -> Forall (fun o => match o with OInt _ => False | _ => True end) os ->
  let cells := map obj_text os in
  (infer fparse cells = ColObj os <->
   Forall (fun o => match o with OStr s => ~ na_text s | _ => True end) os /\
   ~ Forall (fun s => ~ na_text s /\ whole s) cells /\
   ~ Forall (fun s => na_text s \/ fparse s <> None) cells /\
   ~ Forall bool_text cells).
Proof. exact (fun F => @text_iff unit F (fun _ => None) (fun _ => [])). Qed.
(** Truth values are recognized in all their spellings. *)
Theorem C24_truth : forall (F : Type) (fparse : str -> option F) cells, cells <> [] -> Forall bool_text cells ->
  (forall s, bool_text s -> fparse s = None) -> infer fparse cells = ColBool (map stands_for cells).
Proof. exact (fun F => @bool_read F). Qed.
(** Whatever text is read, its first record has the names of the columns; unnamed
    columns and repeated names are numbered. *)
Theorem C24_names : forall (T F : Type) (tparse : str -> option T) (fparse : str -> option F) text t, read_csv tparse fparse text = Some t ->
  exists first names body, csv_parse text = (first :: names) :: body /\
    List.length (tb_cols t) = List.length names /\ List.length (tb_times t) = List.length body /\
    forall j n, nth_error names j = Some n -> exists n', nth_error (map fst (tb_cols t)) j = Some n' /\ Named (first :: firstn j names) n n'.
Proof. exact @names_read. Qed.

(** Times written as integers; decimal fractions kept as text. *)
Definition dec_text (s : str) : option str :=
  match split_once "." s with
  | Some (a, b) => if forallb is_digit a && forallb is_digit b && negb (eqs a []) && negb (eqs b []) then Some s else None
  | None => if forallb is_digit s && negb (eqs s []) then Some s else None
  end.
Definition ex_table : table Z str := Tab [5%Z; 7%Z]
  [($"__comm", ColObj [OStr $"a,b"; OStr [dq]]); ($"__pid", ColInt [-1; 40]%Z); ($"load", ColFloat [Some $"1.0"; None]);
   ($"cpus", ColObj [OStr $"00000001"; OStr $"0000000f"])].
Lemma not_in_dec {A} (dec : forall a b : A, {a = b} + {a <> b}) x l : (if in_dec dec x l then true else false) = false -> ~ In x l.
Proof. destruct (in_dec dec x l); [discriminate|auto]. Qed.
Definition sdec := list_eq_dec ascii_dec.
Example C24_ex : table_ok str_of_Z csv_int (fun s => s) dec_text ex_table /\
  read_csv csv_int dec_text (write_csv str_of_Z (fun s => s) ex_table) = Some ex_table.
Proof.
  split; [|vm_compute; reflexivity]. split; [discriminate|]. split; [discriminate|]. split; [|split].
  - repeat constructor; apply (not_in_dec sdec); reflexivity.
  - repeat constructor.
  - repeat constructor; cbn [fst snd]; try discriminate.
    + apply (not_in_dec sdec). reflexivity.
    + apply (not_in_dec sdec). reflexivity.
    + exists $"a,b". split; [now left|]. split; [reflexivity|]. split; [now apply not_whole|]. apply (not_in_dec sdec). reflexivity.
    + apply (not_in_dec sdec). reflexivity.
    + intros (sign & ds & E & Hs & Hd & H). destruct Hs as [<-|[<-|[<-|[]]]]; [|discriminate E|discriminate E]. cbn [app] in E. subst ds.
      rewrite Forall_forall in H. specialize (H "."%char). discriminate H. cbn. auto.
    + apply (not_in_dec sdec). reflexivity.
    + apply (not_in_dec sdec). reflexivity.
    + exists $"0000000f". split; [right; now left|]. split; [reflexivity|]. split; [now apply not_whole|]. apply (not_in_dec sdec). reflexivity.
Qed.
Example C24_ex_names : option_map (fun t => map fst (tb_cols t)) (read_csv csv_int dec_text ($"Time,a,,a,b,a" ++ [nl] ++ $"1,2,3,4,5,6" ++ [nl])) =
  Some [$"a"; $"Unnamed: 2"; $"a.1"; $"b"; $"a.2"].
Proof. vm_compute. reflexivity. Qed.
Example C24_ex_truth : infer dec_text [$"TRUE"; $"false"; $"True"] = ColBool [true; false; true] /\ forall s, bool_text s -> dec_text s = None.
Proof. split; [reflexivity|]. intros s [<-|[<-|[<-|[<-|[<-|[<-|[]]]]]]]; reflexivity. Qed.
(** A cpu mask column padded with zeros (sched.py:36-42) comes back as integers;
    thread names and values of a column made of digits too; integers in a column
    that also has text come back as text; words like NULL are lost. *)
Theorem C24_padded_refuted : let t := Tab [5%Z; 7%Z] [($"cpus", ColObj [OStr $"00000001"; OStr $"00000010"])] in
  read_csv csv_int dec_text (write_csv str_of_Z (fun s => s) t) = Some (Tab [5%Z; 7%Z] [($"cpus", ColInt [1; 10]%Z)]).
Proof. vm_compute. reflexivity. Qed.
Theorem C24_mixed_refuted : let t := Tab [5%Z; 7%Z] [($"val", ColObj [OInt 31; OStr $"none yet"])] in
  read_csv csv_int dec_text (write_csv str_of_Z (fun s => s) t) = Some (Tab [5%Z; 7%Z] [($"val", ColObj [OStr $"31"; OStr $"none yet"])]).
Proof. vm_compute. reflexivity. Qed.
Theorem C24_words_refuted : let t := Tab [5%Z; 7%Z] [($"name", ColObj [OStr $"NULL"; OStr $"x"]); ($"flag", ColObj [OStr $"True"; OStr $"False"])] in
  read_csv csv_int dec_text (write_csv str_of_Z (fun s => s) t) =
  Some (Tab [5%Z; 7%Z] [($"name", ColObj [ONone; OStr $"x"]); ($"flag", ColBool [true; false])]).
Proof. vm_compute. reflexivity. Qed.

Print Assumptions C24_text.
Print Assumptions C24_table.
Print Assumptions C24_empty.
Print Assumptions C24_text_column_iff.
Print Assumptions C24_truth.
Print Assumptions C24_names.
Print Assumptions C24_padded_refuted.
Print Assumptions C24_mixed_refuted.
Print Assumptions C24_words_refuted.
