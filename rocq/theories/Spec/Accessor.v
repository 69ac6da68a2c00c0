(** What an accessor denotes. *)
From Coq Require Import List Ascii String ZArith NArith Bool Sorted.
From Verif Require Import Lib.PyStr Lib.TotalOrder Model.Power Spec.Power Model.Grammar Spec.Grammar Model.Accessor.
Import ListNotations.
Local Open Scope list_scope.

(** The accessors of an expression, from left to right. *)
Fixpoint accs (e : exp) : list (str * str) :=
  match e with
  | ENum _ | EVar _ => []
  | EAcc ev c => [(ev, c)]
  | ECall _ a l => accs a ++ flat_map accs l
  | EUn _ a => accs a
  | EBin _ a b => accs a ++ accs b
  end.

(** The second list is made of the members of the first that satisfy [P], in order. *)
Inductive Only {A} (P : A -> Prop) : list A -> list A -> Prop :=
| O_nil : Only P [] []
| O_keep a l l' : P a -> Only P l l' -> Only P (a :: l) (a :: l')
| O_drop a l l' : ~ P a -> Only P l l' -> Only P (a :: l) l'.

Section Spec.
  Context {T V : Type} (leb : T -> T -> bool) (w : world T V).
  Notation row := (T * list (str * option V))%type.
  Notation le := (fun a b => leb a b = true).
  (** A row is in the window, and its cells of the filtered columns that the frame
      has are among the wanted values. *)
  Definition Chosen (cols : list str) (r : row) : Prop :=
    (forall t, w_from w = Some t -> le t (fst r)) /\ (forall t, w_to w = Some t -> le (fst r) t) /\
    forall c wanted, In (c, wanted) (w_filters w) -> In c cols -> exists v, gcell c r = Some v /\ In v wanted.
  (** The class of an event: a variable, else a class of the trace, else any. *)
  Definition Class (event : str) (k : kls) : Prop :=
    w_pvars w event = Some k \/
    (w_pvars w event = None /\ (w_defs w event = Some k \/ (w_defs w event = None /\ w_attr w event = Ok k))).
  (** The chosen rows of an event: time, value of the pivot column (nothing when the
      class has none), value of the column.  There is at least one. *)
  Definition Source (event column : str) (rows : list (T * option V * option V)) : Prop :=
    exists k f sel, Class event k /\ w_frames w (k_name k) = Some f /\ In column (g_cols f) /\
      (forall p, k_pivot k = Some p -> In p (g_cols f)) /\
      Only (Chosen (g_cols f)) (g_rows f) sel /\ sel <> [] /\
      rows = map (fun r => (fst r, match k_pivot k with Some p => gcell p r | None => None end, gcell column r)) sel.
  (** The first accessor of the column in a history that can be read. *)
  Definition First (h : list (str * str)) (column : str) (rows : list (T * option V * option V)) : Prop :=
    exists pre event post, h = pre ++ (event, column) :: post /\ Source event column rows /\
      forall event' rows', In (event', column) pre -> ~ Source event' column rows'.
  (** The columns of a name. *)
  Definition columns (tab : table T V) (c : str) : list (option V * list (option V)) :=
    map (fun kc => (snd (fst kc), snd kc)) (filter (fun kc => eqs (fst (fst kc)) c) (t_cols tab)).
  (** The columns of [c] show [rows]: one for each pivot value, and in each cell the
      last value known. *)
  Definition Shows (tab : table T V) (c : str) (rows : list (T * option V * option V)) : Prop :=
    keys_of (map fst (columns tab c)) rows /\
    forall k cells, In (k, cells) (columns tab c) -> Forall2 (fun t x => CellOf le rows k t x) (t_idx tab) cells.
  (** The same without filling: a value is the last known one, and the values of the
      rows are there. *)
  Definition Sketches (tab : table T V) (c : str) (rows : list (T * option V * option V)) : Prop :=
    keys_of (map fst (columns tab c)) rows /\
    forall k cells, In (k, cells) (columns tab c) ->
      Forall2 (fun t x => forall v, (x = Some v -> Known le rows k t v) /\ (In (t, k, Some v) rows -> x = Some v)) (t_idx tab) cells.
  (** The index of a table after a history. *)
  Definition Times (tab : table T V) (h : list (str * str)) : Prop :=
    StronglySorted (lt leb) (t_idx tab) /\
    forall t, In t (t_idx tab) <-> exists c rows k v, First h c rows /\ In (t, k, v) rows.

  (** Frames in time order without repetition; where there is a pivot column, rows with a pivot value. *)
  Definition Proper : Prop :=
    (forall n f, w_frames w n = Some f -> StronglySorted (lt leb) (map fst (g_rows f))) /\
    (forall event k f p r, Class event k -> w_frames w (k_name k) = Some f -> k_pivot k = Some p -> In p (g_cols f) -> In r (g_rows f) -> gcell p r <> None).

  (** ** Sessions *)
  (** The column of an accessor can be read, now that it was added to the history. *)
  Definition Readable (h : list (str * str)) (c : str) : Prop := exists rows, First h c rows.
  (** [Tried h l h']: the accessors [l] are tried after [h] up to the first that
      cannot be read. *)
  Inductive Tried : list (str * str) -> list (str * str) -> list (str * str) -> Prop :=
  | Tr_nil h : Tried h [] h
  | Tr_read h ev c l h' : Readable (h ++ [(ev, c)]) c -> Tried (h ++ [(ev, c)]) l h' -> Tried h ((ev, c) :: l) h'
  | Tr_stop h ev c l : ~ Readable (h ++ [(ev, c)]) c -> Tried h ((ev, c) :: l) (h ++ [(ev, c)]).
  (** The accessors tried by a parser that was given the texts one after the other. *)
  Inductive Session : list str -> list (str * str) -> Prop :=
  | Se_nil : Session [] []
  | Se_snoc ss h s l h' : Session ss h -> accessors s = Some l -> Tried h l h' -> Session (ss ++ [s]) h'.
End Spec.
