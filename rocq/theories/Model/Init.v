(** Construction of the objects that hold the events of a class. *)
From Coq Require Import List Ascii String ZArith NArith Bool.
From Verif Require Import Lib.PyStr.
Import ListNotations.
Local Open Scope list_scope.

(** The [__init__] a class defines itself, if any:
    [IDefault]  dynamic.py:31-45 [default_init]
    [IRaw]      [super(C, self).__init__(parse_raw=self.parse_raw)] in the class [C] (raw_syscalls.py:29-30,
                62-63, sched.py:112-113, function.py:25-26, function_graph.py:24-25, 33-34)
    [IFallback] fallback.py:44-45
    [IBase]     base.py:116-127 *)
Inductive initkind := IDefault | IRaw | IFallback | IBase.
(** A class as far as construction reads it: its own [__init__] and its own [parse_raw]. *)
Record pyclass := Cls { c_init : option initkind; c_raw : option bool }.
(** base.py:95: [Base] has no class attribute [parse_raw]. *)
Definition base_class : pyclass := Cls (Some IBase) None.

(** [self.parse_raw] before [Base.__init__] has set it on the object: the attribute of
    the first class of the method resolution order that has one. *)
Fixpoint attr_raw (mro : list pyclass) : option bool :=
  match mro with
  | [] => None
  | c :: rest => match c_raw c with Some b => Some b | None => attr_raw rest end
  end.
(** The first class of [l] with an [__init__] of its own; [i] is the position of its head. *)
Fixpoint find_init (i : nat) (l : list pyclass) : option (nat * initkind) :=
  match l with
  | [] => None
  | c :: rest => match c_init c with Some k => Some (i, k) | None => find_init (S i) rest end
  end.
(** The attributes [parse_raw] and [fallback] of the object. *)
Record obj := Obj { o_raw : bool; o_fallback : bool }.
Definition given {A} (o : option A) (dflt : A) : A := match o with Some a => a | None => dflt end.
Definition passed {A} (o : option A) : bool := match o with Some _ => true | None => false end.
(** [super(mro[i-1], self).__init__(...)] with the keywords passed, or for [i = 0] the call
    of the class.  [fuel] is the recursion limit of the interpreter; [EFuel] its RecursionError.
    A keyword for an [__init__] without it is a TypeError.  If no class defines [__init__]
    the one of [object] is called (not the case for a subclass of [Base]). *)
Fixpoint call_init (fuel : nat) (mro : list pyclass) (i : nat) (raw fb : option bool) : res obj :=
  match fuel with
  | O => Err EFuel
  | S f =>
      match find_init i (skipn i mro) with
      | None => Err EType
      | Some (_, IBase) => Ok (Obj (given raw false) (given fb false))
      | Some (j, k) =>
          if passed raw || passed fb then Err EType else
          match k with
          | IDefault => call_init f mro 1 (attr_raw mro) None     (* super(type(self), self) *)
          | IRaw => match attr_raw mro with
                    | None => Err EAttribute
                    | Some b => call_init f mro (S j) (Some b) None
                    end
          | _ => call_init f mro (S j) None (Some true)
          end
      end
  end.
(** ftrace.py:105-108 [class_def()]: [below] are the classes of the method resolution
    order before [Base] (single inheritance). *)
Definition construct (limit : nat) (below : list pyclass) : res obj :=
  call_init limit (below ++ [base_class]) 0 None None.

(** dynamic.py:113-118, 123: the class made by [register_dynamic_ftrace]; ftrace.py:371-377:
    the one made for an event named in [events] has no [parse_raw]. *)
Definition dynamic (parse_raw : bool) : list pyclass := [Cls (Some IDefault) (Some parse_raw)].
Definition by_name : list pyclass := [Cls (Some IDefault) None].

(** The classes trappy registers, by name, with the classes they inherit from before [Base]. *)
Definition raw_init (b : bool) : pyclass := Cls (Some IRaw) (Some b).
Definition builtin_class (n : str) : list pyclass :=
  (* common_clk.py:28-61: CommonClkBase defines no __init__; filesystem.py:29-116 likewise *)
  if existsb (eqs n) [$"CommonClkEnable"; $"CommonClkDisable"; $"CommonClkSetRate";
       $"FilesystemExt4DaWriteBegin"; $"FilesystemExt4DaWriteEnd"; $"FilesystemExt4SyncFileEnter"; $"FilesystemExt4SyncFileExit";
       $"FilesystemF2FSWriteBegin"; $"FilesystemF2FSWriteEnd"; $"FilesystemF2FSSyncFileEnter"; $"FilesystemF2FSSyncFileExit"]
  then [Cls None None; Cls None None]
  (* fallback.py:28-50 *)
  else if eqs n $"TracingMarkWrite" then [Cls None None; Cls (Some IFallback) None]
  (* function.py:20-26, function_graph.py:20-34, sched.py:106-113 *)
  else if existsb (eqs n) [$"FunctionTracer"; $"FuncgraphEntry"; $"FuncgraphExit"; $"SchedSwitch"] then [raw_init true]
  (* raw_syscalls.py:21-63 *)
  else if existsb (eqs n) [$"SysEnter"; $"SysExit"] then [raw_init false]
  (* sched.py:67-75, 142 *)
  else if existsb (eqs n) [$"SchedLoadAvgCpu"; $"SchedContribScaleFactor"; $"SchedMigrateTask"] then dynamic false
  (* sched.py:96-101 *)
  else if existsb (eqs n) [$"SchedWakeup"; $"SchedWakeupNew"] then dynamic true
  (* the others define no __init__ (cpu_power.py, devfreq_power.py, idle.py, pid_controller.py, sched.py, thermal.py) *)
  else [Cls None None].
