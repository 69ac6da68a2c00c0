(** What a plot of temperatures has to show. *)
From Coq Require Import List Ascii String ZArith Bool.
From Verif Require Import Lib.PyStr Spec.Governor Model.Temperature.
Import ListNotations.
Local Open Scope list_scope.

Definition Named (name what : str) (l : str) : Prop := name = [] /\ l = what \/ name <> [] /\ l = name ++ $" - " ++ what.
Definition InZone (tz_id : option Z) (z : Z) : Prop := match tz_id with None => True | Some z' => z = z' end.
(** Zone 0 asked for means any zone. *)
Definition ControlZone (tz_id : option Z) (z : Z) : Prop := match tz_id with None => True | Some z' => z' = 0%Z \/ z = z' end.
Section Temperature.
  Context {T F : Type} (div : Z -> Z -> F).
  Inductive Drawn (tz_id : option Z) (r : run T) : list (str * list (T * F)) -> Prop :=
  | drawn_thermal rows l1 ctl :
      Only (fun x => InZone tz_id (snd (fst x))) (r_thermal r) rows -> rows <> [] -> Named (r_name r) $"Temperature" l1 ->
      match r_gov r with
      | None => (forall z, tz_id = Some z -> z = 0%Z) /\ ctl = []
      | Some g => exists grows l2, Only (fun x => ControlZone tz_id (snd (fst x))) g grows /\ Named (r_name r) $"Control" l2 /\
          ctl = [(l2, map (fun x => (fst (fst x), div (fst (snd x) + snd (snd x)) 1000)) grows)]
      end ->
      Drawn tz_id r ((l1, map (fun x => (fst (fst x), div (snd x) 1000)) rows) :: ctl)
  (** No temperature of the zone: all temperatures of the governor. *)
  | drawn_gov g l1 : Only (fun x => InZone tz_id (snd (fst x))) (r_thermal r) [] -> r_gov r = Some g -> Named (r_name r) $"Temperature" l1 ->
      Drawn tz_id r [(l1, map (fun x => (fst (fst x), div (fst (snd x)) 1000)) g);
                     ($"control temperature", map (fun x => (fst (fst x), div (fst (snd x) + snd (snd x)) 1000)) g)].
End Temperature.
