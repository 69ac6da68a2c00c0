(** Model of trappy/plot_utils.py [plot_temperature] and of the [plot_temperature] methods of trappy/thermal.py. *)
From Coq Require Import List Ascii String ZArith Bool.
From Verif Require Import Lib.PyStr.
Import ListNotations.
Local Open Scope list_scope.

(** plot_utils.py:31-41 [normalize_title]; [is not ""] is read as [!= ""] *)
Definition normalize_title (title opt_title : str) : str :=
  match opt_title with [] => title | _ => opt_title ++ $" - " ++ title end.

Section Temperature.
  (** [div]: true division. *)
  Context {T F : Type} (div : Z -> Z -> F).
  (** Rows of thermal_temperature: time, zone, temperature. *)
  Notation trow := (T * Z * Z)%type.
  (** Rows of thermal_power_allocator: time, zone, current and delta temperature. *)
  Notation grow := (T * Z * (Z * Z))%type.
  (** A line of the plot: its label and its points. *)
  Notation line := (str * list (T * F))%type.
  (** A run: name, frame of thermal, frame of thermal_governor ([None]: without columns). *)
  Record run := Run { r_name : str; r_thermal : list trow; r_gov : option (list grow) }.

  Definition current (rows : list grow) : list (T * F) := map (fun r => (fst (fst r), div (fst (snd r)) 1000)) rows.
  Definition control (rows : list grow) : list (T * F) := map (fun r => (fst (fst r), div (fst (snd r) + snd (snd r)) 1000)) rows.
  (** thermal.py:42-102 [Thermal.plot_temperature] with [ax] *)
  Definition plot_thermal (rows : list trow) (ctl : option (list (T * F))) (label : str) (tz_id : option Z) : res (list line) :=
    match rows with
    | [] => Err EValue
    | _ =>
      let dfr := match tz_id with Some z => filter (fun r => (snd (fst r) =? z)%Z) rows | None => rows end in
      match dfr with
      | [] => Err EValue
      | _ => Ok ((normalize_title $"Temperature" label, map (fun r => (fst (fst r), div (snd r) 1000)) dfr) ::
                 match ctl with Some c => [(normalize_title $"Control" label, c)] | None => [] end)
      end
    end.
  (** thermal.py:136-159 [ThermalGovernor.plot_temperature] with [ax] *)
  Definition plot_gov (gov : option (list grow)) (label : str) : res (list line) :=
    match gov with
    | None => Err EKey
    | Some g => Ok [(normalize_title $"Temperature" label, current g); ($"control temperature", control g)]
    end.
  (** plot_utils.py:158-175, one run *)
  Definition plot_run (tz_id : option Z) (r : run) : res (list line) :=
    do g <- match tz_id with
            | Some z => if (z =? 0)%Z then Ok (r_gov r)
                        else match r_gov r with Some g => Ok (Some (filter (fun x => (snd (fst x) =? z)%Z) g)) | None => Err EKey end
            | None => Ok (r_gov r)
            end ;;
    match plot_thermal (r_thermal r) (option_map control g) (r_name r) tz_id with
    | Err EValue => plot_gov (r_gov r) (r_name r)
    | x => x
    end.
  (** plot_utils.py:146-178 *)
  Definition plot_temperature (tz_id : option Z) (runs : list run) : res (list line) :=
    do ls <- mapM (plot_run tz_id) runs ;; Ok (List.concat ls).
End Temperature.
Arguments run : clear implicits.
