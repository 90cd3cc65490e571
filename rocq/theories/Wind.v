(** Model of the wind on the sky, on real numbers.
    /repo/rubin_scheduler/site_models/wind_data.py 14-45, scheduler/model_observatory/
    model_observatory.py 493-496, scheduler/features/conditions.py 557-558,
    scheduler/basis_functions/mask_basis_funcs.py 31-57 and basis_functions.py 1358-1431,
    scheduler/example/simple_examples.py 32-120 (its wind).  One pixel at a time; the value of
    a pixel is [None] when it is NaN.  Directions and azimuths in radians. *)
From Coq Require Import Bool Reals.
From Verif Require Import Base Sphere.
Open Scope R_scope.

(** The wind of the conditions: speed and direction, or none (288-289, 493-496). *)
Definition wind : Type := option (R * R).
(** [calc_wind_pressure], conditions.py 557-558. *)
Definition pressure (speed dir az : R) : R := speed * cos (az - dir).
(** MaskDirectWindBasisFunction, mask_basis_funcs.py 48-57. *)
Definition mask_wind (maximum : R) (w : wind) (az : R) : option R :=
  match w with
  | None => Some 0
  | Some (speed, dir) => if Rlt_dec maximum (pressure speed dir az) then None else Some 0
  end.
(** WindPressureBasisFunction, basis_functions.py 1419-1431, built only for limits in order. *)
Definition pressure_limits (maximum minimum : R) : res (R * R) := if Rlt_dec maximum minimum then Raise ValueError else Ok (maximum, minimum).
Definition reward_wind (minimum : R) (w : wind) (az : R) : R :=
  match w with
  | None => 0
  | Some (speed, dir) => if Rlt_dec speed minimum then 0 else 0 - pressure speed dir az * pressure speed dir az
  end.
(** AvoidDirectWind, 1377-1391. *)
Definition avoid_wind (maximum : R) (w : wind) (az : R) : option R :=
  match w with
  | None => Some 0
  | Some (speed, dir) =>
      if Rlt_dec maximum (pressure speed dir az) then None else Some (0 - pressure speed dir az * pressure speed dir az)
  end.
(** [ConstantWindData], wind_data.py 25-45: direction in radians. *)
Definition constant_wind (speed dir : R) : wind := Some (speed, dir).
(** [get_ideal_model_observatory], line 105: its argument is in degrees. *)
Definition ideal_wind (speed dir_deg : R) : wind := constant_wind speed dir_deg.
