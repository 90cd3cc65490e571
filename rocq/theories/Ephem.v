(** Model of the positions an almanac gives.
    /repo/rubin_scheduler/site_models/almanac.py lines 30-83 and 177-202: [get_sun_moon_positions] and
    [get_planet_positions], one time at a time.
    Angles and times are real numbers.  scipy's interp1d is a rule giving, for the times of a table and
    a time between the first and the last, the weight of each row (a spline through given points depends
    linearly on their values); outside it raises ValueError.  The rule of kind "linear" is modelled; of
    "quadratic", the default of the almanac, the parabola through three rows, which is what it is on a
    table of three. *)
From Coq Require Import List Reals.
From Verif Require Import Base Sphere.
Import ListNotations.
Open Scope R_scope.

Definition rule : Type := list R -> R -> list R.
Definition weigh (w y : list R) : R := fold_right Rplus 0 (map (fun p => fst p * snd p) (combine w y)).
(** interp1d(times, values)(t). *)
Definition interp1d (k : rule) (ts y : list R) (t : R) : res R :=
  match ts with
  | [] => Raise ValueError
  | t0 :: _ => if Rlt_dec t t0 then Raise ValueError else if Rlt_dec (last ts t0) t then Raise ValueError
               else Ok (weigh (k ts t) y)
  end.
(** Kind "linear". *)
Fixpoint linear (ts : list R) (t : R) : list R :=
  match ts with
  | [] => []
  | a :: r => match r with
      | [] => [1]
      | b :: q => if Rle_dec t b then let u := (t - a) / (b - a) in (1 - u) :: u :: map (fun _ => 0) q
                  else 0 :: linear r t
      end
  end.
(** Kind "quadratic" on three rows; otherwise not modelled. *)
Definition parabola (ts : list R) (t : R) : list R :=
  match ts with
  | [a; b; c] => [(t - b) * (t - c) / ((a - b) * (a - c)); (t - a) * (t - c) / ((b - a) * (b - c)); (t - a) * (t - b) / ((c - a) * (c - b))]
  | _ => linear ts t
  end.

(** A longitude, lines 189-200 (72-81 for planets): the two coordinates of its direction are
    interpolated, negative angles get a full turn. *)
Definition angle (x y : R) : R := let a := atan2 y x in if Rlt_dec a 0 then 2 * PI + a else a.
Definition longitude (k : rule) (ts th : list R) (t : R) : res R :=
  bind (interp1d k ts (map sin th) t) (fun y => bind (interp1d k ts (map cos th) t) (fun x => Ok (angle x y))).
(** The other columns, lines 181-184. *)
Definition simple (k : rule) (ts y : list R) (t : R) : res R := interp1d k ts y t.
