(** Rising and setting times: /repo/rubin_scheduler/utils/riseset.py lines 14-126, for arrays of
    nights.  Times and angles are reals (float rounding is not modelled).  astropy is given by
    parameters: the local sidereal time [lst] (radians), the body's position [body_ra], [body_dec]
    (radians), the site's latitude [lat] (radians) and the body's [altitude] (degrees) at a time.
    Not modelled: nan, which arises where the body does not reach the altitude on that night (the
    argument of [acos] is outside [-1, 1]) or where the slope of the altitude is 0. *)
From Coq Require Import List Bool Reals ZArith String.
From Verif Require Import Base Sphere Angles.
Import ListNotations.
Open Scope R_scope.

Inductive warning := FarFromNight | NotConverged (night : R).

Section Body.
Variables (lst body_ra body_dec : R -> R) (lat : R) (altitude : R -> R).

(** Line 73: any other word than "down" is upwards. *)
Definition event_direction (which_direction : string) : R := if String.eqb which_direction "down" then 1 else -1.
(** Lines 75-76. *)
Definition night_wrap (which_night : string) : res R :=
  if String.eqb which_night "previous" then Ok 0 else if String.eqb which_night "nearest" then Ok 180
  else if String.eqb which_night "next" then Ok 360 else Raise KeyError.
(** Angle.wrap_at, radians: into [w - 360, w) degrees. *)
Definition wrap_at (a w : R) : R := Rmod (a - (radians w - 2 * PI)) (2 * PI) + (radians w - 2 * PI).
(** Lines 80-93: the first guess for a night. *)
Definition guess (dir alt wrap night : R) : R :=
  let hour_angle := lst night - body_ra night in
  let event_hour_angle := dir * acos ((sin (radians alt) - sin (body_dec night) * sin lat) / (cos (body_dec night) * cos lat)) in
  let ha_diff := wrap_at (event_hour_angle - hour_angle) wrap in
  night + ha_diff * ((9972696 / 10000000) / (2 * PI)).
(** Lines 104-112: one step of Newton's method. *)
Definition newton (alt mjd : R) : R :=
  let current_sinalt := sin (radians (altitude mjd)) in
  let target_sinalt := sin (radians alt) in
  let ha := lst mjd - body_ra mjd in
  let dsinalt_dlst := -1 * cos (body_dec mjd) * cos lat * sin ha in
  let dsinalt_dmjd := dsinalt_dlst * (2 * PI / (9972696 / 10000000)) in
  mjd - (current_sinalt - target_sinalt) / dsinalt_dmjd.

Definition np_max (l : list R) : res R := match l with [] => Raise ValueError | x :: l => Ok (fold_left Rmax l x) end.
Definition ltb (x y : R) : bool := if Rlt_dec x y then true else false.
(** Lines 95-112.  [last] is [finished] and the altitudes as last computed, if the body of the loop
    ever ran. *)
Fixpoint refine (alt tolerance : R) (max_iter : nat) (mjds : list R) (last : option (bool * list R)) : res (list R * option (bool * list R)) :=
  match max_iter with
  | O => Ok (mjds, last)
  | S max_iter =>
      let current_alt := map altitude mjds in
      bind (np_max (map (fun a => Rabs (a - alt)) current_alt)) (fun worst =>
      let finished := ltb worst tolerance in
      if finished then Ok (mjds, Some (true, current_alt))
      else refine alt tolerance max_iter (map (newton alt) mjds) (Some (false, current_alt)))
  end.
(** riseset_times, lines 14-126: the times and the warnings. *)
Definition riseset_times (night_mjds : list R) (which_direction which_night : string) (alt tolerance : R) (max_iter : nat) : res (list R * list warning) :=
  bind (night_wrap which_night) (fun wrap =>
  let mjds := map (guess (event_direction which_direction) alt wrap) night_mjds in
  bind (refine alt tolerance max_iter mjds None) (fun out =>
  let '(mjds, last) := out in
  bind (np_max (map (fun p => Rabs (fst p - snd p)) (combine mjds night_mjds))) (fun away =>
  let far := if ltb 1 away then [FarFromNight] else [] in
  match last with
  | None => Raise UnboundLocalError
  | Some (true, _) => Ok (mjds, far)
  | Some (false, current_alt) =>
      let unfinished := map (fun a => ltb (Rabs (a - alt)) tolerance) current_alt in
      match filter fst (combine unfinished night_mjds) with
      | [] => Ok (mjds, far)
      | f :: _ => Ok (mjds, far ++ [NotConverged (snd f)])
      end
  end))).
End Body.
