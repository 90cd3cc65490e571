(** The camera footprint: /repo/rubin_scheduler/utils/camera_footprint.py lines 12-120.
    Positions are reals (float rounding is not modelled); the file's image and axis are given. *)
From Coq Require Import List Bool Reals ZArith.
From Verif Require Import Base Sphere Fov.
Import ListNotations.
Open Scope R_scope.

(** rotate, lines 12-18. *)
Definition rotate (x y rotation_angle_rad : R) : R * R :=
  let cos_rad := cos rotation_angle_rad in
  let sin_rad := sin rotation_angle_rad in
  (cos_rad * x - sin_rad * y, sin_rad * x + cos_rad * y).

(** LsstCameraFootprint.__init__, lines 43-63: [image] by rows, [x] in degrees, at least two long. *)
Record camera := Camera { units_degrees : bool; camera_fov : list (list bool); x_camera : list R; plate_scale : R; indx_max : Z }.
Definition crop (x_cam : list R) (max_radius : R) (image : list (list bool)) : list (list bool) :=
  map (fun '(y, row) => map (fun '(x, v) => if Rlt_dec (radians max_radius) (sqrt (x ^ 2 + y ^ 2)) then false else v) (combine x_cam row)) (combine x_cam image).
Definition init (deg : bool) (image : list (list bool)) (x : list R) (max_radius : R) : camera :=
  let x_cam := map radians x in
  Camera deg (crop x_cam max_radius image) x_cam (nth 1 x_cam 0 - nth 0 x_cam 0) (Z.of_nat (List.length x_cam)).

(** __call__, lines 65-120.  A position 90 degrees from the centre has no projection; numpy's infinity
    becomes an index far below 0. *)
Definition in_camera (c : camera) (ra dec boresight_ra boresight_dec rot : R) : bool :=
  let rad := if units_degrees c then radians else (fun a => a) in
  match gnomonic_toxy (rad ra) (rad dec) (rad boresight_ra) (rad boresight_dec) with
  | None => false
  | Some (x_proj, y_proj) =>
      let '(x_proj, y_proj) := rotate x_proj y_proj (rad rot) in
      let x_indx := np_round ((x_proj - nth 0 (x_camera c) 0) / plate_scale c) in
      let y_indx := np_round ((y_proj - nth 0 (x_camera c) 0) / plate_scale c) in
      (x_indx >=? 0)%Z && (x_indx <? indx_max c)%Z && (y_indx >=? 0)%Z && (y_indx <? indx_max c)%Z &&
      nth (Z.to_nat y_indx) (nth (Z.to_nat x_indx) (camera_fov c) []) false
  end.
Definition camera_call (c : camera) (objs : list (R * R)) (boresight_ra boresight_dec rot : R) : list nat :=
  map fst (filter (fun io => in_camera c (fst (snd io)) (snd (snd io)) boresight_ra boresight_dec rot) (combine (seq 0 (List.length objs)) objs)).
