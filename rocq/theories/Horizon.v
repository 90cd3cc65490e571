(** Sidereal time, horizon coordinates and the parallactic angle, on real numbers.
    /repo/rubin_scheduler/utils/coordinate_transformations.py lines 47-57 (_wrap_hour_angle),
    81-94 (parallactic angle of _alt_az_pa_from_ra_dec), 122-157 (calc_lmst);
    utils/approx_coord_transforms.py lines 15-38, 96-142 and 186-236.  One element at a time
    (the array branches do the same by element); [None] is a nan.  Float rounding is not
    modelled, so nor is what numpy answers at the zenith, where exact arithmetic divides 0 by 0. *)
From Coq Require Import Bool Reals.
From Verif Require Import Base Angles Sphere.
Open Scope R_scope.

(** _wrap_hour_angle, lines 47-57. *)
Definition wrap_hour_angle (ha : R) : R := if Rlt_dec PI ha then ha - 2 * PI else ha.

(** calc_lmst, lines 147-157; hours. *)
Definition gmst0 : R := 1869711679816973 / 100000000000000.
Definition gmst_rate : R := 24065709854011313 / 1000000000000000.
Definition calc_lmst (mjd longitude_rad : R) : R :=
  let gmst := gmst0 + gmst_rate * (mjd - 515445 / 10) in
  let gmst := Rmod gmst 24 in
  let longitude := degrees longitude_rad / 15 in
  let lst := gmst + longitude in
  if Rlt_dec lst 0 then lst + 24 else lst.
(** The lmst argument, hours, and its default. *)
Definition use_lmst (lmst : option R) (mjd lon : R) : R := match lmst with Some l => l | None => calc_lmst mjd lon end.

(** np.clip(x, -1, 1). *)
Definition clip1 (x : R) : R := if Rlt_dec x (-1) then -1 else if Rlt_dec 1 x then 1 else x.

(** _approx_ra_dec2_alt_az, lines 214-232: altitude and azimuth. *)
Definition ra_dec2_alt_az (ra dec lat lon mjd : R) (lmst : option R) : option (R * option R) :=
  let lst := use_lmst lmst mjd lon / 12 * PI in
  let ha := lst - ra in
  let sinalt := clip1 (sin dec * sin lat + cos dec * cos lat * cos ha) in
  obind (np_arcsin sinalt) (fun alt =>
  let az := obind (np_div (sin dec - sin alt * sin lat) (cos alt * cos lat)) (fun cosaz =>
            obind (np_arccos (clip1 cosaz)) (fun a =>
            Some (if Rlt_dec 0 (sin ha) then 2 * PI - a else a))) in
  Some (alt, az)).

(** _approx_alt_az2_ra_dec, lines 127-142. *)
Definition alt_az2_ra_dec (alt az lat lon mjd : R) (lmst : option R) : option (R * R) :=
  let lst := use_lmst lmst mjd lon / 12 * PI in
  let sindec := clip1 (sin lat * sin alt + cos lat * cos alt * cos az) in
  obind (np_arcsin sindec) (fun dec =>
  let ha := atan2 (- sin az * cos alt) (- cos az * sin lat * cos alt + sin alt * cos lat) in
  let ra := lst - ha in
  let ra := if Rlt_dec ra 0 then ra + 2 * PI else ra in
  let ra := if Rlt_dec (2 * PI) ra then ra - 2 * PI else ra in
  Some (ra, dec)).

(** _approx_altaz2pa, lines 15-38. *)
Definition altaz2pa (alt az lat : R) : R :=
  let y := sin (- az) * cos lat in
  let x := cos alt * sin lat - sin alt * cos lat * cos (- az) in
  Rmod (atan2 y x) (2 * PI).

(** The parallactic angle of _alt_az_pa_from_ra_dec, lines 81-94, from the sidereal time in
    radians. *)
Definition pa_from_hour_angle (lst ra dec lat : R) : R :=
  let ha := wrap_hour_angle (lst - ra) in
  atan2 (sin ha) (cos dec * tan lat - sin dec * cos ha).
