(** Positions on the sphere, on real numbers (float rounding is not modelled).
    /repo/rubin_scheduler/utils/coordinate_transformations.py lines 261-612,
    utils/code_utilities.py lines 59-122 (_validate_inputs),
    utils/projections.py and utils/bearing.py.  [None] is a nan. *)
From Coq Require Import List Bool Reals Lra.
From Verif Require Import Base.
Import ListNotations.
Open Scope R_scope.

(** ** Numpy *)
(** np.arctan2(y, x): the angle of the point (x, y) in (-pi, pi], 0 at the origin.  Signed
    zeros are not modelled. *)
Definition atan2 (y x : R) : R :=
  let h := sqrt (x * x + y * y) in
  if Req_EM_T h 0 then 0 else if Rle_dec 0 y then acos (x / h) else - acos (x / h).
(** np.arcsin and np.arccos: nan outside [-1, 1]. *)
Definition np_arcsin (x : R) : option R := if Rle_dec (-1) x then if Rle_dec x 1 then Some (asin x) else None else None.
Definition np_arccos (x : R) : option R := if Rle_dec (-1) x then if Rle_dec x 1 then Some (acos x) else None else None.
(** A quotient; every zero denominator met below comes with a zero numerator (proved where it
    matters), which numpy turns into a nan. *)
Definition np_div (x y : R) : option R := if Req_EM_T y 0 then None else Some (x / y).
Definition obind {A B} (o : option A) (f : A -> option B) : option B := match o with Some a => f a | None => None end.
(** np.degrees, np.radians. *)
Definition degrees (x : R) : R := x * 180 / PI.
Definition radians (x : R) : R := x * PI / 180.

(** ** coordinate_transformations.py *)
Record vec := V { vx : R; vy : R; vz : R }.
(** np.dot and np.cross of three-vectors. *)
Definition dot (a b : vec) : R := vx a * vx b + vy a * vy b + vz a * vz b.
Definition cross (a b : vec) : vec :=
  V (vy a * vz b - vz a * vy b) (vz a * vx b - vx a * vz b) (vx a * vy b - vy a * vx b).

(** _xyz_from_ra_dec, lines 261-280. *)
Definition xyz_from_ra_dec (ra dec : R) : vec := V (cos ra * cos dec) (sin ra * cos dec) (sin dec).
(** _ra_dec_from_xyz, lines 283-306.  The origin has no declination. *)
Definition ra_dec_from_xyz (x y z : R) : R * option R :=
  let rad := sqrt (x ^ 2 + y ^ 2 + z ^ 2) in
  (atan2 y x, obind (np_div z rad) np_arcsin).
(** _xyz_angular_radius, lines 348-364, and xyz_angular_radius, 332-345. *)
Definition xyz_angular_radius (r : R) : R :=
  let p := xyz_from_ra_dec r 0 in
  sqrt ((vx p - 1) ^ 2 + (vy p - 0) ^ 2 + (vz p - 0) ^ 2).
Definition xyz_angular_radius_deg (r : R) : R := xyz_angular_radius (radians r).

(** Rotation matrices as rows, lines 367-410.  [vec.transpose()] of one vector is itself. *)
Record mat := M { row1 : vec; row2 : vec; row3 : vec }.
Definition mapply (m : mat) (v : vec) : vec := V (dot (row1 m) v) (dot (row2 m) v) (dot (row3 m) v).
Definition z_rotation_matrix (t : R) : mat := M (V (cos t) (- sin t) 0) (V (sin t) (cos t) 0) (V 0 0 1).
Definition rot_about_z (v : vec) (t : R) : vec := mapply (z_rotation_matrix t) v.
Definition y_rotation_matrix (t : R) : mat := M (V (cos t) 0 (sin t)) (V 0 1 0) (V (- sin t) 0 (cos t)).
Definition rot_about_y (v : vec) (t : R) : vec := mapply (y_rotation_matrix t) v.
Definition x_rotation_matrix (t : R) : mat := M (V 1 0 0) (V 0 (cos t) (- sin t)) (V 0 (sin t) (cos t)).
Definition rot_about_x (v : vec) (t : R) : vec := mapply (x_rotation_matrix t) v.

(** rotation_matrix_from_vectors, lines 413-462.  [Ok None] is a matrix of nans. *)
Definition off_unit (v : vec) : bool := if Rlt_dec (1 / 100) (Rabs (sqrt (dot v v) - 1)) then true else false.
Definition rotation_matrix_from_vectors (v1 v2 : vec) : res (option mat) :=
  if off_unit v1 then Raise RuntimeError
  else if off_unit v2 then Raise RuntimeError
  else
    let c := cross v1 v2 in
    let n := sqrt (dot c c) in
    Ok (obind (np_div (vx c) n) (fun c0 => obind (np_div (vy c) n) (fun c1 => obind (np_div (vz c) n) (fun c2 =>
        obind (np_arccos (dot v1 v2)) (fun angle =>
        let s := sin angle in
        let k := cos angle in
        Some (M (V (k + c0 * c0 * (1 - k)) (- c2 * s + (1 - k) * c0 * c1) (c1 * s + (1 - k) * c0 * c2))
                (V (c2 * s + (1 - k) * c0 * c1) (k + (1 - k) * c1 * c1) (- c0 * s + (1 - k) * c1 * c2))
                (V (- c1 * s + (1 - k) * c0 * c2) (c0 * s + (1 - k) * c1 * c2) (k + (1 - k) * (c2 * c2))))))))).

(** The arithmetic of _angular_separation for one pair, lines 508-519. *)
Definition sep1 (long1 lat1 long2 lat2 : R) : option R :=
  let t1 := sin (lat2 / 2 - lat1 / 2) ^ 2 in
  let t2 := cos lat1 * cos lat2 * sin (long2 / 2 - long1 / 2) ^ 2 in
  let s := t1 + t2 in
  let s := if Rlt_dec s 0 then 0 else s in
  match np_arcsin (sqrt s) with Some a => Some (2 * a) | None => None end.

(** Arguments: a number or a one-dimensional array. *)
Inductive arg := Num (x : R) | Arr (l : list R).
(** _validate_inputs for two arguments: both numbers or both arrays of the same length. *)
Definition validate2 (a b : arg) : res bool :=
  match a, b with
  | Num _, Num _ => Ok false
  | Arr l, Arr m => if Nat.eqb (List.length l) (List.length m) then Ok true else Raise RuntimeError
  | _, _ => Raise RuntimeError
  end.
(** Lines 494-502: arrays of one element become numbers. *)
Definition unwrap (a : arg) : arg := match a with Arr [x] => Num x | _ => a end.
Inductive oarg := ONum (x : option R) | OArr (l : list (option R)).
Definition zip2 (l m : list R) : list (R * R) := combine l m.
(** _angular_separation, lines 465-519. *)
Definition angular_separation (long1 lat1 long2 lat2 : arg) : res oarg :=
  bind (validate2 long1 lat1) (fun _ => bind (validate2 long2 lat2) (fun _ =>
  match unwrap long1, unwrap lat1, unwrap long2, unwrap lat2 with
  | Num a, Num b, Num c, Num d => Ok (ONum (sep1 a b c d))
  | Num a, Num b, Arr c, Arr d => Ok (OArr (map (fun q => sep1 a b (fst q) (snd q)) (zip2 c d)))
  | Arr a, Arr b, Num c, Num d => Ok (OArr (map (fun p => sep1 (fst p) (snd p) c d) (zip2 a b)))
  | Arr a, Arr b, Arr c, Arr d =>
      if Nat.eqb (List.length a) (List.length c)
      then Ok (OArr (map (fun pq => sep1 (fst (fst pq)) (snd (fst pq)) (fst (snd pq)) (snd (snd pq))) (combine (zip2 a b) (zip2 c d))))
      else Raise RuntimeError
  | _, _, _, _ => Raise RuntimeError
  end)).
(** angular_separation, lines 522-542, for one pair. *)
Definition sep1_deg (long1 lat1 long2 lat2 : R) : option R :=
  match sep1 (radians long1) (radians lat1) (radians long2) (radians lat2) with Some a => Some (degrees a) | None => None end.

(** Lines 567-612. *)
Definition arcsec_from_radians (o : option R) : option R := match o with None => None | Some v => Some (3600 * degrees v) end.
Definition radians_from_arcsec (o : option R) : option R := match o with None => None | Some v => Some (radians (v / 3600)) end.
Definition arcsec_from_degrees (o : option R) : option R := match o with None => None | Some v => Some (3600 * v) end.
Definition degrees_from_arcsec (o : option R) : option R := match o with None => None | Some v => Some (v / 3600) end.

(** ** projections.py *)
(** gnomonic_project_toxy, lines 6-14.  cosc = 0 (a point 90 degrees away) is reported as [None]
    here; numpy gives an infinity. *)
Definition gnomonic_toxy (ra1 dec1 racen deccen : R) : option (R * R) :=
  let cosc := sin deccen * sin dec1 + cos deccen * cos dec1 * cos (ra1 - racen) in
  if Req_EM_T cosc 0 then None
  else Some (cos dec1 * sin (ra1 - racen) / cosc,
             (cos deccen * sin dec1 - sin deccen * cos dec1 * cos (ra1 - racen)) / cosc).
(** gnomonic_project_tosky, lines 17-23. *)
Definition gnomonic_tosky (x y racen deccen : R) : R * R :=
  let denom := cos deccen - y * sin deccen in
  (racen + atan2 x denom, atan2 (sin deccen + y * cos deccen) (sqrt (x * x + denom * denom))).

(** ** bearing.py *)
(** bearing, lines 8-18. *)
Definition bearing (lon1 lat1 lon2 lat2 : R) : R :=
  let dl := lon2 - lon1 in
  let X := cos lat2 * sin dl in
  let Y := cos lat1 * sin lat2 - sin lat1 * cos lat2 * cos dl in
  atan2 X Y.
(** dest_latlon, lines 21-31: (lat2, lon2). *)
Definition dest_latlon (dist brg lat1 lon1 : R) : option (R * R) :=
  obind (np_arcsin (sin lat1 * cos dist + cos lat1 * sin dist * cos brg)) (fun lat2 =>
  Some (lat2, lon1 + atan2 (sin brg * sin dist * cos lat1) (cos dist - sin lat1 * sin lat2))).
(** point_to_line_distance, lines 34-79, for one triple of points held in numpy numbers (a
    Python float has no [size]).  A comparison with a nan is false. *)
Definition gt_opt (a b : option R) : bool :=
  match a, b with Some x, Some y => if Rlt_dec y x then true else false | _, _ => false end.
Definition point_to_line_distance (lon1 lat1 lon2 lat2 lon3 lat3 : R) : option R :=
  let bear12 := bearing lon1 lat1 lon2 lat2 in
  let bear13 := bearing lon1 lat1 lon3 lat3 in
  obind (sep1 lon1 lat1 lon3 lat3) (fun dis13 =>
  let diff := Rabs (bear13 - bear12) in
  let diff := if Rlt_dec PI diff then 2 * PI - diff else diff in
  if Rlt_dec (PI / 2) diff then Some dis13
  else
    obind (np_arcsin (sin dis13 * sin (bear13 - bear12))) (fun dxt =>
    let dis12 := sep1 lon1 lat1 lon2 lat2 in
    let dis14 := obind (np_div (cos dis13) (cos dxt)) np_arccos in
    if gt_opt dis14 dis12 then sep1 lon2 lat2 lon3 lat3
    else Some (Rabs dxt))).
