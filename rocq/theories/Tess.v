(** Squares over the sphere: /repo/rubin_scheduler/scheduler/utils/comcam_tessellate.py lines 6-65.
    Angles are reals (float rounding is not modelled).  At the pole the code divides by numpy's
    cos(pi / 2), which is not 0 but very small; the quotient is the parameter [at_pole]. *)
From Coq Require Import List Bool Reals ZArith.
From Verif Require Import Base Sphere Angles.
Import ListNotations.
Open Scope R_scope.

Section Tess.
Variable at_pole : R.

(** np.ceil(x).astype(int). *)
Definition ceil (x : R) : Z := (- Int_part (- x))%Z.
(** np.linspace(0, stop, num). *)
Definition linspace (stop : R) (num : Z) : res (list R) :=
  if (num <? 0)%Z then Raise ValueError
  else if (num =? 1)%Z then Ok [0]
  else Ok (map (fun i => INR i * (stop / IZR (num - 1))) (seq 0 (Z.to_nat num))).
(** A quotient by 0 is infinite and becomes an integer far below 0. *)
Definition steps (x step : R) : Z := if Req_EM_T step 0 then (-1)%Z else ceil (x / step).

(** Lines 40-51, one stripe. *)
Definition largest (step dec : R) : R := Rmax (Rmax (2 * PI * cos (- step + dec)) (2 * PI * cos (0 + dec))) (2 * PI * cos (step + dec)).
Definition advance (rotation_step dec : R) : R := if Req_EM_T (cos dec) 0 then at_pole else rotation_step / cos dec.
Fixpoint stripes (rotation_step step : R) (decs : list R) (running_step : R) : res (list (R * R)) :=
  match decs with
  | [] => Ok []
  | dec :: decs =>
      bind (linspace (2 * PI) (steps (largest step dec) step)) (fun new_ras =>
      let running_step := running_step + advance rotation_step dec in
      bind (stripes rotation_step step decs running_step) (fun rest =>
      Ok (map (fun ra => (Rmod (ra + running_step) (2 * PI), dec)) new_ras ++ rest)))
  end.

(** comcam_tessellate, lines 6-65: pairs (RA, dec) in radians. *)
Definition comcam_tessellate (side_length overlap : R) : res (list (R * R)) :=
  let side_length := radians side_length in
  let overlap := radians overlap in
  let rotation_step := side_length / 2 in
  let step_size := side_length - overlap in
  bind (linspace (PI / 2) (steps (PI / 2) step_size)) (fun dec_stripes =>
  bind (stripes rotation_step step_size dec_stripes 0) (fun fields =>
  let north := filter (fun f => if Rlt_dec 0 (snd f) then true else false) fields in
  Ok (fields ++ map (fun f => (Rmod (-1 * fst f) (2 * PI), -1 * snd f)) north))).
End Tess.
