(** Random places on the sphere: /repo/rubin_scheduler/utils/sampling_functions.py lines 7-81.
    Angles are reals (float rounding is not modelled).  numpy's generator is a parameter:
    [stream seed k] is the k-th number of [0, 1) drawn after seeding with [seed]. *)
From Coq Require Import List Bool Reals ZArith.
From Verif Require Import Base Sphere.
Import ListNotations.
Open Scope R_scope.

Section Rng.
Variable stream : Z -> nat -> R.

(** The generator all of numpy.random shares: its seed and how many numbers were drawn. *)
Record rng := Rng { r_seed : Z; r_drawn : nat }.
Definition seed_rng (seed : Z) (g : rng) : rng := Rng seed 0.
Definition uniform (size : nat) (g : rng) : list R * rng :=
  (map (fun k => stream (r_seed g) (r_drawn g + k)%nat) (seq 0 size), Rng (r_seed g) (r_drawn g + size)%nat).

(** uniform_sphere, lines 7-19: (ra, dec) in degrees. *)
Definition sphere_point (u v : R) : R * R :=
  let ra := 2 * PI * u in
  let dec := acos (2 * v - 1) in
  let dec := dec - PI / 2 in
  (degrees ra, degrees dec).
Definition uniform_sphere (npoints : nat) (seed : Z) (g : rng) : list (R * R) * rng :=
  let g := seed_rng seed g in
  let '(u, g) := uniform npoints g in
  let '(v, g) := uniform npoints g in
  (map (fun uv => sphere_point (fst uv) (snd uv)) (combine u v), g).

(** sample_patch_on_sphere, lines 22-81: the numbers are drawn before the patch is looked at. *)
Definition patch_point (phi theta delta u v : R) : R * R :=
  let phival := 2 * delta * u + (phi - delta) in
  let phival := if Rle_dec 0 phival then phival else phival + 2 * PI in
  let theta := PI / 2 - theta in
  let thetamax := theta + delta in
  let thetamin := theta - delta in
  let a := cos thetamin - cos thetamax in
  let thetaval := acos (- v * a + cos thetamin) in
  let thetaval := PI / 2 - thetaval in
  (degrees phival, degrees thetaval).
Definition sample_patch_on_sphere (phi theta delta : R) (size : nat) (seed : Z) (g : rng) : res (list (R * R)) * rng :=
  let g := seed_rng seed g in
  let '(u, g) := uniform size g in
  let '(v, g) := uniform size g in
  let phi := radians phi in
  let theta := radians theta in
  let delta := radians delta in
  let thetamax := PI / 2 - theta + delta in
  let thetamin := PI / 2 - theta - delta in
  if Rlt_dec PI thetamax then (Raise ValueError, g)
  else if Rlt_dec thetamin 0 then (Raise ValueError, g)
  else (Ok (map (fun uv => patch_point phi theta delta (fst uv) (snd uv)) (combine u v)), g).
End Rng.
