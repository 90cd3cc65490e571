(** Model of the performance percentages of the mount and of the rotator.
    /repo/rubin_scheduler/scheduler/model_observatory/kinem_model.py lines 24-87
    (tma_movement, rotator_movement) and the lines of setup_camera (218-222) and
    setup_telescope (330-336) that take their values.  Real numbers instead of
    floats; the message printed above 125 percent is left out. *)
From Coq Require Import List Reals Lra.
From Verif Require Import Jerk.
Import ListNotations.
Open Scope R_scope.

(** Speed, acceleration and jerk of one axis. *)
Record axis := { speed : R; accel : R; jerk : option R }.
(** The dictionary of tma_movement, lines 46-57. *)
Record tma := { az : axis; alt : axis; settle : R }.

(** Lines 46-48 and 80-82: at most 125 percent. *)
Definition cap (percent : R) : R := if Rlt_dec 125 percent then 125 else percent.

(** tma_movement, lines 46-57. *)
Definition tma_movement (percent : R) : tma :=
  let scale := cap percent / 100 in
  {| az := {| speed := Rmin (10 * scale) 7; accel := 10 * scale; jerk := Some (Rmax 1 (40 * scale)) |};
     alt := {| speed := 5 * scale; accel := 5 * scale; jerk := Some (Rmax 1 (20 * scale)) |};
     settle := 3 |}.

(** rotator_movement, lines 80-87. *)
Definition rotator_movement (percent : R) : axis :=
  let p := cap percent in
  {| speed := 3.5 * p / 100; accel := 1 * p / 100; jerk := Some (4 * p / 100) |}.

(** np.radians. *)
Definition radians (x : R) : R := x * (PI / 180).
(** Lines 220-222, 330-332 and 333-335: every limit in radians, None stays None. *)
Definition in_radians (x : axis) : axis :=
  {| speed := radians (speed x); accel := radians (accel x); jerk := option_map radians (jerk x) |}.

(** The values setup_telescope takes when it is given none, lines 279-285. *)
Definition tel_default : tma :=
  {| az := {| speed := 7; accel := 7; jerk := Some 28 |};
     alt := {| speed := 3.5; accel := 3.5; jerk := Some 14 |}; settle := 3 |}.
(** The same of setup_camera, lines 177-180. *)
Definition rot_default : axis := {| speed := 3.5; accel := 1; jerk := Some 4 |}.

(** The duration of the axis over the distances (given in radians), lines 601-606
    and 706-708: jerk_time with the limits of the axis. *)
Definition axis_time (x : axis) (ds : list R) : option (list R) :=
  let x := in_radians x in jerk_time ds (speed x) (accel x) (jerk x).
