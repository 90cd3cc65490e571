(** Ordering positions on the sky.
    /repo/rubin_scheduler/scheduler/utils/tsp.py order_observations (lines 26-57),
    generate_dist_matrix (lines 60-76) and utils/utils.py mean_azimuth (lines
    128-148), over the route finder of Tsp.v and the projection of Sphere.v.
    Positions are exact reals; [fl] is the number stored for a real, used where
    numbers are compared.  Qhull is an external function of the points. *)
From Coq Require Import List Reals ZArith QArith.
From Verif Require Import Base IntRounded Angles Sphere Tsp.
Import ListNotations.
Open Scope R_scope.

Section Order.
Variable fl : R -> Q.
Variable qhull : list (R * R) -> option (list nat).

(** [np.mean]. *)
Definition mean (l : list R) : R := fold_right Rplus 0 l / INR (List.length l).
(** mean_azimuth, lines 128-148. *)
Definition mean_azimuth (az : list R) : R :=
  let meanx := mean (map cos az) in
  let meany := mean (map sin az) in
  let radius := sqrt (meanx * meanx + meany * meany) in
  if ir_less (fl radius) (fl (1 / 10)) then PI else Rmod (atan2 meany meanx) (2 * PI).

(** Lines 44-45 of tsp.py. *)
Definition top (l : list R) : R := match l with [] => 0 | x :: r => fold_left Rmax r x end.
Definition bottom (l : list R) : R := match l with [] => 0 | x :: r => fold_left Rmin r x end.
Definition mid_lat (lat : list R) : R := (top lat - bottom lat) / 2 + bottom lat.

(** Lines 49-53: the towns; a position at right angles to the centre has no
    place on the plane, and Qhull refuses what is not finite. *)
Fixpoint project (ra dec : R) (l : list (R * R)) : res (list (R * R)) :=
  match l with
  | [] => Ok []
  | p :: r => match gnomonic_toxy (fst p) (snd p) ra dec with
              | None => Raise ValueError
              | Some q => bind (project ra dec r) (fun s => Ok (q :: s))
              end
  end.

(** generate_dist_matrix, lines 60-76. *)
Definition plane (a b : R * R) : R := sqrt ((fst b - fst a) * (fst b - fst a) + (snd b - snd a) * (snd b - snd a)).
Definition dist_matrix (towns : list (R * R)) (i j : nat) : R := plane (nth i towns (0, 0)) (nth j towns (0, 0)).

(** order_observations; the maximum of nothing, and lists of different lengths,
    are refused. *)
Definition towns_of (lon lat : list R) : res (list (R * R)) :=
  match lon with
  | [] => Raise ValueError
  | _ => if Nat.eqb (List.length lon) (List.length lat) then project (mean_azimuth lon) (mid_lat lat) (combine lon lat)
         else Raise ValueError
  end.
Definition order_observations (fuel : nat) (lon lat : list R) (optimize : bool) : res (list nat) :=
  bind (towns_of lon lat) (fun towns =>
    tsp_convex (fun i j => fl (dist_matrix towns i j)) (fun rem => qhull (map (fun i => nth i towns (0, 0)) rem))
      fuel (List.length lon) optimize 10).
End Order.
