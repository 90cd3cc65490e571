(** Which pixels a mask or a field of view reaches:
    /repo/rubin_scheduler/utils/tree_utils.py lines 15-52 (_build_tree), utils/healpy_utils.py lines
    390-450 (_tree_for_mask, _hp_grow_mask), scheduler/utils/utils.py lines 636-822 (hp_kd_tree,
    HpInLsstFov, HpInComcamFov).
    Positions are reals (float rounding is not modelled).  healpy is a parameter: [hp nside] are the
    positions (ra, dec) of the pixels of a map, or the error raised for an nside it will not take. *)
From Coq Require Import List Bool Reals ZArith.
From Verif Require Import Base Sphere.
Import ListNotations.
Open Scope R_scope.

(** np.round: to the nearest integer, halves to the even one. *)
Definition np_round (x : R) : Z :=
  let f := Int_part x in
  let d := x - IZR f in
  if Rlt_dec d (1 / 2) then f else if Rlt_dec (1 / 2) d then (f + 1)%Z else if Z.even f then f else (f + 1)%Z.
(** .astype(int): towards zero. *)
Definition trunc (x : R) : Z := if Rle_dec 0 x then Int_part x else (- Int_part (- x))%Z.

(** A position scaled, rounded and made whole, if there is a scale. *)
Definition rounded (scale : option R) (v : vec) : vec :=
  match scale with
  | None => v
  | Some k => V (IZR (np_round (vx v * k))) (IZR (np_round (vy v * k))) (IZR (np_round (vz v * k)))
  end.
Definition rounded_length (scale : option R) (r : R) : R := match scale with None => r | Some k => IZR (np_round (r * k)) end.

(** _build_tree, tree_utils.py lines 15-52: the tree is the list of its points. *)
Definition far (a : R) : bool := if Rlt_dec (PI * 2) (Rabs a) then true else false.
Definition build_tree (scale : option R) (radec : list (R * R)) : res (list vec) :=
  if existsb (fun p => far (fst p)) radec || existsb (fun p => far (snd p)) radec then Raise ValueError
  else match radec with
       | [] => Raise ValueError
       | _ => Ok (map (fun p => rounded scale (xyz_from_ra_dec (fst p) (snd p))) radec)
       end.
(** cKDTree.query_ball_point for one of several points: the positions in the tree of all points no
    further than [r], ascending.  [r] is not negative. *)
Definition apart (a b : vec) : R := sqrt ((vx a - vx b) ^ 2 + (vy a - vy b) ^ 2 + (vz a - vz b) ^ 2).
Definition query (tree : list vec) (p : vec) (r : R) : list nat :=
  filter (fun i => match nth_error tree i with Some q => if Rle_dec (apart q p) r then true else false | None => false end) (seq 0 (List.length tree)).

Section Hp.
Variable hp : Z -> res (list (R * R)).

(** np.unique of indices. *)
Fixpoint ninsert (x : nat) (l : list nat) : list nat :=
  match l with [] => [x] | y :: l' => if Nat.ltb x y then x :: l else if Nat.eqb x y then l else y :: ninsert x l' end.
Definition nunique (l : list nat) : list nat := fold_right ninsert [] l.
(** Positions of the masked pixels; an index past the end raises. *)
Fixpoint take (l : list (R * R)) (mask : list nat) : res (list (R * R)) :=
  match mask with
  | [] => Ok []
  | i :: mask => match nth_error l i with None => Raise IndexError | Some x => bind (take l mask) (fun r => Ok (x :: r)) end
  end.
(** _tree_for_mask, healpy_utils.py lines 390-394. *)
Definition tree_for_mask (nside : Z) (scale : option R) : res (list vec) := bind (hp nside) (build_tree scale).

(** _hp_grow_mask, lines 397-450.  The function keeps nside, tree and scale as attributes of itself,
    and lru_cache keeps the last ten answers. *)
Record args := Args { a_nside : Z; a_mask : list nat; a_size : R; a_scale : option R }.
Record kept := Kept { k_nside : option Z; k_tree : option (list vec); k_scale : option (option R); k_memo : list (args * list nat) }.
Definition unused : kept := Kept None None None [].
Definition same_scale (a b : option R) : bool :=
  match a, b with None, None => true | Some x, Some y => if Req_EM_T x y then true else false | _, _ => false end.
(** Lines 421-424 and 426-428: nside first, then the tree, which may raise, then the scale. *)
Definition rebuild (k : kept) (nside : Z) (scale : option R) : res unit * kept :=
  match tree_for_mask nside scale with
  | Raise e => (Raise e, Kept (Some nside) (k_tree k) (k_scale k) (k_memo k))
  | Ok t => (Ok tt, Kept (Some nside) (Some t) (Some scale) (k_memo k))
  end.
Definition prepare (k : kept) (nside : Z) (scale : option R) : res unit * kept :=
  let '(r, k) := match k_nside k with None => rebuild k nside scale | Some _ => (Ok tt, k) end in
  match r with
  | Raise e => (Raise e, k)
  | Ok _ =>
      match k_nside k, k_scale k with
      | Some n, Some s => if negb (Z.eqb n nside) || negb (same_scale s scale) then rebuild k nside scale else (Ok tt, k)
      | _, _ => (Raise AttributeError, k)
      end
  end.
(** Lines 430-450, with the tree that is kept. *)
Definition grow_with (tree : option (list vec)) (a : args) : res (list nat) :=
  bind (hp (a_nside a)) (fun radec =>
  bind (take radec (a_mask a)) (fun masked =>
  let pts := map (fun p => rounded (a_scale a) (xyz_from_ra_dec (fst p) (snd p))) masked in
  let dist := rounded_length (a_scale a) (2 * sin (a_size a / 2)) in
  match tree with
  | None => Raise AttributeError
  | Some tree =>
      match map (fun p => query tree p dist) pts with
      | [] => Raise ValueError
      | lists => Ok (nunique (concat lists))
      end
  end)).
Definition hp_grow_mask_body (k : kept) (a : args) : res (list nat) * kept :=
  let '(r, k) := prepare k (a_nside a) (a_scale a) in
  match r with Raise e => (Raise e, k) | Ok _ => (grow_with (k_tree k) a, k) end.
(** functools.lru_cache(maxsize=10): an answer is found by its arguments and moved to the front; an
    error is not kept. *)
Definition same_args (a b : args) : bool :=
  Z.eqb (a_nside a) (a_nside b) && (if list_eq_dec Nat.eq_dec (a_mask a) (a_mask b) then true else false) &&
  (if Req_EM_T (a_size a) (a_size b) then true else false) && same_scale (a_scale a) (a_scale b).
Definition hp_grow_mask (k : kept) (a : args) : res (list nat) * kept :=
  match find (fun e => same_args (fst e) a) (k_memo k) with
  | Some e => (Ok (snd e), Kept (k_nside k) (k_tree k) (k_scale k) (e :: filter (fun e => negb (same_args (fst e) a)) (k_memo k)))
  | None =>
      let '(r, k) := hp_grow_mask_body k a in
      match r with
      | Ok l => (Ok l, Kept (k_nside k) (k_tree k) (k_scale k) (firstn 10 ((a, l) :: k_memo k)))
      | Raise e => (Raise e, k)
      end
  end.

(** hp_kd_tree, utils.py lines 636-654. *)
Definition hp_kd_tree (nside : Z) (scale : R) : res (list vec) := bind (hp nside) (build_tree (Some scale)).

(** query_ball_point for a single point leaves its order open. *)
Variable arrange : list nat -> list nat.

(** HpInLsstFov, lines 657-721; fov_radius in degrees.  One position gives its pixels, several give a
    list of pixels for each. *)
Record lsst_fov := LsstFov { l_tree : list vec; l_radius : R; l_scale : R }.
Definition hp_in_lsst_fov (nside : Z) (fov_radius scale : R) : res lsst_fov :=
  bind (hp_kd_tree nside scale) (fun tree => Ok (LsstFov tree (IZR (np_round (xyz_angular_radius_deg fov_radius * scale))) scale)).
Inductive found := One (l : list nat) | Each (l : list (list nat)).
Definition lsst_fov_call (f : lsst_fov) (radec : list (R * R)) : found :=
  let pts := map (fun p => rounded (Some (l_scale f)) (xyz_from_ra_dec (fst p) (snd p))) radec in
  match pts with
  | [p] => One (arrange (query (l_tree f) p (l_radius f)))
  | _ => Each (map (fun p => query (l_tree f) p (l_radius f)) pts)
  end.

(** HpInComcamFov, lines 724-822.  [contains polygon point] is matplotlib's Path.contains_point for a
    closed polygon of integer corners.  np.radians(side_length * scale) is rounded to an integer. *)
Variable contains : list (Z * Z) -> Z * Z -> bool.
Record comcam_fov := ComcamFov { c_nside : Z; c_scale : R; c_tree : list vec; c_side : R; c_inner : R; c_outer : R }.
Definition hp_in_comcam_fov (nside : Z) (side_length scale : R) : res comcam_fov :=
  bind (hp_kd_tree nside scale) (fun tree =>
  Ok (ComcamFov nside scale tree (IZR (np_round (radians (side_length * scale))))
        (IZR (np_round (xyz_angular_radius_deg (side_length / 2) * scale)))
        (IZR (np_round (xyz_angular_radius_deg (side_length / 2 * sqrt 2) * scale))))).
Definition corners (side : R) : list (R * R) := [(- side / 2, side / 2); (- side / 2, - side / 2); (side / 2, - side / 2); (side / 2, side / 2)].
Definition turned (rot : R) (c : R * R) : Z * Z :=
  (trunc (fst c * cos rot - snd c * sin rot), trunc (fst c * sin rot + snd c * cos rot)).
(** The loop over the pixels between the circles.  A pixel 90 degrees away does not project; it is no
    closer than the outer circle for the fields in use and is left out. *)
Definition in_square (scale : R) (poly : list (Z * Z)) (ra dec : R) (p : R * R) : bool :=
  match gnomonic_toxy (fst p) (snd p) ra dec with
  | None => false
  | Some (x, y) => contains poly (trunc (x * scale), trunc (y * scale))
  end.
Definition comcam_fov_call (f : comcam_fov) (ra dec rot : R) : res (list nat) :=
  let c := rounded (Some (c_scale f)) (xyz_from_ra_dec ra dec) in
  let indices := arrange (query (c_tree f) c (c_inner f)) in
  let indices_all := arrange (query (c_tree f) c (c_outer f)) in
  let indices_to_check := filter (fun i => negb (existsb (Nat.eqb i) indices)) indices_all in
  let poly := map (turned rot) (corners (c_side f)) in
  let poly := match poly with [] => [] | c0 :: _ => poly ++ [c0] end in
  bind (hp (c_nside f)) (fun radec =>
  bind (take radec indices_to_check) (fun to_check =>
  Ok (indices ++ map fst (filter (fun ip => in_square (c_scale f) poly ra dec (snd ip)) (combine indices_to_check to_check))))).
End Hp.
