(** Half spaces of the triangular mesh, /repo/rubin_scheduler/utils/htm_module.py lines 365-401
    (bounding circles) and 860-1384, on real numbers (float rounding is not modelled).
    Not modelled: __eq__. *)
From Coq Require Import List Bool ZArith Reals.
From Verif Require Import Base Sphere Htm.
Import ListNotations.
Open Scope R_scope.

(** HalfSpace.__init__, 879-905: unit vector, length and half angular extent.  An arccos is never
    above pi, so the error of line 900 is not met.  A zero vector would give nans. *)
Record half := HS { hv : vec; hd : R; hphi : R }.
Definition half_space (vector : vec) (length : R) : half :=
  HS (vnorm vector) length (if Rlt_dec (Rabs length) 1 then acos length else if Rlt_dec length 0 then PI else 0).
Definition gtb (x y : R) : bool := if Rlt_dec y x then true else false.
(** contains_pt, 941-959, and contains_many_pts, 961-974. *)
Definition hs_contains_pt (h : half) (pt : vec) (tol : option R) : bool :=
  let dot_product := dot (vnorm pt) (hv h) in
  match tol with None => gtb dot_product (hd h) | Some tol => gtb dot_product (hd h - tol) end.
Definition hs_contains (h : half) (pt : vec) : bool := gtb (dot pt (hv h)) (hd h).
(** intersects_edge, 976-1009.  Opposite ends, which divide by 0, are left out.  A zero [a] gives
    infinities or nans, which fail both comparisons. *)
Definition unit_range (o : option R) : bool :=
  match o with Some x => if Rle_dec 0 x then if Rle_dec x 1 then true else false else false | None => false end.
Definition intersects_edge (h : half) (pt1 pt2 : vec) : bool :=
  let costheta := dot pt1 pt2 in
  let usq := (1 - costheta) / (1 + costheta) in
  let gamma1 := dot (hv h) pt1 in
  let gamma2 := dot (hv h) pt2 in
  let b := gamma1 * (usq - 1) + gamma2 * (usq + 1) in
  let a := - usq * (gamma1 + hd h) in
  let c := gamma1 - hd h in
  let det := b * b - 4 * a * c in
  if Rlt_dec det 0 then false else
  let sqrt_det := sqrt det in
  unit_range (np_div (- b + sqrt_det) (2 * a)) || unit_range (np_div (- b - sqrt_det) (2 * a)).
(** intersects_circle, 1011-1035. *)
Definition intersects_circle (h : half) (center : vec) (radius_rad : R) : res bool :=
  let dotproduct := dot center (hv h) in
  let e := 1000000001 / 1000000000 in
  bind (if Rlt_dec (Rabs dotproduct) 1 then Ok (acos dotproduct)
        else if gtb e dotproduct && gtb dotproduct 0 then Ok 0
        else if gtb dotproduct (- e) && gtb 0 dotproduct then Ok PI
        else Raise RuntimeError) (fun theta =>
  Ok (if Rlt_dec (hphi h + radius_rad) theta then false else true)).
(** Trixel.bounding_circle, 365-401: centre, distance of the plane, angle. *)
Definition vminus (a b : vec) : vec := V (vx a - vx b) (vy a - vy b) (vz a - vz b).
Definition bounding_circle (t : trixel) : res (vec * R * R) :=
  let vb := vnorm (cross (vminus (tc1 t) (tc0 t)) (vminus (tc2 t) (tc1 t))) in
  let dd := Rmax (dot (tc0 t) vb) (Rmax (dot (tc1 t) vb) (dot (tc2 t) vb)) in
  if Rlt_dec 1 (Rabs dd) then Raise RuntimeError else Ok (vb, dd, acos dd).
(** intersects_bounding_circle, 1037-1048: element 1 of the circle, the distance, is passed on. *)
Definition intersects_bounding_circle (h : half) (t : trixel) : res bool :=
  bind (bounding_circle t) (fun '(vb, dd, _) => intersects_circle h vb dd).
(** contains_trixel, 1050-1097. *)
Inductive containment := Full | Partial | Outside.
Definition contains_trixel (h : half) (t : trixel) : res containment :=
  let k0 := hs_contains h (tc0 t) in
  let k1 := hs_contains h (tc1 t) in
  let k2 := hs_contains h (tc2 t) in
  if k0 && k1 && k2 then Ok Full
  else if k0 || k1 || k2 then Ok Partial
  else if contains_pt t (hv h) then Ok Partial
  else bind (intersects_bounding_circle h t) (fun near =>
    if negb near then Ok Outside
    else if intersects_edge h (tc0 t) (tc1 t) || intersects_edge h (tc1 t) (tc2 t) || intersects_edge h (tc2 t) (tc0 t)
    then Ok Partial else Ok Outside).

(** merge_trixel_bounds, 1098-1132.  argsort as an insertion sort by the first of the pair
    (numpy may order equal ones otherwise).  current_list is kept as its least and greatest. *)
Open Scope Z_scope.
Definition bound := (Z * Z)%type.
Fixpoint insert (r : bound) (l : list bound) : list bound :=
  match l with [] => [r] | x :: l' => if fst r <=? fst x then r :: l else x :: insert r l' end.
Definition sort_bounds (l : list bound) : list bound := fold_right insert [] l.
Fixpoint merge_loop (rows : list bound) (cur : option bound) (current_max : Z) (out : list bound) : list bound :=
  match rows with
  | [] => match cur with Some c => out ++ [c] | None => out end
  | (lo, hi) :: rows =>
      match cur with
      | None => merge_loop rows (Some (Z.min lo hi, Z.max lo hi)) (if hi >? current_max then hi else current_max) out
      | Some (mn, mx) =>
          if lo <=? current_max + 1
          then merge_loop rows (Some (Z.min mn (Z.min lo hi), Z.max mx (Z.max lo hi))) (if hi >? current_max then hi else current_max) out
          else merge_loop rows (Some (Z.min lo hi, Z.max lo hi)) hi (out ++ [(mn, mx)])
      end
  end.
Definition merge_trixel_bounds (bounds : list bound) : list bound := merge_loop (sort_bounds bounds) None (-1) [].
(** join_trixel_bound_sets, 1134-1194.  dex1 and dex2 are kept as what is left of the lists. *)
Fixpoint join_loop (fuel : nat) (l1 l2 joint : list bound) : res (list bound) :=
  match l1, l2 with
  | r1 :: k1, r2 :: k2 =>
      match fuel with
      | O => Raise OutOfFuel
      | S f =>
          if (fst r1 <=? fst r2) && (snd r1 >=? snd r2) then join_loop f l1 k2 (joint ++ [r2])
          else if (fst r2 <=? fst r1) && (snd r2 >=? snd r1) then join_loop f k1 l2 (joint ++ [r1])
          else
            let local_min := Z.max (fst r1) (fst r2) in
            let local_max := Z.min (snd r1) (snd r2) in
            let joint := if local_min <=? local_max then joint ++ [(local_min, local_max)] else joint in
            if snd r1 <? snd r2 then join_loop f k1 l2 joint else join_loop f l1 k2 joint
      end
  | _, _ => Ok joint
  end.
Definition join_trixel_bound_sets (b1 b2 : list bound) : res (list bound) :=
  let b1_sorted := merge_trixel_bounds b1 in
  let b2_sorted := merge_trixel_bounds b2 in
  match b1_sorted, b2_sorted with
  | f1 :: _, f2 :: _ =>
      let global_t_min := Z.max (fst f1) (fst f2) in
      let global_t_max := Z.min (snd (last b1_sorted f1)) (snd (last b2_sorted f2)) in
      let keep := filter (fun r : bound => (fst r <=? global_t_max) && (snd r >=? global_t_min)) in
      let b1_keep := keep b1_sorted in
      let b2_keep := keep b2_sorted in
      match b1_keep, b2_keep with
      | [], _ => Ok []
      | _, [] => Ok []
      | _, _ => bind (join_loop (List.length b1_keep + List.length b2_keep) b1_keep b2_keep []) (fun joint => Ok (merge_trixel_bounds joint))
      end
  | _, _ => Raise IndexError
  end.

(** find_all_trixels, 1196-1275. *)
Definition basic_trixels : list trixel := [n0_trixel; n1_trixel; n2_trixel; n3_trixel; s0_trixel; s1_trixel; s2_trixel; s3_trixel].
(** Lines 1247-1257 for one child. *)
Definition visit (h : half) (level i_level max_d : Z) (st : list trixel * list bound) (child : trixel) : res (list trixel * list bound) :=
  let '(new_active, output) := st in
  bind (contains_trixel h child) (fun c =>
  match c with
  | Partial => Ok (new_active ++ [child], output)
  | Full =>
      let min_htmid := Z.shiftl (tid child) (2 * (level - i_level)) in
      Ok (new_active, output ++ [(min_htmid, min_htmid + max_d)])
  | Outside => Ok (new_active, output)
  end).
Fixpoint levels_loop (h : half) (level : Z) (n : nat) (i_level max_d : Z) (active : list trixel) (output : list bound) : res (list trixel * list bound) :=
  match n with
  | O => Ok (active, output)
  | S n =>
      let max_d := Z.shiftr max_d 2 in
      bind (fold_res (visit h level i_level max_d) ([], output) (flat_map get_children active)) (fun '(active, output) =>
      match active with [] => Ok (active, output) | _ => levels_loop h level n (i_level + 1) max_d active output end)
  end.
Definition final_pass (h : half) (active : list trixel) (output : list bound) : res (list bound) :=
  fold_res (fun output child => bind (contains_trixel h child) (fun c =>
    match c with Outside => Ok output | _ => Ok (output ++ [(tid child, tid child)]) end)) output (flat_map get_children active).
Definition find_all_trixels (h : half) (level : Z) : res (list bound) :=
  let max_d := Nat.iter (Z.to_nat (level - 2)) (fun m => Z.shiftl (m + 3) 2) 0 in
  bind (levels_loop h level (Z.to_nat (level - 2)) 2 max_d basic_trixels []) (fun '(active, output) =>
  bind (final_pass h active output) (fun output => Ok (merge_trixel_bounds (sort_bounds output)))).

Open Scope R_scope.
(** half_space_from_ra_dec, 1278-1297; half_space_from_points, 1300-1334. *)
Definition half_space_from_ra_dec (ra dec radius : R) : half :=
  half_space (xyz_from_ra_dec (radians ra) (radians dec)) (cos (radians radius)).
Definition half_space_from_points (pt1 pt2 pt3 : R * R) : half :=
  let axis := vnorm (cross (point pt1) (point pt2)) in
  let axis := if Rlt_dec (dot axis (point pt3)) 0 then vtimes (-1) axis else axis in
  half_space axis 0.
(** intersect_half_spaces, 1337-1384: the points, or one point on its own where they coincide. *)
Inductive meeting := NoPoint | OnePoint (p : vec) | TwoPoints (p q : vec).
Definition intersect_half_spaces (h1 h2 : half) : meeting :=
  let gamma := dot (hv h1) (hv h2) in
  let tiny := / 10 ^ 20 in
  if Rlt_dec (Rabs (1 - Rabs gamma)) tiny then NoPoint else
  let denom := 1 - gamma ^ 2 in
  if Rlt_dec denom 0 then NoPoint else
  let num := hd h1 ^ 2 + hd h2 ^ 2 - 2 * gamma * hd h1 * hd h2 in
  if Rlt_dec denom num then NoPoint else
  let uu := (hd h1 - gamma * hd h2) / denom in
  let vv := (hd h2 - gamma * hd h1) / denom in
  let ww := sqrt ((1 - num / denom) / denom) in
  let c := cross (hv h1) (hv h2) in
  let mid := vplus (vtimes uu (hv h1)) (vtimes vv (hv h2)) in
  let pt1 := vplus mid (vtimes ww c) in
  let pt2 := vplus mid (vtimes (- ww) c) in
  if Rlt_dec (Rabs (1 - dot pt1 pt2)) tiny then OnePoint pt1 else TwoPoints pt1 pt2.
