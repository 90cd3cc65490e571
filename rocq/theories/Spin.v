(** Turning the tessellation of fields: /repo/rubin_scheduler/scheduler/surveys/base_survey.py lines
    565-580 and 609-619 (the fields and the stored turns of BaseMarkovSurvey), 646-665
    (_hp2fieldsetup), 667-710 (_spin_fields); scheduler/surveys/too_scripted_surveys.py lines 192-222,
    267-303 (_spin_fields), 305-321 (_hpcorners2fieldsetup), 323-339 (_tesselate); the helpers of
    scheduler/utils/utils.py lines 66-96; utils/tree_utils.py lines 15-40 (_build_tree, scale None).
    Angles are reals (float rounding is not modelled); [None] is a nan.  The k-d tree is modelled by
    what it is asked for, the nearest stored position, the first of them when several are (scipy names
    no choice).  The positions of HEALPix centres and corners are parameters. *)
From Coq Require Import List Bool Reals ZArith.
From Verif Require Import Base Angles Sphere Blob.
Import ListNotations.
Open Scope R_scope.

(** utils.py lines 66-79. *)
Definition thetaphi2xyz (theta phi : R) : vec := V (sin phi * cos theta) (sin phi * sin theta) (cos phi).
(** utils.py lines 82-86. *)
Definition xyz2thetaphi (v : vec) : R * option R := (atan2 (vy v) (vx v), np_arccos (vz v)).
(** utils.py lines 89-96. *)
Definition rotx (theta : R) (v : vec) : vec :=
  V (vx v) (vy v * cos theta + vz v * sin theta) (- vy v * sin theta + vz v * cos theta).

(** base_survey.py lines 691-706 and too_scripted_surveys.py lines 280-295, for one field. *)
Definition spin1 (lon lat lon2 : R) (f : R * R) : R * option R :=
  let ra := Rmod (fst f + lon) (2 * PI) in
  let v := rotx lat (thetaphi2xyz ra (snd f + PI / 2)) in
  let '(theta, phi) := xyz2thetaphi v in
  (Rmod (theta + PI + lon2) (2 * PI), obind phi (fun p => Some (p - PI / 2))).

(** A tree holds points; _build_tree (tree_utils.py lines 31-40) refuses angles that cannot be radians.
    A nan passes the test; scipy then refuses data that are not finite with a ValueError. *)
Definition not_radians (x : R) : bool := if Rlt_dec (2 * PI) (Rabs x) then true else false.
Definition build_tree (fs : list (R * option R)) : res (list vec) :=
  if existsb (fun f => match snd f with None => true | _ => false end) fs then Raise ValueError
  else if existsb (fun f => not_radians (fst f) || match snd f with Some d => not_radians d | None => false end) fs
  then Raise ValueError
  else Ok (map (fun f => match snd f with Some d => xyz_from_ra_dec (fst f) d | None => V 0 0 0 end) fs).
(** tree.query(p, k=1): the index of the nearest; the number of points (scipy's answer when there is
    none) in an empty tree. *)
Definition dist2 (a b : vec) : R := (vx a - vx b) ^ 2 + (vy a - vy b) ^ 2 + (vz a - vz b) ^ 2.
Fixpoint nearest (l : list vec) (p : vec) : nat :=
  match l with
  | [] => 0
  | [_] => 0
  | v :: r => let j := nearest r p in
      match nth_error r j with
      | Some w => if Rle_dec (dist2 v p) (dist2 w p) then 0 else S j
      | None => 0
      end
  end%nat.

Section Survey.
(** Centres of the HEALPix, and their four corners (hp.boundaries, step 1). *)
Variable centres : list vec.
Variable corners : list (list vec).

(** The survey: fields_init, fields, hp2fields, hpcorners2fields (the target of opportunity survey's),
    the stored turns, spin_indx (target of opportunity). *)
Record sv := mkSv { s_init : list (R * R); s_fields : list (R * option R); s_h2f : list nat; s_c2f : list (list nat);
                    s_lon : list R; s_lat : list R; s_lon2 : list R; s_next : nat }.

(** base_survey.py lines 646-665. *)
Definition hp2fieldsetup (fs : list (R * option R)) : res (list nat) :=
  bind (build_tree fs) (fun t => Ok (map (nearest t) centres)).
(** too_scripted_surveys.py lines 305-321. *)
Definition hpcorners2fieldsetup (fs : list (R * option R)) : res (list (list nat)) :=
  bind (build_tree fs) (fun t => Ok (map (map (nearest t)) corners)).

(** The stored turns, base_survey.py lines 615-619: three arrays of numbers of a generator seeded once. *)
Definition turns_of (u : list R) : list R := map (fun x => x * PI * 2) u.
Definition tips_of (u : list R) : list R := map (fun x => acos (2 * x - 1)) u.

(** What the constructor leaves, base_survey.py lines 565-580 and too_scripted_surveys.py lines 191-222:
    [fields] is what the user gave, [lsst] and [comcam] the two tessellations the package has.  A camera
    of another name makes a ValueError that is not raised; the next line finds no fields_init. *)
Inductive camera := LSST | ComCam | Other.
Definition first_fields (fields : option (list (R * R))) (c : camera) (lsst comcam : list (R * R)) : res (list (R * R)) :=
  match fields with
  | Some f => Ok f
  | None => match c with LSST => Ok lsst | ComCam => Ok comcam | Other => Raise AttributeError end
  end.
Definition as_found (fs : list (R * R)) : list (R * option R) := map (fun f => (fst f, Some (snd f))) fs.
Definition make (fields : option (list (R * R))) (c : camera) (lsst comcam : list (R * R)) (u1 u2 u3 : list R) : res sv :=
  bind (first_fields fields c lsst comcam) (fun fs =>
  bind (hp2fieldsetup (as_found fs)) (fun h =>
  bind (hpcorners2fieldsetup (as_found fs)) (fun k =>
  Ok (mkSv fs (as_found fs) h k (turns_of u1) (tips_of u2) (turns_of u3) 0)))).

(** Indexing an array, numpy's way: negative counts from the end. *)
Definition at_index (l : list R) (i : Z) : res R :=
  let j := if (i <? 0)%Z then (i + Z.of_nat (length l))%Z else i in
  if (j <? 0)%Z then Raise IndexError
  else match nth_error l (Z.to_nat j) with Some x => Ok x | None => Raise IndexError end.

(** The turn itself: base_survey.py lines 691-710, always from fields_init. *)
Definition turned (s : sv) (lon lat lon2 : R) : res sv :=
  let fs := map (spin1 lon lat lon2) (s_init s) in
  bind (hp2fieldsetup fs) (fun h => Ok (mkSv (s_init s) fs h (s_c2f s) (s_lon s) (s_lat s) (s_lon2 s) (s_next s))).
(** base_survey.py lines 667-710 with an index (the night). *)
Definition spin_fields (s : sv) (i : Z) : res sv :=
  bind (at_index (s_lon s) i) (fun lon => bind (at_index (s_lat s) i) (fun lat => bind (at_index (s_lon2 s) i) (fun lon2 =>
  turned s lon lat lon2))).
(** too_scripted_surveys.py lines 267-303. *)
Definition too_spin (s : sv) : res sv :=
  bind (spin_fields s (Z.of_nat (s_next s))) (fun s1 =>
  bind (hpcorners2fieldsetup (s_fields s1)) (fun k =>
  Ok (mkSv (s_init s1) (s_fields s1) (s_h2f s1) k (s_lon s1) (s_lat s1) (s_lon2 s1) (S (s_next s1))))).
(** too_scripted_surveys.py lines 328-335: the fields to point at for some pixels, before they are put
    in order. *)
Definition look (l : list nat) (p : nat) : Z := Z.of_nat (nth p l 0%nat).
Definition field_ids (s : sv) (pix : list nat) : list Z :=
  unique_sorted (unique_sorted (map (look (s_h2f s)) pix) ++
                 concat (map (fun ind => unique_sorted (map (look ind) pix)) (s_c2f s))).
End Survey.
