(** Model of the masks and rewards that depend on where a pixel is in the sky.
    /repo/rubin_scheduler/scheduler/basis_functions/mask_basis_funcs.py: MaskDirectWind (31-57),
    MaskPoorSeeing (60-83), MaskAllButNES (134-159), RevHaMask (189-216), SolarElongMask
    (243-266), HaMask (269-296), SolarElongationMask (331-357), AltAzShadowTimeLimited (484-517),
    MoonAvoidance (520-555), BulkCloud (558-603), MapCloud (606-655); basis_functions.py:
    NearSunHighAirmass (680-714), Azimuth (1179-1196), AzModulo (1199-1241), DecModulo
    (1244-1279), WindPressure (1394-1432), RewardRising (1512-1552); features/conditions.py:
    calc_ha (395-397).
    A map is a list with one value per pixel.  Angles are the numbers the code holds: radians,
    except that hour angles are kept in hours (the factor pi / 12 is taken as exact).  Separations,
    elongations and wind pressures are inputs. *)
From Coq Require Import List ZArith QArith Qround Qabs Bool.
From Verif Require Import Base IntRounded.
Import ListNotations.
Open Scope nat_scope.

Definition rmap := list er.
(** An array comparison; the arrays here always fit. *)
Definition cmp_all (r : res (list bool)) : list bool := match r with Ok l => l | Raise _ => [] end.
Definition both (a b : list bool) : list bool := map (fun p => fst p && snd p) (combine a b).
Definition either (a b : list bool) : list bool := map (fun p => fst p || snd p) (combine a b).
Definition set_where (sel : list bool) (v : er) (m : rmap) : rmap := map (fun p : bool * er => if fst p then v else snd p) (combine sel m).
Definition filled (v : er) (xs : list Q) : rmap := map (fun _ => v) xs.

(** ** Separations and elongations *)
Definition moon_mask (lim : Q) (sep : list Q) : rmap := set_where (cmp_all (ir_lt sep [lim])) ENaN (filled (EFin 1) sep).
Definition elong_mask (lim : Q) (el : list Q) : rmap := set_where (cmp_all (ir_gt el [lim])) ENaN (filled (EFin 0) el).
Definition elongation_mask (lo hi : Q) (pen : er) (el : list Q) : rmap :=
  set_where (both (cmp_all (ir_ge el [lo])) (cmp_all (ir_le el [hi]))) (EFin 1) (filled pen el).

(** ** Hour angles, in hours *)
Definition calc_ha (lmst ra : Q) : Q := let h := (lmst - ra)%Q in if Qltb h 0 then (h + 24)%Q else h.
Definition ha_out (lo hi : option Q) (h : Q) : bool :=
  match lo with Some a => Qltb h a | None => false end || match hi with Some b => Qltb b h | None => false end.
Definition ha_mask (lo hi : option Q) (has : list Q) : rmap := map (fun h => if ha_out lo hi h then ENaN else EFin 0) has.
Definition rev_ha_mask (lo hi : option Q) (has : list Q) : rmap := map (fun h => if ha_out lo hi h then EFin 0 else ENaN) has.
Definition rising_reward (slope : Q) (pen : er) (has : list Q) : rmap :=
  map (fun h => if Qltb h 12 then pen else EFin (slope * h)%Q) has.

(** ** Seeing, wind, clouds *)
Definition seeing_mask (lim : Q) (fwhm : list er) : rmap := map (fun s => if er_ltb (EFin lim) s then ENaN else EFin 0) fwhm.
Definition wind_mask (lim : Q) (wind : option (list Q)) (npix : nat) : rmap :=
  match wind with
  | None => repeat (EFin 0) npix
  | Some p => map (fun x => if Qltb lim x then ENaN else EFin 0) p
  end.
(** speed and the pressure of each pixel *)
Definition wind_pressure (lo : Q) (wind : option (Q * list Q)) (npix : nat) : rmap :=
  match wind with
  | None => repeat (EFin 0) npix
  | Some (s, p) => if Qltb s lo then repeat (EFin 0) npix else map (fun x => EFin (0 - x * x)%Q) p
  end.
Definition bulk_cloud (maxima : list Q) (out : er) (cloud : Q) : rmap := map (fun m => if Qle_bool m cloud then out else EFin 1) maxima.
Definition map_cloud (maxima : list Q) (out : er) (ext : option (list Q)) : rmap :=
  match ext with
  | None => repeat (EFin 1) (List.length maxima)          (* the number 1 *)
  | Some e => map (fun p => if Qle_bool (fst p) (snd p) then out else EFin 1) (combine maxima e)
  end.
(** MaskAllButNES copies a map of zeros and does not use the region *)
Definition all_but_nes (region : list nat) (npix : nat) : rmap := repeat (EFin 0) npix.

(** ** Near the sun: airmass over its limit, where airmass is known, within limits and the sun is
    within a quarter turn *)
Definition sun_pix (am : list er) (to_sun : list Q) : list (nat * (Q * Q)) :=
  flat_map (fun p => match fst (snd p) with EFin a => [(fst p, (a, snd (snd p)))] | _ => [] end)
           (combine (seq 0 (List.length am)) (combine am to_sun)).
Definition near_sun (limit half_pi : Q) (pen : er) (am : list er) (to_sun : list Q) : rmap :=
  let valid := sun_pix am to_sun in
  let a := map (fun x => fst (snd x)) valid in
  let sel := both (both (map (fun x => Qle_bool 1 x) a) (cmp_all (ir_lt a [limit])))
                  (cmp_all (ir_lt (map (fun x => Qabs (snd (snd x))) valid) [half_pi])) in
  let good := map snd (filter fst (combine sel valid)) in
  map (fun i => match find (fun x => Nat.eqb (fst x) i) good with Some x => EFin (fst (snd x) / limit)%Q | None => pen end)
      (seq 0 (List.length am)).

(** ** Shadow mask only near sunrise or sunset; [m] is the mask of the parent class *)
Definition timed_shadow (near : Q) (events : list Q) (t : Q) (m : rmap) : res rmap :=
  match map (fun e => Qabs (t - e)) events with
  | [] => Raise ValueError
  | d :: r => Ok (if Qltb (fold_left Qminb r d) near then m else repeat (EFin 0) (List.length m))
  end.

(** ** Azimuth and declination by night *)
Definition az_out (lim : Q * Q) (az : list Q) : list bool := either (cmp_all (ir_lt az [fst lim])) (cmp_all (ir_gt az [snd lim])).
Definition az_modulo (limits : list (Q * Q)) (out : er) (night : Z) (az : list Q) : res rmap :=
  match limits with
  | [] => Raise ZeroDivisionError
  | _ => match nth_error limits (Z.to_nat (night mod Z.of_nat (List.length limits))) with
         | Some lim => Ok (set_where (if Qltb (fst lim) (snd lim) then az_out lim az else az_out lim az) out (filled (EFin 1) az))
         | None => Raise IndexError
         end
  end.
Definition dec_modulo (limits : list (Q * Q)) (out : er) (night : Z) (decs : list Q) : res rmap :=
  match limits with
  | [] => Raise ZeroDivisionError
  | _ => match nth_error limits (Z.to_nat (night mod Z.of_nat (List.length limits))) with
         | Some lim => Ok (map (fun d => if Qle_bool (fst lim) d && Qltb d (snd lim) then EFin 1 else EFin 0) decs)
         | None => Raise IndexError
         end
  end.
(** AzimuthBasisFunction; [pi] is the number used for pi *)
Definition az_reward (pi tel az : Q) : Q :=
  let d := (az - tel)%Q in
  let d := (d - 2 * pi * inject_Z (Qfloor (d / (2 * pi))))%Q in
  ((if Qltb pi d then 2 * pi - d else d) / pi)%Q.
