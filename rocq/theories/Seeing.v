(** Model of delivered seeing and limiting depth, over the reals.
    /repo/rubin_scheduler/site_models/seeing_model.py,
    /repo/rubin_scheduler/utils/m5_flat_sed.py,
    /repo/rubin_scheduler/utils/sys_eng_vals.py,
    /repo/rubin_scheduler/skybrightness_pre/dark_sky.py and the depth reward of
    /repo/rubin_scheduler/scheduler/basis_functions/basis_functions.py.
    Rounding of floats is not modelled. *)
From Coq Require Import List String Reals Lra.
From Verif Require Import Base.
Import ListNotations.
Open Scope R_scope.

(** [np.log10] and [np.power] with positive arguments. *)
Definition log10 (x : R) : R := ln x / ln 10.
Definition np_power (x p : R) : R := Rpower x p.

(** What [SeeingModel.__init__] keeps (seeing_model.py 48-77). *)
Record smodel := mkSM { sm_bands : list string; sm_waves : list R; sm_tel : R; sm_opt : R; sm_cam : R; sm_raw : R }.

(** [_set_fwhm_zenith_system] lines 88-96. *)
Definition system_zenith (m : smodel) : R := sqrt ((sm_tel m)^2 + (sm_opt m)^2 + (sm_cam m)^2).

(** [fwhm_eff_to_fwhm_geom] lines 153-165 and [fwhm_geom_to_fwhm_eff] 167-179. *)
Definition eff_to_geom (e : R) : R := 822 / 1000 * e + 52 / 1000.
Definition geom_to_eff (g : R) : R := (g - 52 / 1000) / (822 / 1000).

(** Line 146: the two parts in quadrature. *)
Definition combine_fwhm (sys atmo : R) : R := 116 / 100 * sqrt (sys^2 + 104 / 100 * atmo^2).

(** [__call__] lines 131-150 with one airmass: a value per band. *)
Definition call_scalar (m : smodel) (fwhm_z airmass : R) : list R * list R :=
  let ac := np_power airmass (6 / 10) in
  let sys := system_zenith m * ac in
  let eff := map (fun w => combine_fwhm sys (fwhm_z * np_power (sm_raw m / w) (3 / 10) * ac)) (sm_waves m) in
  (eff, map eff_to_geom eff).

(** The same with an array of airmasses: [np.outer] gives a row per band. *)
Definition outer (u v : list R) : list (list R) := map (fun a => map (fun b => a * b) v) u.
Definition zip2 (f : R -> R -> R) (a b : list (list R)) : list (list R) :=
  map (fun p => map (fun q => f (fst q) (snd q)) (List.combine (fst p) (snd p))) (List.combine a b).
Definition call_array (m : smodel) (fwhm_z : R) (airmass : list R) : list (list R) * list (list R) :=
  let ac := map (fun x => np_power x (6 / 10)) airmass in
  let wc := map (fun w => np_power (sm_raw m / w) (3 / 10)) (sm_waves m) in
  let sys := map (map (fun x => system_zenith m * x)) (outer (map (fun _ => 1) wc) ac) in
  let atmo := map (map (fun x => fwhm_z * x)) (outer wc ac) in
  let eff := zip2 combine_fwhm sys atmo in
  (eff, map (map eff_to_geom) eff).

(** Values of a band: [cm], [d_cm_infinity], [k_atm] and [sky_mag] of
    [SysEngVals] (sys_eng_vals.py 30-70), and the exposure time behind them (71). *)
Record bvals := mkBV { b_cm : R; b_dcm : R; b_k : R; b_sky : R; b_wave : R }.
Definition sev_exptime : R := 30.
Open Scope string_scope.
Definition sev (band : string) : option bvals :=
  if String.eqb band "u" then Some (mkBV (22967681 / 1000000) (543325 / 1000000) (470116 / 1000000) (23051983 / 1000000) (372354597 / 1000000))
  else if String.eqb band "g" then Some (mkBV (24582309 / 1000000) (88310 / 1000000) (212949 / 1000000) (22253839 / 1000000) (480687954 / 1000000))
  else if String.eqb band "r" then Some (mkBV (24602134 / 1000000) (43438 / 1000000) (126369 / 1000000) (21197579 / 1000000) (622146782 / 1000000))
  else if String.eqb band "i" then Some (mkBV (24541152 / 1000000) (27510 / 1000000) (95764 / 1000000) (20462795 / 1000000) (755898675 / 1000000))
  else if String.eqb band "z" then Some (mkBV (24371077 / 1000000) (18530 / 1000000) (68417 / 1000000) (19606305 / 1000000) (867965175 / 1000000))
  else if String.eqb band "y" then Some (mkBV (23840175 / 1000000) (16283 / 1000000) (171009 / 1000000) (18601512 / 1000000) (975343548 / 1000000))
  else None.
Close Scope string_scope.

(** [SeeingModel(band_list=...)] with the other arguments left out: wavelengths
    of [SysEngVals] (lines 66-68), [KeyError] for an unknown band. *)
Fixpoint sev_waves (bands : list string) : res (list R) :=
  match bands with
  | [] => Ok []
  | b :: r => match sev b with
              | None => Raise KeyError
              | Some v => bind (sev_waves r) (fun w => Ok (b_wave v :: w))
              end
  end.
Definition default_model (bands : list string) : res smodel :=
  bind (sev_waves bands) (fun w => Ok (mkSM bands w (25 / 100) (8 / 100) (30 / 100) 500)).

(** [m5_scale] lines 58-78. *)
Definition m5_scale (exp_time : R) (nexp : nat) (airmass fwhm_eff musky dark_sky_mag cm d_cm_infinity k_atm tau_cloud base_exp_time : R) : R :=
  let tscale := exp_time / base_exp_time * np_power 10 (- (4 / 10) * (musky - dark_sky_mag)) in
  let d_cm := d_cm_infinity - 125 / 100 * log10 (1 + (np_power 10 (8 / 10 * d_cm_infinity) - 1) / tscale) in
  let m5 := cm + d_cm + 50 / 100 * (musky - 21) + 25 / 10 * log10 (7 / 10 / fwhm_eff) + 125 / 100 * log10 (exp_time / 30)
            - k_atm * (airmass - 1) - 11 / 10 * tau_cloud in
  if Nat.ltb 1 nexp then 125 / 100 * log10 (INR nexp * np_power 10 (8 / 10 * m5)) else m5.

(** [m5_flat_sed] lines 124-158. *)
Definition m5_flat_sed (band : string) (musky fwhm_eff exp_time airmass : R) (nexp : nat) (tau_cloud : R) : res R :=
  match sev band with
  | None => Raise KeyError
  | Some v =>
      let tscale := exp_time / sev_exptime * np_power 10 (- (4 / 10) * (musky - b_sky v)) in
      let d_cm := b_dcm v - 125 / 100 * log10 (1 + (np_power 10 (8 / 10 * b_dcm v) - 1) / tscale) in
      let m5 := b_cm v + d_cm + 50 / 100 * (musky - 21) + 25 / 10 * log10 (7 / 10 / fwhm_eff) + 125 / 100 * log10 (exp_time / 30)
                - b_k v * (airmass - 1) - 11 / 10 * tau_cloud in
      Ok (if Nat.ltb 1 nexp then 125 / 100 * log10 (INR nexp * np_power 10 (8 / 10 * m5)) else m5)
  end.

(** [dark_m5] at one pixel (dark_sky.py 62-78): [ds] is the darkest sky there;
    [None] is [np.nan]. *)
Definition dark_m5 (ds dec : R) (band : string) (lat fiducial exptime : R) (nexp : nat) : res (option R) :=
  let airmass_min := 1 / cos (Rabs (dec - lat)) in
  if Rlt_dec airmass_min 0 then Ok None
  else bind (default_model [band]) (fun sm =>
       match fst (call_scalar sm fiducial airmass_min) with
       | e :: _ => bind (m5_flat_sed band ds e exptime airmass_min nexp 0) (fun d => Ok (Some d))
       | [] => Raise IndexError
       end).

(** Depth of a pixel in the conditions: [ModelObservatory.return_conditions] sets
    the seeing (model_observatory.py 395-406), [Conditions.calc_airmass]
    (conditions.py 417-426) and [calc_m5_depth] (535-546). *)
Definition pixel_airmass (alt : R) : R := 1 / cos (PI / 2 - alt).
Definition pixel_depth (band : string) (sky fwhm_500 exptime alt : R) : res R :=
  bind (default_model [band]) (fun sm =>
  match fst (call_scalar sm fwhm_500 (pixel_airmass alt)) with
  | e :: _ => m5_flat_sed band sky e exptime (pixel_airmass alt) 1 0
  | [] => Raise IndexError
  end).

(** [M5DiffBasisFunction._calc_value] at one pixel (basis_functions.py 813-827). *)
Definition m5diff (depth : R) (dark : option R) (extinction : option R) : option R :=
  match dark with
  | None => None
  | Some d => Some (match extinction with None => depth - d | Some x => depth - d - x end)
  end.

(** Depth written to a completed visit (model_observatory.py 520-551). *)
Definition visit_depth (band : string) (sky fwhm_500 exptime alt : R) (nexp : nat) (extinction : option R) : res R :=
  bind (default_model [band]) (fun sm =>
  match fst (call_scalar sm fwhm_500 (pixel_airmass alt)) with
  | e :: _ => bind (m5_flat_sed band sky e (exptime / INR nexp) (pixel_airmass alt) nexp 0) (fun d =>
              Ok (match extinction with None => d | Some x => d - x end))
  | [] => Raise IndexError
  end).
