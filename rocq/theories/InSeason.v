(** The rewards that ask the conditions for the season:
    /repo/rubin_scheduler/scheduler/basis_functions/basis_functions.py
    CadenceInSeasonBasisFunction (506-551), SeasonCoverageBasisFunction (554-638) and
    the class CadenceEnhanceTrapezoidBasisFunction (1083-1176; its curve is in Cadence.v).
    Simplifications: exact rationals with an arbitrary half turn; the comparisons through
    IntRounded are exact; every pixel was visited before, so that no lag is NaN; the
    update of the season feature is an arbitrary outcome; the whole sky is asked for. *)
From Coq Require Import List ZArith QArith Qabs Qround Bool String.
From Verif Require Import Base Script.
Import ListNotations.
Open Scope Q_scope.

(** The attributes a Conditions object has: features/conditions.py, everything __init__
    and _init_attributes set (lines 240-360), and the methods and properties. *)
Definition cond_names : list string := [
   "HA"; "_HA"; "__init__"; "__repr__"; "__str__"; "_airmass"; "_alt"; "_az"; "_az_to_antisun"; "_az_to_sun";
   "_current_filter"; "_fwhm_eff"; "_init_attributes"; "_lmst"; "_m5_depth"; "_mjd"; "_mounted_filters";
   "_night"; "_pa"; "_repr_markdown_"; "_skybrightness"; "_slewtime"; "_solar_elongation"; "_wind_pressure";
   "airmass"; "alt"; "alt_az_shadow_mask"; "az"; "az_to_antisun"; "az_to_sun"; "bulk_cloud"; "calc_airmass";
   "calc_alt_az"; "calc_az_to_antisun"; "calc_az_to_sun"; "calc_ha"; "calc_m5_depth"; "calc_night"; "calc_pa";
   "calc_solar_elongation"; "calc_wind_pressure"; "cloud_maps"; "clouds"; "cumulative_azimuth_rad";
   "current_band"; "current_filter"; "dec"; "exptime"; "future_alt_az"; "fwhm_eff"; "lmst"; "m5_depth"; "mjd";
   "moon_alt"; "moon_az"; "moon_dec"; "moon_phase"; "moon_phase_sunset"; "moon_ra"; "moonrise"; "moonset";
   "mounted_bands"; "mounted_filters"; "nan_map"; "night"; "nside"; "pa"; "planet_positions"; "queue"; "ra";
   "rot_tel_pos"; "scheduled_observations"; "set_attrs"; "set_auxtel_info"; "set_maintel_info"; "site";
   "sky_alt_limits"; "sky_az_limits"; "skybrightness"; "slewtime"; "solar_elongation"; "sun_alt"; "sun_az";
   "sun_dec"; "sun_n12_rising"; "sun_n12_setting"; "sun_n18_rising"; "sun_n18_setting"; "sun_ra"; "sunrise";
   "sunset"; "survey_start_mjd"; "targets_of_opportunity"; "tel_alt"; "tel_alt_limits"; "tel_az";
   "tel_az_limits"; "tel_dec"; "tel_ra"; "wind_direction"; "wind_pressure"; "wind_speed"; "zeros_map"]%string.
(** conditions.n, with what the attributes hold. *)
Definition cond_get {A} (names : list string) (value : string -> A) (n : string) : res A :=
  if existsb (String.eqb n) names then Ok (value n) else Raise AttributeError.

Section Half.
Variable p : Q.   (* half a turn *)
(** Lines 536-540 and 1151-1156. *)
Definition to_mid_season (sun ra : Q) : Q :=
  let mid := Qmod (sun + p) (2 * p) in
  let a := Qabs (ra - mid) in
  if Qltb p a then 2 * p - a else a.

(** Lines 534-551; for each pixel its RA, the mjd of its last visit and drive_map. *)
Record spot : Type := mkSpot { sp_ra : Q; sp_last : Q; sp_drive : Z }.
Definition in_season (names : list string) (value : string -> Q) (mjd cadence span : Q) (sky : list spot) : res (list Q) :=
  bind (cond_get names value "sunRA") (fun sun =>
  Ok (map (fun s => if Qle_bool cadence (mjd - sp_last s) && Z.eqb (sp_drive s) 1 && Qltb (to_mid_season sun (sp_ra s)) (span / 12 * p)
                    then 1 else 0) sky)).

(** Lines 616-638; for each pixel the footprint and the visits of its season. *)
Definition coverage (names : list string) (value : string -> list Q) (upd : res unit) (n_per : Q) (frac : Q) (sky : list (Q * Q)) : res (list Q) :=
  bind upd (fun _ => bind (cond_get names value "season") (fun season =>
  Ok (map (fun fs => let '((foot, n), s) := fs in
        if Qltb 0 foot && Qltb n n_per && Qltb frac (s - inject_Z (Qfloor s)) then 1 else 0) (combine sky season)))).

(** Line 1124: None / 12. *)
Definition trap_init (season_limit : option Q) : res Q :=
  match season_limit with None => Raise TypeError | Some h => Ok (h / 12 * p) end.
(** Lines 1158-1176: the curve of the days since the last visit, in the pixels to which it
    applies, and nothing out of season. *)
Definition trap_call (names : list string) (value : string -> Q) (curve : Q -> Q) (limit mjd : Q) (sky : list (spot * bool)) : res (list Q) :=
  bind (cond_get names value "sunRA") (fun sun =>
  Ok (map (fun sa => let '(s, app) := sa in
        if Qltb limit (to_mid_season sun (sp_ra s)) then 0 else if app : bool then curve (mjd - sp_last s) else 0) sky)).
End Half.
