(** The table of visits made from the consolidated database and the observation array made of it:
    /repo/rubin_scheduler/utils/consdb.py lines 30-41, 242-251, 419-500, 516-580, 595-674, 700-797,
    800-872, 880-897, 900-1082, 1087-1360 (ConsDb.v has the other columns) and
    /repo/rubin_scheduler/utils/rotskypos.py lines 91-187.
    Numbers are reals, nan and null are [None]; the rows of the table are numbered 0, 1, .. so that
    pandas lines columns up row by row.  Warnings are left out. *)
From Coq Require Import List Bool Reals ZArith String.
From Verif Require Import Base Sphere Schema ConsDb.
Import ListNotations.
Open Scope R_scope.
Open Scope string_scope.
Open Scope list_scope.

(** ** Instruments *)
(** The four classes of lines 1104, 1264, 1277 and 1291 and the names of them (KNOWN_INSTRUMENTS). *)
Inductive instrument := LSSTCam | ComCam | ComCamSim | LATISS.
Definition name (i : instrument) : string :=
  match i with LSSTCam => "lsstcam" | ComCam => "lsstcomcam" | ComCamSim => "lsstcomcamsim" | LATISS => "latiss" end.
(** load_consdb_visits, lines 1362-1394; NotImplementedError is a RuntimeError. *)
Definition load_consdb_visits (n : string) : res instrument :=
  if negb (existsb (String.eqb n) ["lsstcam"; "lsstcomcam"; "lsstcomcamsim"; "latiss"]) then Raise RuntimeError
  else if String.eqb n "lsstcam" then Ok LSSTCam
  else if String.eqb n "lsstcomcam" then Ok ComCam
  else if String.eqb n "lsstcomcamsim" then Ok ComCamSim
  else if String.eqb n "latiss" then Ok LATISS
  else Raise RuntimeError.
Definition latiss (i : instrument) : bool := match i with LATISS => true | _ => false end.
(** The name of the telescope, lines 1100 and 1287; num_exposures, lines 1116 and 1298. *)
Definition telescope (i : instrument) : string := if latiss i then "auxtel" else "rubin".
Definition num_exposures (i : instrument) : R := 1.

(** ** The rotator (rotskypos.py) *)
Definition rmod (x m : R) : R := x - m * IZR (Int_part (x / m)).
Definition wrap_180 (x : R) : R :=
  let angle := rmod x (2 * PI) in if Rlt_dec PI angle then angle - 2 * PI else angle.
(** rotation_converter(telescope)._rotskypos2rottelpos. *)
Definition rotskypos2rottelpos (tel : string) (rotskypos pa : R) : res R :=
  if String.eqb tel "rubin" then Ok (wrap_180 (rmod (pa - rotskypos - PI / 2) (2 * PI)))
  else if String.eqb tel "auxtel" then Ok (wrap_180 (rmod (rotskypos + pa) (2 * PI)))
  else if String.eqb tel "comcam" then Ok (wrap_180 (rmod (pa - rotskypos) (2 * PI)))
  else Raise ValueError.

(** ** Outside libraries and constants *)
(** Positions of sun and moon (radians; Almanac.get_sun_moon_positions). *)
Record sunmoon := SunMoon { sun_alt : R; sun_az : R; sun_RA : R; sun_dec : R;
                            moon_alt : R; moon_az : R; moon_RA : R; moon_dec : R; moon_phase : R }.
Record env := Env {
  e_lst : R -> R;                   (* sidereal time at the site in degrees, of an MJD *)
  e_ppa : R -> R -> R -> R;         (* pseudo_parallactic_angle of RA, Dec (degrees) and MJD, degrees *)
  e_pa : R -> R -> R;               (* _approx_altaz2pa at the site, radians *)
  e_almanac : R -> sunmoon;
  e_sep : R -> R -> R -> R -> R;    (* _angular_separation, radians *)
  e_zp_t : string -> option R;      (* SysEngVals().zp_t *)
  e_exptime : R;                    (* SysEngVals().exptime *)
  e_start : R;                      (* SURVEY_START_MJD *)
  e_clock : list (Z * Z * Z * Z * Z * Z)  (* obs_start read as year .. second *)
}.

(** ** Columns *)
(** Arithmetic on a column: pandas leaves nulls out, so that a column of nulls only gives nan and
    text raises TypeError. *)
Definition arith (t : table) (c : string) : res (list (option R)) :=
  match get t c with
  | Ok (Numbers l) => Ok l
  | Ok (Objects l) => if forallb (fun s => match s with None => true | Some _ => false end) l
                      then Ok (map (fun _ => None) l) else Raise TypeError
  | Raise e => Raise e
  end.
(** A text column. *)
Definition texts (t : table) (c : string) : res (list (option string)) :=
  match get t c with Ok (Objects l) => Ok l | Ok (Numbers _) => Raise TypeError | Raise e => Raise e end.
Definition num (o : option R) : val := match o with Some x => VNum x | None => VNaN end.
Definition txt (o : option string) : val := match o with Some s => VStr s | None => VNaN end.
Definition cells (c : column) : list val := match c with Numbers l => map num l | Objects l => map txt l end.
Definition map3 (f : R -> R -> R -> R) (l m n : list (option R)) : list (option R) :=
  map (fun p => match p with ((Some x, Some y), Some z) => Some (f x y z) | _ => None end) (combine (combine l m) n).

(** band: line 517, and lines 1226-1230 for the LSST cameras; [.str.get(0)] of an empty text is nan. *)
Definition first_letter (o : option string) : option string :=
  match o with Some (String a _) => Some (String a EmptyString) | _ => None end.
Definition band (i : instrument) (t : table) : res (list (option string)) :=
  if latiss i then texts t "band"
  else bind (texts t "band") (fun b => bind (texts t "physical_filter") (fun p =>
       Ok (map (fun q => match fst q with Some s => Some s | None => first_letter (snd q) end) (combine b p)))).
(** pixel_scale, lines 1119-1126 and 1302-1316. *)
Definition pixel_scale (i : instrument) (t : table) : list (option R) :=
  match numbers t "pixel_scale" with
  | Some l => l
  | None => repeat (Some (if latiss i then 1 else 1 / 5)) (rows t)
  end.
(** shut_time, altitude, azimuth and airmass: read as they are for LATISS, lines 452-461, 505-513,
    562-581; guessed for the LSST cameras (ConsDb.v). *)
Definition shut (e : env) (i : instrument) (t : table) : res (list (option R)) :=
  if latiss i then arith t "shut_time" else Ok (shut_time (e_exptime e) t).
Definition alt (i : instrument) (t : table) : res (list (option R)) :=
  if latiss i then arith t "altitude" else Ok (altitude t).
Definition az (i : instrument) (t : table) : res (list (option R)) :=
  if latiss i then arith t "azimuth" else Ok (azimuth t).
Definition air (i : instrument) (t : table) : res (list (option R)) :=
  if latiss i then arith t "airmass" else Ok (airmass t).
(** obs_midpt_mjd, lines 462-480. *)
Definition midpt (e : env) (i : instrument) (t : table) : res (list (option R)) :=
  match numbers t "obs_midpt_mjd" with
  | Some l => Ok l
  | None => bind (arith t "obs_start_mjd") (fun start =>
            match numbers t "obs_end_mjd" with
            | Some l => Ok (map2 (fun x y => (x + y) / 2) start l)
            | None => bind (shut e i t) (fun s => Ok (map2 (fun x y => x + (1 / 2 * y) / 86400) start s))
            end)
  end.
(** Names of columns by instrument, lines 1129-1131, 1232-1246 and 1318-1338. *)
Definition zero_point_column (i : instrument) : string := if latiss i then "zero_point" else "zero_point_median".
Definition sky_bg_column (i : instrument) : string := if latiss i then "sky_bg" else "sky_bg_median".
Definition psf_area_column (i : instrument) : string := if latiss i then "psf_area" else "psf_area_median".
Definition psf_sigma_column (i : instrument) : string := if latiss i then "psf_sigma" else "psf_sigma_median".
Definition seeing_column (i : instrument) : string := if latiss i then "seeing_zenith_500nm" else "seeing_zenith_500nm_median".
(** GAUSSIAN_FWHM_OVER_SIGMA, line 32, and the extinction coefficients of lines 34-41. *)
Definition fwhm_over_sigma : R := 2 * sqrt (2 * ln 2).
Definition extinction_coefficient (b : string) : option R :=
  if String.eqb b "u" then Some (- (4582 / 10000)) else if String.eqb b "g" then Some (- (2079 / 10000))
  else if String.eqb b "r" then Some (- (1223 / 10000)) else if String.eqb b "i" then Some (- (739 / 10000))
  else if String.eqb b "z" then Some (- (574 / 10000)) else if String.eqb b "y" then Some (- (947 / 10000)) else None.
Definition by_band (f : string -> option R) (l : list (option string)) : list (option R) :=
  map (fun o => match o with Some b => f b | None => None end) l.
(** sky_e_per_pixel and fwhm_eff, lines 900-912 and 950-965: nan where there is no numeric column. *)
Definition sky_e_per_pixel (i : instrument) (t : table) : list (option R) :=
  match numbers t (sky_bg_column i) with Some l => l | None => nans t end.
Definition fwhm_eff (i : instrument) (t : table) : list (option R) :=
  match numbers t (psf_area_column i) with
  | Some l => map2 (fun p a => 663 / 1000 * p * sqrt a) (pixel_scale i t) l
  | None => nans t
  end.
(** fwhm_geom and fwhm_500, lines 967-993. *)
Definition fwhm_geom (i : instrument) (t : table) : res (list (option R)) :=
  bind (arith t (psf_sigma_column i)) (fun l => Ok (map2 (fun s p => s * fwhm_over_sigma * p) l (pixel_scale i t))).
Definition fwhm_500 (i : instrument) (t : table) : res (list (option R)) :=
  bind (arith t (seeing_column i)) (fun l => Ok (map2 (fun s p => s * fwhm_over_sigma * p) l (pixel_scale i t))).
(** sky_mag_per_asec, lines 914-926, with the extinction of lines 527-559 (LATISS) or 1247-1261. *)
Definition extinctions (e : env) (i : instrument) (t : table) : res (list (option R)) :=
  bind (band i t) (fun b =>
  if latiss i then bind (air i t) (fun a => Ok (map2 (fun a k => a * k + 0) a (by_band extinction_coefficient b)))
  else bind (shut e i t) (fun s => bind (arith t (zero_point_column i)) (fun zp =>
       Ok (map3 (fun z k s => extinction z k s) zp (by_band (e_zp_t e) b) s)))).
Definition sky_mag (e : env) (i : instrument) (t : table) : res (list (option R)) :=
  bind (arith t (zero_point_column i)) (fun zp => bind (extinctions e i t) (fun x =>
  Ok (map2 (fun z l => z - 5 / 2 * l) (map2 Rminus zp x)
           (map2 (fun s p => log10 (s / p ^ 2)) (sky_e_per_pixel i t) (pixel_scale i t))))).
(** eff_time_m5, lines 995-1006, 1208-1224 and 1340-1356. *)
Definition ref_mag (b : string) : option R :=
  if String.eqb b "u" then Some (2370 / 100) else if String.eqb b "g" then Some (2497 / 100)
  else if String.eqb b "r" then Some (2452 / 100) else if String.eqb b "i" then Some (2413 / 100)
  else if String.eqb b "z" then Some (2356 / 100) else if String.eqb b "y" then Some (2255 / 100) else None.
Definition eff_time_m5 (i : instrument) (t : table) : res (list val) :=
  if latiss i then
    match numbers t "eff_time" with Some _ => bind (get t "eff_time_m5") (fun c => Ok (cells c)) | None => Ok (map num (nans t)) end
  else match numbers t "eff_time_m5" with
       | Some l => Ok (map num l)
       | None => match numbers t "eff_time_median" with
                 | Some l => bind (band i t) (fun b => Ok (map num (map2 (fun m s => m + 5 / 4 * log10 (s / 30)) (by_band ref_mag b) l)))
                 | None => Ok (map num (nans t))
                 end
       end.
(** note and the three like it, lines 595-653: empty text where there is no such column. *)
Definition text_or_empty (t : table) (c : string) : list val :=
  match get t c with Ok x => cells x | Raise _ => repeat (VStr "") (rows t) end.
(** observation_id, lines 405-417 and 1133-1154. *)
Definition ids (e : env) (i : instrument) (t : table) : res (list val) :=
  if latiss i then bind (get t "visit_id") (fun c => Ok (cells c)) else Ok (map num (observation_id (e_clock e) t)).
(** night, lines 786-797; a null start cannot be made an integer. *)
Fixpoint all_some (l : list (option R)) : res (list R) :=
  match l with
  | [] => Ok []
  | None :: _ => Raise ValueError
  | Some x :: r => bind (all_some r) (fun q => Ok (x :: q))
  end.
(** rot_tel_pos, lines 755-766. *)
Fixpoint rot_tels (tel : string) (l : list (option R * option R)) : res (list (option R)) :=
  match l with
  | [] => Ok []
  | (Some s, Some p) :: r => bind (rotskypos2rottelpos tel (Sphere.radians s) (Sphere.radians p)) (fun x =>
                             bind (rot_tels tel r) (fun q => Ok (Some (Sphere.degrees x) :: q)))
  | _ :: r => bind (rot_tels tel r) (fun q => Ok (None :: q))
  end.
(** sun_moon_positions, lines 800-820, in degrees but for the phase. *)
Definition in_degrees (f : sunmoon -> R) (l : list (option sunmoon)) : list (option R) :=
  map (option_map (fun s => Sphere.degrees (f s))) l.

(** ** opsim, lines 1009-1071 *)
Definition pairs (l m : list (option R)) : list (R * R) :=
  map (fun p => match p with (Some x, Some y) => (x, y) | _ => (0, 0) end) (combine l m).
Definition opsim (e : env) (i : instrument) (t : table) : res (list (string * list val)) :=
  let nan := repeat VNaN (rows t) in
  bind (ids e i t) (fun observation_id =>
  bind (arith t "s_ra") (fun ra =>
  bind (arith t "s_dec") (fun decl =>
  bind (arith t "obs_start_mjd") (fun start =>
  bind (shut e i t) (fun shut_time =>
  bind (band i t) (fun band =>
  bind (arith t "sky_rotation") (fun sky_rotation =>
  bind (air i t) (fun airmass =>
  bind (fwhm_500 i t) (fun fwhm_500 =>
  bind (fwhm_geom i t) (fun fwhm_geom =>
  bind (sky_mag e i t) (fun sky =>
  bind (all_some start) (fun starts =>
  bind (arith t "obs_end_mjd") (fun ends =>
  bind (eff_time_m5 i t) (fun depth =>
  bind (alt i t) (fun altitude =>
  bind (az i t) (fun azimuth =>
  bind (midpt e i t) (fun mid =>
  bind (get t "target_name") (fun target_name =>
  let ppa := map3 (e_ppa e) ra decl start in
  bind (rot_tels (telescope i) (combine sky_rotation ppa)) (fun rot_tel =>
  bind (get t "obs_start") (fun obs_start =>
  let sm := map (option_map (e_almanac e)) mid in
  let away ra2 dec2 :=
    map1 Sphere.degrees
      (map (fun p => match p with ((Some a, Some d), (Some x, Some y)) =>
                       Some (e_sep e (Sphere.radians a) (Sphere.radians d) (Sphere.radians x) (Sphere.radians y)) | _ => None end)
           (combine (combine ra decl) (combine ra2 dec2))) in
  Ok [ ("observationId", observation_id);
       ("fieldRA", map num ra);
       ("fieldDec", map num decl);
       ("observationStartMJD", map num start);
       ("flush_by_mjd", nan);
       ("visitExposureTime", map num shut_time);
       ("band", map txt band);
       ("rotSkyPos", map num sky_rotation);
       ("rotSkyPos_desired", nan);
       ("numExposures", repeat (VNum (num_exposures i)) (rows t));
       ("airmass", map num airmass);
       ("seeingFwhm500", map num fwhm_500);
       ("seeingFwhmEff", map num (fwhm_eff i t));
       ("seeingFwhmGeom", map num fwhm_geom);
       ("skyBrightness", map num sky);
       ("night", map (fun n => VNum (IZR n)) (night (e_start e) starts));
       ("slewTime", nan);
       ("visitTime", map num (map2 (fun s n => (n - s) * 24 * 60 * 60) start ends));
       ("slewDistance", map num (slew_distance (e_sep e) (pairs ra decl)));
       ("fiveSigmaDepth", depth);
       ("altitude", map num altitude);
       ("azimuth", map num azimuth);
       ("paraAngle", map num (map2 (fun a z => Sphere.degrees (e_pa e (Sphere.radians a) (Sphere.radians z))) altitude azimuth));
       ("psudoParaAngle", map num ppa);
       ("cloud", nan);
       ("moonAlt", map num (in_degrees moon_alt sm));
       ("sunAlt", map num (in_degrees sun_alt sm));
       ("note", text_or_empty t "note");
       ("scheduler_note", text_or_empty t "scheduler_note");
       ("target_name", cells target_name);
       ("observationStartLST", map num (map1 (e_lst e) start));
       ("rotTelPos", map num rot_tel);
       ("rotTelPos_backup", nan);
       ("moonAz", map num (in_degrees moon_az sm));
       ("sunAz", map num (in_degrees sun_az sm));
       ("sunRA", map num (in_degrees sun_RA sm));
       ("sunDec", map num (in_degrees sun_dec sm));
       ("moonRA", map num (in_degrees moon_RA sm));
       ("moonDec", map num (in_degrees moon_dec sm));
       ("moonDistance", map num (away (in_degrees moon_RA sm) (in_degrees moon_dec sm)));
       ("solarElong", map num (away (in_degrees sun_RA sm) (in_degrees sun_dec sm)));
       ("moonPhase", map num (map (option_map moon_phase) sm));
       ("cummTelAz", nan);
       ("observation_reason", text_or_empty t "observation_reason");
       ("science_program", text_or_empty t "science_program");
       ("start_date", cells obs_start) ])))))))))))))))))))).

(** obs, lines 1074-1082: the array, its columns by name; [None] for a column left as np.empty made it. *)
Definition obs (e : env) (i : instrument) (t : table) : res (list (string * option (list val))) :=
  bind (opsim e i t) (fun d => Ok (opsim2obs convert_dict back_dict rad2deg hours2deg obs_names d)).
