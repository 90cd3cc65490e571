(** Nights by the calendar and visits from the consolidated database:
    /repo/rubin_scheduler/utils/dayobs.py lines 5-28 and utils/consdb.py lines 69-391, 451-480,
    583-592, 676-697, 786-797, 899-926, 1129-1261, 1340-1356.
    Numbers are reals (float rounding is not modelled), nan is [None].  A column is numeric or not;
    warnings are left out. *)
From Coq Require Import List Bool Reals ZArith String.
From Verif Require Import Base Sphere.
Import ListNotations.
Open Scope R_scope.

(** ** The calendar *)
Record date := Date { year : Z; month : Z; day : Z }.
Definition leap (y : Z) : bool := ((y mod 4 =? 0) && (negb (y mod 100 =? 0) || (y mod 400 =? 0)))%Z.
Definition mdays (y m : Z) : Z :=
  (if m =? 2 then if leap y then 29 else 28 else if (m =? 4) || (m =? 6) || (m =? 9) || (m =? 11) then 30 else 31)%Z.
Definition next_day (d : date) : date :=
  (if day d <? mdays (year d) (month d) then Date (year d) (month d) (day d + 1)
   else if month d <? 12 then Date (year d) (month d + 1) 1 else Date (year d + 1) 1 1)%Z.
Definition prev_day (d : date) : date :=
  (if 1 <? day d then Date (year d) (month d) (day d - 1)
   else if 1 <? month d then Date (year d) (month d - 1) (mdays (year d) (month d - 1)) else Date (year d - 1) 12 31)%Z.
(** The digits yyyymmdd as an integer; for a year of up to four digits the string of them is this
    number with zeros in front. *)
Definition code (d : date) : Z := (year d * 10000 + month d * 100 + day d)%Z.
(** MJD 0 is 17 November 1858. *)
Definition mjd_date (n : nat) : date := Nat.iter n next_day (Date 1858 11 17).
(** mjd2dayobs, dayobs.py lines 5-28, for times from MJD 0 on. *)
Definition mjd2dayobs (mjd offset : R) : Z := code (mjd_date (Z.to_nat (Int_part (mjd + offset)))).

(** ** The query *)
(** query_consdb, lines 105-122: [answer k] is the status and body of the k-th reply.  raise_for_status
    raises for 400 to 599 only.  The loop gets fuel. *)
Fixpoint ask {A} (answer : nat -> Z * A) (fuel k failed : nat) : res A :=
  match fuel with
  | O => Raise OutOfFuel
  | S fuel =>
      let '(status, body) := answer k in
      if (status =? 200)%Z then Ok body
      else let failed := S failed in
           if Nat.ltb 2 failed then
             if ((400 <=? status) && (status <? 600))%Z then Raise RuntimeError else ask answer fuel (S k) failed
           else ask answer fuel (S k) failed
  end.
(** consdb_visits, lines 339-341 and 385-386: whether a visit of [day_obs] is selected. *)
Definition selected (day_obs : date) (num_nights : nat) (visit_day : Z) : bool :=
  ((visit_day <=? code day_obs) && (code (Nat.iter num_nights prev_day day_obs) <? visit_day))%Z.

(** ** Columns *)
Inductive column := Numbers (l : list (option R)) | Objects (l : list (option string)).
Record table := Table { rows : nat; columns : list (string * column) }.
Definition get (t : table) (c : string) : res column :=
  match find (fun nc => String.eqb (fst nc) c) (columns t) with Some nc => Ok (snd nc) | None => Raise KeyError end.
(** _have_numeric_values, lines 175-191, with the values. *)
Definition numbers (t : table) (c : string) : option (list (option R)) :=
  match get t c with Ok (Numbers l) => Some l | _ => None end.
Definition nans (t : table) : list (option R) := repeat None (rows t).
Definition map1 (f : R -> R) (l : list (option R)) : list (option R) := map (option_map f) l.
Definition map2 (f : R -> R -> R) (l m : list (option R)) : list (option R) :=
  map (fun p => match p with (Some x, Some y) => Some (f x y) | _ => None end) (combine l m).
Definition need (t : table) (c : string) : res (list (option R)) :=
  match get t c with Ok (Numbers l) => Ok l | Ok (Objects _) => Raise TypeError | Raise e => Raise e end.

(** LSSTCamConsDBVisits.azimuth and .altitude, lines 1156-1182. *)
Definition between_ends (t : table) (c c_start c_end : string) : list (option R) :=
  match numbers t c with
  | Some l => l
  | None => match numbers t c_start with
            | Some l => match numbers t c_end with Some m => map2 (fun x y => (x + y) / 2) l m | None => l end
            | None => nans t
            end
  end.
Definition azimuth (t : table) : list (option R) := between_ends t "azimuth" "azimuth_start" "azimuth_end".
Definition altitude (t : table) : list (option R) := between_ends t "altitude" "altitude_start" "altitude_end".
(** zd and airmass, lines 583-592 and 1184-1197. *)
Definition zd (t : table) : list (option R) := map1 (fun a => 90 - a) (altitude t).
Definition airmass (t : table) : list (option R) :=
  match numbers t "airmass" with
  | Some l => l
  | None => map1 (fun z => let a_cos_zd := 470 * cos (radians z) in sqrt (a_cos_zd ^ 2 + 941) - a_cos_zd) (zd t)
  end.
(** shut_time, lines 1199-1206; [exptime] is SysEngVals().exptime. *)
Definition shut_time (exptime : R) (t : table) : list (option R) :=
  match numbers t "shut_time" with Some l => l | None => repeat (Some exptime) (rows t) end.
(** obs_midpt_mjd, lines 462-480. *)
Definition obs_midpt_mjd (exptime : R) (t : table) : res (list (option R)) :=
  match numbers t "obs_midpt_mjd" with
  | Some l => Ok l
  | None =>
      bind (need t "obs_start_mjd") (fun start =>
      match numbers t "obs_end_mjd" with
      | Some l => Ok (map2 (fun x y => (x + y) / 2) start l)
      | None => Ok (map2 (fun x y => x + (1 / 2 * y) / 86400) start (shut_time exptime t))
      end)
  end.
(** observation_id, lines 1133-1154; [clock] is obs_start as year .. second, whole seconds. *)
Definition digits (c : Z * Z * Z * Z * Z * Z) : Z :=
  let '(y, mo, d, h, mi, s) := c in (((((9 * 10000 + y) * 100 + mo) * 100 + d) * 100 + h) * 100 + mi) * 100 + s.
Definition observation_id (clock : list (Z * Z * Z * Z * Z * Z)) (t : table) : list (option R) :=
  match numbers t "visit_id" with
  | Some l => l
  | None => match numbers t "day_obs", numbers t "seq_num" with
            | Some d, Some s => map2 (fun d s => d * 10000 + s) d s
            | _, _ => map (fun c => Some (IZR (digits c))) clock
            end
  end.
(** night, lines 786-797; the start times are never null. *)
Definition night (survey_start : R) (starts : list R) : list Z :=
  match starts with
  | [] => []
  | x :: l =>
      let ref_mjd := Rmin (fold_left Rmin l x) survey_start in
      map (fun s => (Int_part (s - 1 / 2) - Int_part (ref_mjd - 1 / 2))%Z) starts
  end.
(** slew_distance, lines 676-697; [sep] is astropy's angular separation. *)
Fixpoint slews (sep : R -> R -> R -> R -> R) (prev : option (R * R)) (l : list (R * R)) : list (option R) :=
  match l with
  | [] => []
  | p :: l => (match prev with None => None | Some q => Some (degrees (sep (radians (fst q)) (radians (snd q)) (radians (fst p)) (radians (snd p)))) end) :: slews sep (Some p) l
  end.
Definition slew_distance sep (l : list (R * R)) : list (option R) := slews sep None l.
(** sky_mag_per_asec with the extinction of the LSST cameras, lines 914-926 and 1247-1261, for one
    visit; logarithms to base 10. *)
Definition log10 (x : R) : R := ln x / ln 10.
Definition extinction (zero_point sys_zp_t shut : R) : R := zero_point - (sys_zp_t + 5 / 2 * log10 shut).
Definition sky_mag_per_asec (zero_point sys_zp_t shut sky pixel_scale : R) : R :=
  let sky_zero_point := zero_point - extinction zero_point sys_zp_t shut in
  sky_zero_point - 5 / 2 * log10 (sky / pixel_scale ^ 2).
(** LATISSConsDBVisits.eff_time_m5, lines 1340-1356: the parent's, lines 995-1006, where there is a
    numeric column eff_time. *)
Definition latiss_eff_time_m5 (t : table) : res (list (option R)) :=
  match numbers t "eff_time" with Some _ => need t "eff_time_m5" | None => Ok (nans t) end.
