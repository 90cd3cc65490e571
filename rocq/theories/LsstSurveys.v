(** The surveys of the baseline:
    /repo/rubin_scheduler/scheduler/example/lsst_surveys.py.
    A survey is the record of what its constructor is given; a basis function or detailer is its class with the
    arguments that differ between calls (footprints are left out, the rest have the default of the class).
    %i and :.1f of a number are the parameters [fi] and [f1]. Numbers are rational. *)
From Coq Require Import List Bool QArith ZArith String.
From Verif Require Import Base.
Import ListNotations.
Open Scope Q_scope.
Open Scope string_scope.

Definition DEFAULT_NSIDE : Z := 32. (* utils/constants.py line 7 *)
Definition U_NEXP : Z := 1.         (* line 27 *)

Inductive bfn :=
| MoonAvoidance (nside : Z) (distance : Q)
| PlanetMask (nside : Z)
| AvoidDirectWind (nside : Z) (wind_speed_maximum : Q)
| AltAzShadowMask (nside : Z) (min_alt max_alt min_az max_az shadow_minutes : Q)
| AltAzShadowTimeLimited (nside : Z) (min_alt max_alt min_az max_az shadow_minutes time_to_sun : Q)
| M5Diff (band : string) (nside : Z)
| Footprint (band : string) (nside : Z) (seeing : option Q)
| Slewtime (band : string) (nside : Z)
| StrictBand (band : string)
| BandChange (band : string)
| BandLoaded (bands : list string)
| VisitRepeat (nside : Z) (gap_max : Q)
| NGoodSeeing (band : string) (nside : Z) (start : Q) (n : Z) (seeing penalty : Q)
| TimeToScheduled (minutes : Q)
| TimeToTwilight (minutes : Q) (alt_limit : Z)
| NotTwilight
| RevHaMask (ha_min ha_max : Q) (nside : Z)
| HaMask (ha_min ha_max : Q) (nside : Z)
| NInNight (n : Z) (nside : Z)
| MoonAltLimit (alt : Q)
| OnlyBeforeNight (night : Z)
| MaskPoorSeeing (band : string) (nside : Z) (seeing : Q)
| MaskAfterNObs (n : Z) (band : string) (nside : Z) (seeing : Q)
| AfterEveningTwi (minutes : Q)
| NightModulo (pattern : option (list bool))
| OnceInNight (notes : list string)
| BandDist (band : string)
| NearSunHighAirmass (nside : Z) (max_airmass : Q)
| SolarElongationMask (nside : Z) (max_elong : Q)
| CloseToTwilight (sun_alt minutes : Q).

Inductive detailer :=
| CameraRot (min_rot max_rot : Q)
| CloseAlt
| BandNexp (band : string) (nexp : Z) (exptime : Q)
| LabelRegions
| FlushForSched
| TakeAsPairs (band : string)
| TwilightTriple (slew : Q) (n_repeat : Z)
| RandomBand (bands : list string).

Record survey := Survey {
  s_bfs : list (bfn * Q); s_band1 : string; s_band2 : option string; s_exptime : Q; s_nexp : Z; s_pair_time : Q;
  s_name : string; s_reason : string; s_ignore : list string; s_detailers : list detailer; s_nside : Z;
  s_area : option Q; s_change : Q; s_program : string }.

(** The dictionary safety_mask_params: the keyword arguments of safety_masks that are given. *)
Record params := Params {
  p_nside : option Z; p_moon : option Q; p_wind : option Q; p_min_alt : option Q; p_max_alt : option Q; p_min_az : option Q;
  p_max_az : option Q; p_shadow : option Q; p_min_az_sunrise : option Q; p_max_az_sunrise : option Q; p_sunrise : option Q;
  p_limited : option bool }.
Definition none : params := Params None None None None None None None None None None None None.
Definition with_nside (n : Z) (p : params) : params :=
  Params (Some n) (p_moon p) (p_wind p) (p_min_alt p) (p_max_alt p) (p_min_az p) (p_max_az p) (p_shadow p) (p_min_az_sunrise p)
         (p_max_az_sunrise p) (p_sunrise p) (p_limited p).
Definition with_shadow (x : Q) (p : params) : params :=
  Params (p_nside p) (p_moon p) (p_wind p) (p_min_alt p) (p_max_alt p) (p_min_az p) (p_max_az p) (Some x) (p_min_az_sunrise p)
         (p_max_az_sunrise p) (p_sunrise p) (p_limited p).
Definition with_max_alt (x : Q) (p : params) : params :=
  Params (p_nside p) (p_moon p) (p_wind p) (p_min_alt p) (Some x) (p_min_az p) (p_max_az p) (p_shadow p) (p_min_az_sunrise p)
         (p_max_az_sunrise p) (p_sunrise p) (p_limited p).
Definition dflt {A} (d : A) (o : option A) : A := match o with Some x => x | None => d end.

(** safety_masks, lines 46-148. *)
Definition safety_masks (p : params) : list bfn :=
  let nside := dflt DEFAULT_NSIDE (p_nside p) in
  let min_alt := dflt 20 (p_min_alt p) in
  let max_alt := dflt (173#2) (p_max_alt p) in
  let shadow := dflt 70 (p_shadow p) in
  [MoonAvoidance nside (dflt 30 (p_moon p)); PlanetMask nside; AvoidDirectWind nside (dflt 20 (p_wind p));
   AltAzShadowMask nside min_alt max_alt (dflt 0 (p_min_az p)) (dflt 360 (p_max_az p)) shadow]
  ++ (if dflt true (p_limited p)
      then [AltAzShadowTimeLimited nside min_alt max_alt (dflt 120 (p_min_az_sunrise p)) (dflt 290 (p_max_az_sunrise p)) shadow
              (dflt 3 (p_sunrise p) + shadow / 60)]
      else []).

Record weights := Weights { w_m5 : Q; w_footprint : Q; w_slew : Q; w_stay : Q }.
(** standard_bf, lines 151-298. *)
Definition standard_bf (nside : Z) (band : string) (band2 : option string) (w : weights) (strict : bool) (seeing : option Q) : list (bfn * Q) :=
  (match band2 with
   | Some b => [(M5Diff band nside, w_m5 w / 2); (M5Diff b nside, w_m5 w / 2)]
   | None => [(M5Diff band nside, w_m5 w)]
   end)
  ++ (match band2 with
      | Some b => [(Footprint band nside seeing, w_footprint w / 2); (Footprint b nside seeing, w_footprint w / 2)]
      | None => [(Footprint band nside seeing, w_footprint w)]
      end)
  ++ [(Slewtime band nside, w_slew w)]
  ++ (if strict then [(StrictBand band, w_stay w)] else [(BandChange band, w_stay w)])
  ++ [(BandLoaded (match band2 with Some b => [band; b] | None => [band] end), 0)].

(** The keyword arguments for BlobSurvey: of the dictionary only nside and band_change_approx are kept
    (line 34-43 are the values when it is None; without the key the BlobSurvey has the same values). *)
Record blob_params := BlobParams { b_nside : option Z; b_change : option Q }.
Definition blob_nside (o : option blob_params) : Z := match o with None => DEFAULT_NSIDE | Some b => dflt DEFAULT_NSIDE (b_nside b) end.
Definition blob_change (o : option blob_params) : Q := match o with None => 140 | Some b => dflt 140 (b_change b) end.

(** The arguments the generators have in common. *)
Record args := Args {
  nside : Z; rot_limits : Q * Q; exptime : Q; nexp : Z; u_exptime : Q; u_nexp : Z; pair_time : Q; pair_pad : Q; max_alt : Q;
  ws : weights; repeat_weight : Q; ignore : list string; program : string; night_pattern : option (list bool);
  scheduled_respect : Q; blob : option blob_params; safety : option params }.

Definition at0 (l : list bfn) : list (bfn * Q) := map (fun m => (m, 0)) l.
Definition base_params (nside : Z) (o : option params) : params := match o with None => with_nside nside none | Some p => p end.
(** Lines 406-408 and the like: at least [need] minutes of shadow. *)
Definition at_least (need : Q) (p : params) : params :=
  match p_shadow p with
  | None => with_shadow need p
  | Some x => if Qle_bool need x then p else with_shadow need p
  end.
Definition rot (a : args) : detailer := CameraRot (let (x, y) := rot_limits a in if Qle_bool x y then x else y)
                                                  (let (x, y) := rot_limits a in if Qle_bool x y then y else x).
Definition is_u (b : string) : bool := String.eqb b "u".
Definition member (b : string) (l : list string) : bool := existsb (String.eqb b) l.
Definition lookup (d : list (string * Z)) (b : string) : res Z :=
  match find (fun kv => String.eqb (fst kv) b) d with Some kv => Ok (snd kv) | None => Raise KeyError end.
Fixpoint collect {A B} (f : A -> res B) (l : list A) : res (list B) :=
  match l with [] => Ok [] | x :: l => bind (f x) (fun y => bind (collect f l) (fun ys => Ok (y :: ys))) end.
Definition opt_band (b : option string) : string := match b with Some b => b | None => "" end.

Section Names.
Variables fi f1 : Q -> string.

(** gen_template_surveys, lines 301-514; n_obs_template is given here with its default (lines 395-396). *)
Definition gen_template_surveys (a : args) (seeing : Q) (band1s dark_only : list string) (n_obs : option (list (string * Z))) (area ha_min ha_max : Q) : res (list survey) :=
  let n_obs := dflt [("u", 4%Z); ("g", 4%Z); ("r", 4%Z); ("i", 4%Z); ("z", 4%Z); ("y", 4%Z)] n_obs in
  let p := at_least (pair_time a) (base_params (nside a) (safety a)) in
  collect (fun band =>
    bind (lookup n_obs band) (fun n =>
    Ok (Survey
      (standard_bf (nside a) band None (ws a) true (Some seeing)
       ++ [(AltAzShadowMask (nside a) 20 (max_alt a) 0 360 (pair_time a), 0);
           (TimeToTwilight (pair_time a) 18, 0); (NotTwilight, 0); (RevHaMask ha_min ha_max (nside a), 0); (NInNight 1 (nside a), 0)]
       ++ (if member band dark_only then [(MoonAltLimit (-5), 0)] else [])
       ++ [(OnlyBeforeNight 366, 0); (MaskPoorSeeing band (nside a) seeing, 0); (MaskAfterNObs n band (nside a) seeing, 0)]
       ++ at0 (safety_masks p))
      band None (exptime a) (nexp a) (pair_time a) ("templates, " ++ band) ("template_blob_" ++ band ++ "_" ++ f1 (pair_time a)) (ignore a)
      [rot a; CloseAlt; BandNexp "u" (u_nexp a) (u_exptime a); LabelRegions] (blob_nside (blob a)) (Some area) (blob_change (blob a)) (program a)))) band1s.

Definition times_needed (a : args) (band2 : option string) : Q := match band2 with None => pair_time a | Some _ => pair_time a * 2 end.
Definition pair_shadow (a : args) : Q := pair_time a * 2 + pair_pad a.
Definition pairs (band1s : list string) (band2s : list (option string)) : list (string * option string) := combine band1s band2s.
(** The text None that an f-string gives for no second band, line 717. *)
Definition f_band (b : option string) : string := match b with Some b => b | None => "None" end.

(** blob_for_long, lines 517-737; the reason is kept from one turn of the loop to the next (lines 716-717). *)
Definition long_survey (a : args) (ha_min ha_max time_after : Q) (names : list string) (reason : string) (bb : string * option string) : survey :=
  let (band, band2) := bb in
  let p := at_least (pair_shadow a) (base_params (nside a) (safety a)) in
  Survey
    (standard_bf (nside a) band band2 (ws a) true None
     ++ [(TimeToScheduled (scheduled_respect a), 0);
         (AltAzShadowMask (nside a) 20 (max_alt a) 0 360 (pair_shadow a), 0);
         (TimeToTwilight (times_needed a band2) 18, 0); (NotTwilight, 0); (AfterEveningTwi time_after, 0);
         (HaMask ha_min ha_max (nside a), 0); (NightModulo (night_pattern a), 0); (OnceInNight names, 0)]
     ++ at0 (safety_masks p))
    band band2 (exptime a) (nexp a) (pair_time a) ("blob_long, " ++ band ++ opt_band band2) reason (ignore a)
    ([rot a; CloseAlt; BandNexp "u" (u_nexp a) (u_exptime a); LabelRegions] ++ match band2 with Some b => [TakeAsPairs b] | None => [] end)
    (blob_nside (blob a)) None (blob_change (blob a)) (program a).
Fixpoint long_loop (a : args) (ha_min ha_max time_after : Q) (names : list string) (reason : option string) (l : list (string * option string)) : list survey :=
  match l with
  | [] => []
  | bb :: l =>
      let r := match reason with Some r => r | None => "triplet_pairs_" ++ fst bb ++ f_band (snd bb) ++ "_" ++ f1 (pair_time a) end in
      long_survey a ha_min ha_max time_after names r bb :: long_loop a ha_min ha_max time_after names (Some r) l
  end.
Definition blob_for_long (a : args) (band1s : list string) (band2s : list (option string)) (ha_min ha_max time_after : Q) (names : list string) (reason : option string) : list survey :=
  long_loop a ha_min ha_max time_after names reason (pairs band1s band2s).

(** gen_long_gaps_survey, lines 740-876: each survey is a blob and the masks of a scripted survey. *)
Definition scripted_params (a : args) : params :=
  match safety a with
  | None => with_shadow (pair_time a) (with_nside (nside a) none)
  | Some p => at_least (pair_time a) (match p_nside p with None => with_nside (nside a) p | Some _ => p end)
  end.
Definition long_pairs : list (string * string) := [("g", "r"); ("r", "i"); ("i", "z")].
Definition long_names : list string :=
  flat_map (fun bb => map (fun ab => "blob_long, " ++ fst bb ++ snd bb ++ ", " ++ ab) ["a"; "b"]) long_pairs.
Definition gen_long_gaps_survey (a : args) (ha_min ha_max time_after : Q) : res (list (survey * list bfn)) :=
  collect (fun bb : string * string =>
    match blob_for_long a [fst bb] [Some (snd bb)] ha_min ha_max time_after long_names None with
    | [] => Raise IndexError
    | s :: _ => Ok (s, safety_masks (scripted_params a))
    end) long_pairs.

(** gen_greedy_surveys, lines 879-1026; the parameters of lines 952-957 are not used. *)
Definition gen_greedy_surveys (a : args) (bands : list string) (shadow : Q) : list survey :=
  map (fun band => Survey
    (standard_bf (nside a) band None (ws a) false None
     ++ [(VisitRepeat (nside a) 120, repeat_weight a); (AltAzShadowMask (nside a) 20 (max_alt a) 0 360 shadow, 0)]
     ++ at0 (safety_masks (with_shadow shadow (with_nside (nside a) none))))
    band None (exptime a) (nexp a) 0 ("greedy " ++ band) ("singles_" ++ band) (ignore a)
    ([rot a; LabelRegions] ++ (if member "u" bands then [BandNexp "u" (u_nexp a) (u_exptime a)] else [])) (nside a) None 0 (program a)) bands.

Record good_seeing := GoodSeeing { g_n : list (string * Z); g_weight : Q; g_start : Q; g_fwhm : Q; g_penalty : Q }.
Definition seeing_bf (a : args) (g : good_seeing) (band : string) : list (bfn * Q) :=
  match lookup (g_n g) band with
  | Ok n => [(NGoodSeeing band (nside a) (g_start g) n (g_fwhm g) (g_penalty g), g_weight g)]
  | Raise _ => []
  end.
Definition pair_name (a : args) (band : string) (band2 : option string) : string := "pair_" ++ fi (pair_time a) ++ ", " ++ band ++ opt_band band2.
Definition pair_reason (a : args) (band : string) (band2 : option string) : string := "pairs_" ++ band ++ opt_band band2 ++ "_" ++ f1 (pair_time a).

(** generate_blobs, lines 1029-1305. *)
Definition blobs_params (a : args) : params :=
  let p := at_least (pair_shadow a) (base_params (nside a) (safety a)) in
  match p_max_alt p with
  | Some x => if Qle_bool x (max_alt a) then p else with_max_alt (max_alt a) p
  | None => p
  end.
Definition generate_blobs (a : args) (band1s : list string) (band2s : list (option string)) (g : good_seeing) : list survey :=
  map (fun bb : string * option string => let (band, band2) := bb in Survey
    (standard_bf (nside a) band band2 (ws a) true None
     ++ [(VisitRepeat (nside a) 180, repeat_weight a)]
     ++ seeing_bf a g band ++ (match band2 with Some b => seeing_bf a g b | None => [] end)
     ++ [(TimeToScheduled (scheduled_respect a), 0); (TimeToTwilight (times_needed a band2) 18, 0); (NotTwilight, 0)]
     ++ at0 (safety_masks (blobs_params a)))
    band band2 (exptime a) (nexp a) (pair_time a) (pair_name a band band2) (pair_reason a band band2) (ignore a)
    ([rot a; CloseAlt] ++ (if is_u band || is_u (opt_band band2) then [BandNexp "u" U_NEXP (u_exptime a)] else [])
     ++ [FlushForSched; LabelRegions] ++ match band2 with Some b => [TakeAsPairs b] | None => [] end)
    (blob_nside (blob a)) None (blob_change (blob a)) (program a)) (pairs band1s band2s).

(** generate_short_blobs, lines 1308-1528; line 1418 asks for the number, which is never a key. *)
Definition generate_short_blobs (a : args) (band1s : list string) (band2s : list (option string)) : list survey :=
  map (fun bb : string * option string => let (band, band2) := bb in Survey
    (standard_bf (nside a) band band2 (ws a) true None
     ++ [(VisitRepeat (nside a) 120, repeat_weight a); (TimeToScheduled (scheduled_respect a), 0);
         (AltAzShadowMask (nside a) 20 (max_alt a) 0 360 (pair_shadow a), 0); (TimeToTwilight (times_needed a band2) 12, 0);
         (NightModulo (night_pattern a), 0)]
     ++ at0 (safety_masks (with_shadow (pair_shadow a) (base_params (nside a) (safety a)))))
    band band2 (exptime a) (nexp a) (pair_time a) (pair_name a band band2) (pair_reason a band band2) (ignore a)
    ([rot a; CloseAlt; FlushForSched; LabelRegions] ++ match band2 with Some b => [TakeAsPairs b] | None => [] end)
    (blob_nside (blob a)) None (blob_change (blob a)) (program a)) (pairs band1s band2s).

(** generate_twilight_near_sun, lines 1531-1732; time_needed is not used. *)
Record near_sun := NearSun { t_airmass : Q; t_needed : Q; t_dist_weight : Q; t_area : option Q; t_repeat : Z; t_sun_alt : Q; t_12deg : Q; t_slew : Q; t_elong : Q }.
Definition generate_twilight_near_sun (a : args) (t : near_sun) (bands : list string) : list survey :=
  let p := at_least (pair_time a * 4) (base_params (nside a) (safety a)) in
  map (fun band => Survey
    ([(Footprint band (nside a) None, w_footprint (ws a)); (Slewtime band (nside a), w_slew (ws a)); (StrictBand band, w_stay (ws a));
      (BandDist band, t_dist_weight t); (NearSunHighAirmass (nside a) (t_airmass t), 0); (BandLoaded [band], 0);
      (SolarElongationMask (nside a) (t_elong t), 0); (NightModulo (night_pattern a), 0); (CloseToTwilight (t_sun_alt t) (t_12deg t), 0)]
     ++ at0 (safety_masks p))
    band None (exptime a) (nexp a) (pair_time a) "twilight_near_sun" "twilight_near_sun" (ignore a)
    [rot a; CloseAlt; TwilightTriple (t_slew t) (t_repeat t); RandomBand bands; LabelRegions] (nside a) (t_area t) 140 (program a)) bands.
End Names.

(** Minutes a survey takes, surveys/surveys.py lines 300-316 (time_needed of BlobSurvey, in minutes). *)
Definition minutes (s : survey) : Q :=
  match s_band2 s with
  | None => s_pair_time s
  | Some b => s_pair_time s * 2 + (if String.eqb (s_band1 s) b then 0 else s_change s) / 60
  end.
