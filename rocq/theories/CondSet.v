(** Setting many attributes of the conditions at once.
    /repo/rubin_scheduler/scheduler/features/conditions.py: [_init_attributes]
    lines 264-353, the setters, [set_auxtel_info] 732-798, [set_maintel_info]
    799-946, [set_attrs] 947-955.

    The object is the table of its attributes; a name not in the table is no
    attribute.  Values are numbers, texts, lists of texts, maps of the sky and
    dictionaries of maps.  [fit] stands for [match_hp_resolution] to the nside of
    the conditions.  Warnings are not modelled. *)
From Coq Require Import List Bool String Ascii QArith.
From Verif Require Import Base.
Import ListNotations.
Open Scope string_scope.
Open Scope list_scope.
Open Scope nat_scope.

Section CondSet.
Context {M : Type}.
Variable fit : M -> M.

Inductive value : Type :=
| VNone | VNum (q : Q) | VStr (s : string) | VStrs (l : list string)
| VMap (m : M) | VMaps (l : list (string * M)).

Definition state : Type := string -> option value.
Definition put (st : state) (n : string) (v : value) : state := fun m => if String.eqb m n then Some v else st m.

(** The attributes set to None by [_init_attributes] (lines 268-353), and those
    set to empty dictionaries.  scheduled_observations, an empty array there, is
    None here. *)
Definition cleared : list string :=
  ["_mjd"; "_alt"; "_az"; "_pa"; "clouds"; "_slewtime"; "current_band"; "_current_filter"; "mounted_bands";
   "_mounted_filters"; "_lmst"; "_m5_depth"; "_airmass"; "wind_speed"; "wind_direction"; "_wind_pressure";
   "scheduled_observations"; "queue"; "moon_alt"; "moon_az"; "moon_ra"; "moon_dec"; "moon_phase"; "sun_alt"; "sun_az";
   "sun_ra"; "sun_dec"; "sunset"; "sun_n12_setting"; "sun_n18_setting"; "sun_n18_rising"; "sun_n12_rising"; "sunrise";
   "moonrise"; "moonset"; "moon_phase_sunset"; "planet_positions"; "tel_ra"; "tel_dec"; "tel_alt"; "tel_az";
   "cumulative_azimuth_rad"; "sky_az_limits"; "sky_alt_limits"; "tel_alt_limits"; "tel_az_limits"; "cloud_maps"; "_HA";
   "bulk_cloud"; "rot_tel_pos"; "targets_of_opportunity"; "_solar_elongation"; "_az_to_sun"; "_az_to_antisun"].
Definition emptied : list string := ["_skybrightness"; "_fwhm_eff"].
Definition mem (n : string) (l : list string) : bool := existsb (String.eqb n) l.
Definition init_attributes (st : state) : state :=
  fun m => if mem m cleared then Some VNone else if mem m emptied then Some (VMaps []) else st m.

(** Properties without a setter. *)
Definition read_only : list string :=
  ["HA"; "airmass"; "pa"; "alt"; "az"; "m5_depth"; "solar_elongation"; "az_to_sun"; "az_to_antisun"; "wind_pressure"].

(** [value.split("_")[0]], lines 363-375. *)
Fixpoint head_ (s : string) : string :=
  match s with
  | EmptyString => EmptyString
  | String c r => if Ascii.eqb c "_" then EmptyString else String c (head_ r)
  end.

(** A dictionary with other entries set in it, lines 495-510. *)
Fixpoint dict_put (k : string) (m : M) (l : list (string * M)) : list (string * M) :=
  match l with
  | [] => [(k, m)]
  | (k', m') :: r => if String.eqb k' k then (k', m) :: r else (k', m') :: dict_put k m r
  end.
Definition dict_merge (new old : list (string * M)) : list (string * M) :=
  fold_left (fun d p => dict_put (fst p) (fit (snd p)) d) new old.
Fixpoint dict_get (k : string) (l : list (string * M)) : option M :=
  match l with [] => None | (k', m) :: r => if String.eqb k' k then Some m else dict_get k r end.
Definition dict_of (st : state) (n : string) : list (string * M) :=
  match st n with Some (VMaps l) => l | _ => [] end.

(** [setattr(self, name, value)] with the setters, lines 358-530.  A setter that
    is given a value of another kind raises. *)
Definition setattr (st : state) (n : string) (v : value) : state * res unit :=
  if mem n read_only then (st, Raise AttributeError)
  else if String.eqb n "mjd" then (put (init_attributes st) "_mjd" v, Ok tt)
  else if String.eqb n "night" then (st, Ok tt)
  else if String.eqb n "current_filter" then
    let st1 := put st "_current_filter" v in
    match v with VStr s => (put st1 "current_band" (VStr (head_ s)), Ok tt) | _ => (st1, Raise AttributeError) end
  else if String.eqb n "mounted_filters" then
    let st1 := put st "_mounted_filters" v in
    match v with VStrs l => (put st1 "mounted_bands" (VStrs (map head_ l)), Ok tt) | _ => (st1, Raise TypeError) end
  else if String.eqb n "slewtime" then
    (put st "_slewtime" (match v with VMap m => VMap (fit m) | _ => v end), Ok tt)
  else if String.eqb n "skybrightness" then
    match v with
    | VMaps l => (put (put st "_skybrightness" (VMaps (dict_merge l (dict_of st "_skybrightness")))) "_m5_depth" VNone, Ok tt)
    | _ => (st, Raise TypeError)
    end
  else if String.eqb n "fwhm_eff" then
    match v with
    | VMaps l => (put (put st "_fwhm_eff" (VMaps (dict_merge l (dict_of st "_fwhm_eff")))) "_m5_depth" VNone, Ok tt)
    | _ => (st, Raise TypeError)
    end
  else if String.eqb n "lmst" then (put (put st "_lmst" v) "_HA" VNone, Ok tt)
  else (put st n v, Ok tt).

(** Where an attribute is kept. *)
Definition cell (n : string) : string :=
  if mem n ["mjd"; "current_filter"; "mounted_filters"; "slewtime"; "skybrightness"; "fwhm_eff"; "lmst"]
  then String.append "_" n else n.
Definition getattr (st : state) (n : string) : option value := st (cell n).

(** [set_attrs], lines 947-955: in the order given. *)
Fixpoint set_attrs (st : state) (kw : list (string * value)) : state * res unit :=
  match kw with
  | [] => (st, Ok tt)
  | (n, v) :: r => let '(st1, x) := setattr st n v in
                   match x with Raise e => (st1, Raise e) | Ok _ => set_attrs st1 r end
  end.

(** The parameters in the order of the signatures, without kwargs, which becomes
    an attribute of that name (not modelled). *)
Definition auxtel_names : list string :=
  ["mjd"; "slewtime"; "sun_n18_setting"; "sun_n18_rising"; "moon_alt"; "moon_az"; "tel_alt_limits"; "tel_az_limits";
   "sky_alt_limits"; "sky_az_limits"; "wind_speed"; "wind_direction"].
Definition maintel_names : list string :=
  ["mjd"; "slewtime"; "current_filter"; "mounted_filters"; "night"; "skybrightness"; "fwhm_eff"; "moon_alt"; "moon_az";
   "moon_ra"; "moon_dec"; "moon_phase"; "sun_alt"; "sun_az"; "sun_ra"; "sun_dec"; "tel_ra"; "tel_dec"; "tel_alt"; "tel_az";
   "wind_speed"; "wind_direction"; "sun_n12_setting"; "sun_n12_rising"; "sun_n18_setting"; "sun_n18_rising"; "moonrise";
   "moonset"; "planet_positions"; "tel_alt_limits"; "tel_az_limits"; "sky_alt_limits"; "sky_az_limits"].

(** Lines 775-798 and 921-946. *)
Definition set_info (names : list string) (args : string -> value) (kwargs : list (string * value)) (st : state) : state * res unit :=
  set_attrs (init_attributes st)
    (map (fun n => (n, args n)) (filter (fun n => negb (String.eqb n "night")) names) ++
     filter (fun p => negb (String.eqb (fst p) "night")) kwargs).
Definition set_maintel_info := set_info maintel_names.
Definition set_auxtel_info := set_info auxtel_names.

(** The object after [__init__], lines 245-263: the attributes of the instance and
    an mjd. *)
Definition fixed : list string := ["nside"; "survey_start_mjd"; "ra"; "dec"; "site"; "exptime"; "zeros_map"; "nan_map"].
Definition new_conditions (mjd : value) : state :=
  fst (setattr (fun n => if mem n fixed then Some VNone else None) "mjd" mjd).
End CondSet.
Arguments value : clear implicits.
Arguments state : clear implicits.
