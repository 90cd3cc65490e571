(** Model of the description of a site.
    /repo/rubin_scheduler/utils/site.py.  [np.radians] is an arbitrary function.  An
    object is the list of its attributes; the text of the warning is its list of names. *)
From Coq Require Import List QArith Bool String.
From Verif Require Import Base.
From Verif Require Surveys.
Import ListNotations.
Open Scope string_scope.
Open Scope list_scope.
Open Scope nat_scope.

(** The seven parameters: None, or a float. *)
Record params := mkParams { a_lon : option er; a_lat : option er; a_height : option er; a_temp : option er; a_press : option er; a_hum : option er; a_lapse : option er }.
Definition num (n : Z) (d : positive) : option er := Some (EFin (n # d)).
(** [LsstSiteParameters] 28-38 and [AuxTelParameters] 54-63. *)
Definition lsst : params := mkParams (num (-7074941) 100000) (num (-30244628) 1000000) (num 2650 1) (num 115 10) (num 750 1) (num 4 10) (num 65 10000).
Definition auxtel : params := mkParams (num (-70747686) 1000000) (num (-30244789) 1000000) (num 2650 1) (num 115 10) (num 750 1) (num 4 10) (num 65 10000).

Definition orelse (a b : option er) : option er := match a with Some _ => a | None => b end.
Definition fill (p d : params) : params :=
  mkParams (orelse (a_lon p) (a_lon d)) (orelse (a_lat p) (a_lat d)) (orelse (a_height p) (a_height d)) (orelse (a_temp p) (a_temp d))
           (orelse (a_press p) (a_press d)) (orelse (a_hum p) (a_hum d)) (orelse (a_lapse p) (a_lapse d)).
(** 107-135. *)
Definition default_params (name : option string) : option params :=
  match name with
  | None => None
  | Some n => if String.eqb n "AuxTel" then Some auxtel else if String.eqb n "LSST" then Some lsst else None
  end.
Definition effective (name : option string) (p : params) : params := match default_params name with Some d => fill p d | None => p end.

Inductive attr : Type := AName (n : option string) | ANum (x : option er).
Definition obj : Type := list (string * attr).
Section Site.
Variable radians : er -> er.
(** The attributes, in the order they are set (106, 137-164). *)
Definition site (name : option string) (p : params) : obj :=
  let e := effective name p in
  [("_name", AName name); ("_longitude_rad", ANum (option_map radians (a_lon e))); ("_latitude_rad", ANum (option_map radians (a_lat e)));
   ("_longitude_deg", ANum (a_lon e)); ("_latitude_deg", ANum (a_lat e)); ("_height", ANum (a_height e)); ("_pressure", ANum (a_press e));
   ("_temperature_kelvin", ANum (option_map (fun x => Surveys.er_add x (EFin (27315 # 100))) (a_temp e))); ("_temperature_centigrade", ANum (a_temp e));
   ("_humidity", ANum (a_hum e)); ("_lapse_rate", ANum (a_lapse e))].
Definition none (x : option er) : bool := match x with None => true | Some _ => false end.
(** The names warned of (171-205); no warning when there is none. *)
Definition warned (name : option string) (p : params) : list string :=
  let e := effective name p in
  (if none (a_lon e) then ["longitude"] else []) ++ (if none (a_lat e) then ["latitude"] else []) ++ (if none (a_temp e) then ["temperature"] else []) ++
  (if none (a_height e) then ["height"] else []) ++ (if none (a_press e) then ["pressure"] else []) ++ (if none (a_hum e) then ["humidity"] else []) ++ (if none (a_lapse e) then ["lapse_rate"] else []).
End Site.

(** [==] of attributes. *)
Definition attr_eqb (a b : attr) : bool :=
  match a, b with
  | AName None, AName None => true
  | AName (Some x), AName (Some y) => String.eqb x y
  | ANum None, ANum None => true
  | ANum (Some x), ANum (Some y) => er_eqb x y
  | AName None, ANum None | ANum None, AName None => true
  | _, _ => false
  end.
Definition getattr (o : obj) (k : string) : option attr := match find (fun kv => String.eqb (fst kv) k) o with Some kv => Some (snd kv) | None => None end.
(** [__eq__] 213-224; [other] is None when it has no attributes at all, as None or a number. *)
Definition site_eq (self : obj) (other : option obj) : res bool :=
  match self, other with
  | [], _ => Ok (match other with Some [] => true | Some _ => false | None => true end)
  | _, None => Raise AttributeError
  | _, Some o =>
      Ok (forallb (fun kv => match getattr o (fst kv) with Some v => attr_eqb (snd kv) v | None => false end) self &&
          forallb (fun kv => match getattr self (fst kv) with Some _ => true | None => false end) o)
  end.
(** [__ne__] 226-227. *)
Definition site_ne (self : obj) (other : option obj) : res bool := bind (site_eq self other) (fun b => Ok (negb b)).
(** [to_earth_location] 208-211: lon, lat, height; None times a unit is refused. *)
Definition to_earth (name : option string) (p : params) : res (er * er * er) :=
  let e := effective name p in
  match a_lon e, a_lat e, a_height e with Some x, Some y, Some h => Ok (x, y, h) | _, _, _ => Raise TypeError end.
