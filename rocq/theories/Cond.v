(** Model of the attributes of [Conditions] that are computed on demand and cached.
    /repo/rubin_scheduler/scheduler/features/conditions.py.
    The numerical formulas are arbitrary functions; what is modelled is which inputs
    they read, what is kept, and what setting an attribute clears. *)
From Coq Require Import List ZArith QArith Bool String.
From Verif Require Import Base.
Import ListNotations.
Local Open Scope string_scope.
Open Scope list_scope.

Section Cond.
Variable M : Type.                         (* HEALPix maps *)
Variable lmst_of : Q -> Q.                 (* calc_lmst, line 380 *)
Variable ha_of : Q -> M.                   (* calc_ha, lines 395-397 *)
Variable altaz_of : Q -> M * M.            (* calc_alt_az, lines 449-457 *)
Variable pa_of : M -> M -> M.              (* calc_pa, lines 434-435 *)
Variable airmass_of : option (Q * Q) -> M -> M.  (* calc_airmass, lines 417-426 *)
Variable m5_of : string -> M -> M -> M -> M.     (* calc_m5_depth, lines 535-546, one band *)
Variable nan_map : M.
Variable elong_of : Q -> Q -> M.           (* calc_solar_elongation, line 549 *)
Variable az_sun_of : Q -> M.               (* calc_az_to_sun, line 567 *)
Variable az_anti_of : Q -> M.              (* calc_az_to_antisun, line 570 *)
Variable wind_of : Q -> M -> Q -> M.       (* calc_wind_pressure, line 558 *)

Definition dict := list (string * M).
Fixpoint dget (d : dict) (k : string) : option M :=
  match d with [] => None | (a, v) :: r => if String.eqb a k then Some v else dget r k end.
Fixpoint dset (d : dict) (k : string) (v : M) : dict :=
  match d with
  | [] => [(k, v)]
  | (a, w) :: r => if String.eqb a k then (a, v) :: r else (a, w) :: dset r k v
  end.
Definition dupd (d e : dict) : dict := fold_left (fun d p => dset d (fst p) (snd p)) e d.

Record cst : Type := mkCst {
  x_mjd : option Q; x_alt : option M; x_az : option M; x_pa : option M;
  x_lmst : option Q; x_ha : option M; x_sky : dict; x_fwhm : dict;
  x_m5 : option dict; x_air : option M;
  x_ws : option Q; x_wd : option Q; x_wp : option M;
  x_sra : option Q; x_sdec : option Q;
  x_el : option M; x_azs : option M; x_aza : option M;
  x_lim : option (Q * Q) }.

(** [_init_attributes] and the [mjd] setter, lines 264-355 and 478-488. *)
Definition set_mjd (m : option Q) : cst :=
  mkCst m None None None None None [] [] None None None None None None None None None None None.

(** The other setters; [sun_ra], [sun_dec], [wind_speed], [wind_direction] and
    [tel_alt_limits] are plain attributes (lines 288-335).  Maps are taken to have the
    resolution of the object (match_hp_resolution is the identity). *)
Definition set_lmst (s : cst) (l : Q) : cst :=   (* lines 384-387 *)
  mkCst (x_mjd s) (x_alt s) (x_az s) (x_pa s) (Some l) None (x_sky s) (x_fwhm s) (x_m5 s) (x_air s)
        (x_ws s) (x_wd s) (x_wp s) (x_sra s) (x_sdec s) (x_el s) (x_azs s) (x_aza s) (x_lim s).
Definition set_sky (s : cst) (d : dict) : cst :=  (* lines 494-499 *)
  mkCst (x_mjd s) (x_alt s) (x_az s) (x_pa s) (x_lmst s) (x_ha s) (dupd (x_sky s) d) (x_fwhm s) None (x_air s)
        (x_ws s) (x_wd s) (x_wp s) (x_sra s) (x_sdec s) (x_el s) (x_azs s) (x_aza s) (x_lim s).
Definition set_fwhm (s : cst) (d : dict) : cst :=  (* lines 505-509 *)
  mkCst (x_mjd s) (x_alt s) (x_az s) (x_pa s) (x_lmst s) (x_ha s) (x_sky s) (dupd (x_fwhm s) d) None (x_air s)
        (x_ws s) (x_wd s) (x_wp s) (x_sra s) (x_sdec s) (x_el s) (x_azs s) (x_aza s) (x_lim s).
Definition set_sra (s : cst) (v : Q) : cst :=
  mkCst (x_mjd s) (x_alt s) (x_az s) (x_pa s) (x_lmst s) (x_ha s) (x_sky s) (x_fwhm s) (x_m5 s) (x_air s)
        (x_ws s) (x_wd s) (x_wp s) (Some v) (x_sdec s) (x_el s) (x_azs s) (x_aza s) (x_lim s).
Definition set_sdec (s : cst) (v : Q) : cst :=
  mkCst (x_mjd s) (x_alt s) (x_az s) (x_pa s) (x_lmst s) (x_ha s) (x_sky s) (x_fwhm s) (x_m5 s) (x_air s)
        (x_ws s) (x_wd s) (x_wp s) (x_sra s) (Some v) (x_el s) (x_azs s) (x_aza s) (x_lim s).
Definition set_ws (s : cst) (v : Q) : cst :=
  mkCst (x_mjd s) (x_alt s) (x_az s) (x_pa s) (x_lmst s) (x_ha s) (x_sky s) (x_fwhm s) (x_m5 s) (x_air s)
        (Some v) (x_wd s) (x_wp s) (x_sra s) (x_sdec s) (x_el s) (x_azs s) (x_aza s) (x_lim s).
Definition set_wd (s : cst) (v : Q) : cst :=
  mkCst (x_mjd s) (x_alt s) (x_az s) (x_pa s) (x_lmst s) (x_ha s) (x_sky s) (x_fwhm s) (x_m5 s) (x_air s)
        (x_ws s) (Some v) (x_wp s) (x_sra s) (x_sdec s) (x_el s) (x_azs s) (x_aza s) (x_lim s).
Definition set_lim (s : cst) (v : Q * Q) : cst :=
  mkCst (x_mjd s) (x_alt s) (x_az s) (x_pa s) (x_lmst s) (x_ha s) (x_sky s) (x_fwhm s) (x_m5 s) (x_air s)
        (x_ws s) (x_wd s) (x_wp s) (x_sra s) (x_sdec s) (x_el s) (x_azs s) (x_aza s) (Some v).

(** Writing caches. *)
Definition put_altaz (s : cst) (p : M * M) : cst :=
  mkCst (x_mjd s) (Some (fst p)) (Some (snd p)) (x_pa s) (x_lmst s) (x_ha s) (x_sky s) (x_fwhm s) (x_m5 s) (x_air s)
        (x_ws s) (x_wd s) (x_wp s) (x_sra s) (x_sdec s) (x_el s) (x_azs s) (x_aza s) (x_lim s).
Definition put_pa (s : cst) (m : M) : cst :=
  mkCst (x_mjd s) (x_alt s) (x_az s) (Some m) (x_lmst s) (x_ha s) (x_sky s) (x_fwhm s) (x_m5 s) (x_air s)
        (x_ws s) (x_wd s) (x_wp s) (x_sra s) (x_sdec s) (x_el s) (x_azs s) (x_aza s) (x_lim s).
Definition put_lmst (s : cst) (l : Q) : cst :=
  mkCst (x_mjd s) (x_alt s) (x_az s) (x_pa s) (Some l) (x_ha s) (x_sky s) (x_fwhm s) (x_m5 s) (x_air s)
        (x_ws s) (x_wd s) (x_wp s) (x_sra s) (x_sdec s) (x_el s) (x_azs s) (x_aza s) (x_lim s).
Definition put_ha (s : cst) (m : M) : cst :=
  mkCst (x_mjd s) (x_alt s) (x_az s) (x_pa s) (x_lmst s) (Some m) (x_sky s) (x_fwhm s) (x_m5 s) (x_air s)
        (x_ws s) (x_wd s) (x_wp s) (x_sra s) (x_sdec s) (x_el s) (x_azs s) (x_aza s) (x_lim s).
Definition put_m5 (s : cst) (d : dict) : cst :=
  mkCst (x_mjd s) (x_alt s) (x_az s) (x_pa s) (x_lmst s) (x_ha s) (x_sky s) (x_fwhm s) (Some d) (x_air s)
        (x_ws s) (x_wd s) (x_wp s) (x_sra s) (x_sdec s) (x_el s) (x_azs s) (x_aza s) (x_lim s).
Definition put_air (s : cst) (m : M) : cst :=
  mkCst (x_mjd s) (x_alt s) (x_az s) (x_pa s) (x_lmst s) (x_ha s) (x_sky s) (x_fwhm s) (x_m5 s) (Some m)
        (x_ws s) (x_wd s) (x_wp s) (x_sra s) (x_sdec s) (x_el s) (x_azs s) (x_aza s) (x_lim s).
Definition put_wp (s : cst) (m : M) : cst :=
  mkCst (x_mjd s) (x_alt s) (x_az s) (x_pa s) (x_lmst s) (x_ha s) (x_sky s) (x_fwhm s) (x_m5 s) (x_air s)
        (x_ws s) (x_wd s) (Some m) (x_sra s) (x_sdec s) (x_el s) (x_azs s) (x_aza s) (x_lim s).
Definition put_el (s : cst) (m : M) : cst :=
  mkCst (x_mjd s) (x_alt s) (x_az s) (x_pa s) (x_lmst s) (x_ha s) (x_sky s) (x_fwhm s) (x_m5 s) (x_air s)
        (x_ws s) (x_wd s) (x_wp s) (x_sra s) (x_sdec s) (Some m) (x_azs s) (x_aza s) (x_lim s).
Definition put_azs (s : cst) (m : M) : cst :=
  mkCst (x_mjd s) (x_alt s) (x_az s) (x_pa s) (x_lmst s) (x_ha s) (x_sky s) (x_fwhm s) (x_m5 s) (x_air s)
        (x_ws s) (x_wd s) (x_wp s) (x_sra s) (x_sdec s) (x_el s) (Some m) (x_aza s) (x_lim s).
Definition put_aza (s : cst) (m : M) : cst :=
  mkCst (x_mjd s) (x_alt s) (x_az s) (x_pa s) (x_lmst s) (x_ha s) (x_sky s) (x_fwhm s) (x_m5 s) (x_air s)
        (x_ws s) (x_wd s) (x_wp s) (x_sra s) (x_sdec s) (x_el s) (x_azs s) (Some m) (x_lim s).

Inductive val : Type := VQ (q : Q) | VM (m : M) | VD (d : dict).
Inductive kind : Type := KLmst | KHa | KAlt | KAz | KPa | KAirmass | KM5 | KElong | KAzSun | KAzAnti | KWind.

(** The getters.  A missing input (None) makes the formula raise TypeError. *)
Definition get_lmst (s : cst) : cst * res Q :=   (* lines 377-382 *)
  match x_lmst s with
  | Some l => (s, Ok l)
  | None => match x_mjd s with
            | Some t => (put_lmst s (lmst_of t), Ok (lmst_of t))
            | None => (s, Raise TypeError)
            end
  end.
Definition get_ha (s : cst) : cst * res M :=     (* lines 389-397 *)
  match x_ha s with
  | Some m => (s, Ok m)
  | None => let '(s1, r) := get_lmst s in
            match r with
            | Ok l => (put_ha s1 (ha_of l), Ok (ha_of l))
            | Raise e => (s1, Raise e)
            end
  end.
Definition get_alt (s : cst) : cst * res M :=    (* lines 437-441 *)
  match x_alt s with
  | Some m => (s, Ok m)
  | None => match x_mjd s with
            | Some t => (put_altaz s (altaz_of t), Ok (fst (altaz_of t)))
            | None => (s, Raise TypeError)
            end
  end.
Definition get_az (s : cst) : cst * res M :=     (* lines 443-447 *)
  match x_az s with
  | Some m => (s, Ok m)
  | None => match x_mjd s with
            | Some t => (put_altaz s (altaz_of t), Ok (snd (altaz_of t)))
            | None => (s, Raise TypeError)
            end
  end.
Definition get_pa (s : cst) : cst * res M :=     (* lines 428-435 *)
  match x_pa s with
  | Some m => (s, Ok m)
  | None =>
      let '(s1, r1) := get_alt s in
      match r1 with
      | Raise e => (s1, Raise e)
      | Ok a => let '(s2, r2) := get_az s1 in
                match r2 with
                | Raise e => (s2, Raise e)
                | Ok z => (put_pa s2 (pa_of a z), Ok (pa_of a z))
                end
      end
  end.
(** [airmass], lines 411-426: reads the private [_alt], so it raises when no altitude
    has been asked for yet. *)
Definition get_air (s : cst) : cst * res M :=
  match x_air s with
  | Some m => (s, Ok m)
  | None => match x_alt s with
            | Some a => (put_air s (airmass_of (x_lim s) a), Ok (airmass_of (x_lim s) a))
            | None => (s, Raise AttributeError)
            end
  end.
(** [calc_m5_depth], lines 535-546: the dictionary is stored first and filled band by
    band, a band being NaN until its map is computed; an exception leaves it so. *)
Fixpoint m5_loop (s : cst) (todo : dict) (acc : dict) : dict * res unit :=
  match todo with
  | [] => (acc, Ok tt)
  | (b, sk) :: r =>
      let acc1 := dset acc b nan_map in
      match dget (x_fwhm s) b with
      | None => (acc1, Raise KeyError)
      | Some f => match x_air s with
                  | None => (acc1, Raise TypeError)
                  | Some a => m5_loop s r (dset acc1 b (m5_of b sk f a))
                  end
      end
  end.
Definition get_m5 (s : cst) : cst * res dict :=   (* lines 529-533 *)
  match x_m5 s with
  | Some d => (s, Ok d)
  | None => let '(d, r) := m5_loop s (x_sky s) [] in
            (put_m5 s d, match r with Ok _ => Ok d | Raise e => Raise e end)
  end.
Definition get_el (s : cst) : cst * res M :=     (* lines 548-549, 560-564 *)
  match x_el s with
  | Some m => (s, Ok m)
  | None => match x_sra s, x_sdec s with
            | Some a, Some d => (put_el s (elong_of a d), Ok (elong_of a d))
            | _, _ => (s, Raise TypeError)
            end
  end.
Definition get_azs (s : cst) : cst * res M :=    (* lines 566-567, 572-576 *)
  match x_azs s with
  | Some m => (s, Ok m)
  | None => match x_sra s with Some a => (put_azs s (az_sun_of a), Ok (az_sun_of a)) | None => (s, Raise TypeError) end
  end.
Definition get_aza (s : cst) : cst * res M :=    (* lines 569-570, 578-582 *)
  match x_aza s with
  | Some m => (s, Ok m)
  | None => match x_sra s with Some a => (put_aza s (az_anti_of a), Ok (az_anti_of a)) | None => (s, Raise TypeError) end
  end.
(** [wind_pressure], lines 551-558.  The azimuth is computed before a missing wind
    direction is noticed; a missing speed is noticed with both. *)
Definition get_wp (s : cst) : cst * res M :=
  match x_wp s with
  | Some m => (s, Ok m)
  | None =>
      let '(s1, r) := get_az s in
      match r with
      | Raise e => (s1, Raise e)
      | Ok z => match x_ws s1, x_wd s1 with
                | Some v, Some d => (put_wp s1 (wind_of v z d), Ok (wind_of v z d))
                | _, _ => (s1, Raise TypeError)
                end
      end
  end.

Definition as_val {A} (f : A -> val) (p : cst * res A) : cst * res val :=
  (fst p, match snd p with Ok a => Ok (f a) | Raise e => Raise e end).
Definition read (k : kind) (s : cst) : cst * res val :=
  match k with
  | KLmst => as_val VQ (get_lmst s) | KHa => as_val VM (get_ha s)
  | KAlt => as_val VM (get_alt s) | KAz => as_val VM (get_az s) | KPa => as_val VM (get_pa s)
  | KAirmass => as_val VM (get_air s) | KM5 => as_val VD (get_m5 s)
  | KElong => as_val VM (get_el s) | KAzSun => as_val VM (get_azs s) | KAzAnti => as_val VM (get_aza s)
  | KWind => as_val VM (get_wp s)
  end.

Inductive cop : Type :=
| SetMjd (t : option Q) | SetLmst (l : Q) | SetSky (d : dict) | SetFwhm (d : dict)
| SetSunRa (v : Q) | SetSunDec (v : Q) | SetWind (v : Q) | SetWindDir (v : Q) | SetLimits (v : Q * Q)
| Read (k : kind).
Definition cstep (s : cst) (o : cop) : cst * option (res val) :=
  match o with
  | SetMjd t => (set_mjd t, None) | SetLmst l => (set_lmst s l, None)
  | SetSky d => (set_sky s d, None) | SetFwhm d => (set_fwhm s d, None)
  | SetSunRa v => (set_sra s v, None) | SetSunDec v => (set_sdec s v, None)
  | SetWind v => (set_ws s v, None) | SetWindDir v => (set_wd s v, None)
  | SetLimits v => (set_lim s v, None)
  | Read k => let '(s1, r) := read k s in (s1, Some r)
  end.
Fixpoint crun (s : cst) (ops : list cop) : cst * list (res val) :=
  match ops with
  | [] => (s, [])
  | o :: r => let '(s1, x) := cstep s o in
              let '(s2, xs) := crun s1 r in
              (s2, match x with Some v => v :: xs | None => xs end)
  end.
End Cond.
