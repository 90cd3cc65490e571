(** Kinematic model of the telescope.
    /repo/rubin_scheduler/scheduler/model_observatory/kinem_model.py lines 130-887.

    Real numbers instead of floats.  One target at a time (arrays of length one,
    as [observe] uses it).  The coordinate and rotation conversions are arbitrary
    functions.  A time is [Some t] when finite and [None] when inf or nan: both
    absorb maximum and addition, and line 740 turns inf into nan. *)
From Coq Require Import List Reals Lra Lia String Bool.
From Verif Require Import Base Angles Jerk.
Import ListNotations.
Open Scope R_scope.

(** np.radians *)
Definition radians (x : R) : R := x * PI / 180.

(** Coordinate conversions, arbitrary: lines 91-102 and 386-395. *)
Record conv : Type := mkConv {
  radec2altaz : R -> R -> R -> R * R * R;     (* ra dec mjd -> alt az pa *)
  altaz2pa : R -> R -> R;
  altaz2radec : R -> R -> R -> R * R;         (* alt az mjd -> ra dec *)
  rs2rt : R -> R -> R;                        (* _rotskypos2rottelpos *)
  rt2rs : R -> R -> R }.                      (* _rottelpos2rotskypos *)

(** Maximum speed, acceleration, jerk of one axis. *)
Record axis : Type := mkAxis { ax_v : R; ax_a : R; ax_j : option R }.

(** Configuration: setup_camera 169-224, setup_dome 226-271, setup_telescope
    273-336, setup_optics 338-360; angles already in radians except [ol_slope],
    which is the argument of setup_optics in seconds per degree. *)
Record cfg : Type := mkCfg {
  readtime : R; shuttertime : R; band_changetime : R; camera_fov : R;
  telrot_min : R; telrot_max : R; telrot : axis; shutter_2motion : R;
  domalt : axis; domaz : axis; domaz_settle : R;
  telalt_min : R; telalt_max : R; telaz_min : R; telaz_max : R;
  telalt : axis; telaz : axis; mount_settle : R;
  ol_slope : R; cl_limit : R; cl_delay : R;
  park_alt : R; park_az : R }.

(** Mutable state. [k_ra], [k_dec] are only read when not parked. *)
Record kin : Type := mkKin {
  k_parked : bool;
  k_ra : R; k_dec : R;
  k_rotsky : option R;          (* current_rot_sky_pos_rad *)
  k_cum : R;                    (* cumulative_azimuth_rad *)
  k_az : R; k_alt : R;          (* last_az_rad, last_alt_rad *)
  k_rottel : option R;          (* last_rot_tel_pos_rad *)
  k_overhead : R;
  k_band : string;              (* current_band *)
  k_start_band : string;
  k_mounted : list string }.

Section Kin.
Variable E : conv.
Variable P : cfg.

(** Lines 362-386. *)
Definition park (s : kin) : kin :=
  mkKin true (k_ra s) (k_dec s) None 0 (park_az P) (park_alt P) (Some 0) 0 (k_start_band s)
        (k_start_band s) (k_mounted s).

(** Lines 154-167; IndexError when the list is empty. *)
Definition mount_bands (s : kin) (l : list string) : kin * res unit :=
  let set b sb := mkKin (k_parked s) (k_ra s) (k_dec s) (k_rotsky s) (k_cum s) (k_az s) (k_alt s)
                        (k_rottel s) (k_overhead s) b sb l in
  let last := match rev l with [] => None | x :: _ => Some x end in
  let mem b := existsb (String.eqb b) l in
  if mem (k_band s) then
    if mem (k_start_band s) then (set (k_band s) (k_start_band s), Ok tt)
    else match last with None => (set (k_band s) (k_start_band s), Raise IndexError)
                       | Some x => (set (k_band s) x, Ok tt) end
  else match last with
       | None => (set (k_band s) (k_start_band s), Raise IndexError)
       | Some x => if mem (k_start_band s) then (set x (k_start_band s), Ok tt) else (set x x, Ok tt)
       end.

(** jerk_time for one finite distance; the exception branch (0 here) is
    unreachable for positive limits, see C22. *)
Definition jt (x : axis) (d : R) : R :=
  match ax_j x with
  | None => acc_time d (ax_v x) (ax_a x)
  | Some j => match jerk1 d (ax_v x) (ax_a x) j with Some t => t | None => 0 end
  end.

Definition omax (x y : option R) : option R :=
  match x, y with Some a, Some b => Some (Rmax a b) | _, _ => None end.
Definition oadd (x : option R) (y : R) : option R := option_map (fun a => a + y) x.

(** Arguments of slew_times, lines 397-414. *)
Record slew_args : Type := mkSlew {
  a_ra : R; a_dec : R; a_mjd : R;
  a_rotsky : option R; a_rottel : option R;
  a_band : option string;
  a_lax : bool; a_while : bool; a_const : bool;
  a_altaz : option (R * R);
  a_start : option (R * R);      (* starting_alt_rad, starting_az_rad *)
  a_start_rot : option R;
  a_update : bool }.

(** Lines 547-586: signed azimuth move, None = out of bounds (inf). *)
Definition in_limits (c : R) : bool := negb (Rltb c (telaz_min P) || Rltb (telaz_max P) c).
Definition aztel_wrap (cum start az : R) : option R :=
  let short := smallest_signed_angle start az in
  let long := if Rlt_dec short 0 then two_pi + short else short - two_pi in
  let short' := if in_limits (short + cum) then Some short else None in
  let long' := if in_limits (long + cum) then Some long else None in
  match short', long' with
  | Some x, Some y => if Rlt_dec (Rabs x) (Rabs y) then Some x else Some y
  | Some x, None => Some x
  | None, y => y
  end.
(** Lines 589-598. *)
Definition aztel_restricted (start az : R) : option R :=
  let az_range := Rmod (telaz_max P - telaz_min P) two_pi in
  let d1 := Rmod (az - telaz_min P) two_pi in
  let d2 := Rmod (start - telaz_min P) two_pi in
  if Rlt_dec az_range d1 then None else Some (d2 - d1).
Definition wraps : bool := Rleb two_pi (Rabs (telaz_max P - telaz_min P)).
Definition aztel (cum start az : R) : option R :=
  if wraps then aztel_wrap cum start az else aztel_restricted start az.

(** Lines 600-622: telescope time. *)
Definition optics_ol_slope : R := ol_slope P / radians 1.
Definition ol_time (delta_alt : R) : R := delta_alt / optics_ol_slope.
Definition tel_time (overhead delta_alt : R) (daz : option R) : option R :=
  let t := oadd (omax (Some (jt (telalt P) delta_alt)) (option_map (fun d => jt (telaz P) (Rabs d)) daz))
                (ol_time delta_alt) in
  let t := match t with
           | None => None
           | Some x => if Rlt_dec 0 x then Some (x + Rmax 0 (mount_settle P - ol_time delta_alt)) else Some x
           end in
  omax (Some overhead) t.

(** Lines 624-679: dome time. *)
Definition dome_time (lax : bool) (delta_alt delta_az : R) : R :=
  if lax then
    if Rlt_dec (delta_alt ^ 2 + delta_az ^ 2) (camera_fov P ^ 2) then 0
    else
      let slit := camera_fov P / 2 in
      let shift := 2 * (slit / 2 - camera_fov P / 2) in
      let t1 := Rmax (delta_alt / ax_v (domalt P)) ((delta_az - shift) / ax_v (domaz P)) in
      let t2 := Rmax ((delta_alt - shift) / ax_v (domalt P)) (delta_az / ax_v (domaz P)) in
      Rmin t1 t2
  else
    let ta := jt (domalt P) delta_alt in
    let tz := jt (domaz P) delta_az in
    let tz := if Rlt_dec 0 tz then tz + domaz_settle P else tz in
    Rmax ta tz.

(** Lines 764-800 (band_change defaults to 90 seconds). *)
Definition better_band_changetime (prev next : R) : R :=
  jt (telrot P) (Rabs (smallest_signed_angle prev 0)) + 90 +
  jt (telrot P) (Rabs (smallest_signed_angle 0 next)).

(** Lines 525-535. *)
Definition rotation (a : slew_args) (pa : R) : option R * option R :=
  match a_rottel a, a_rotsky a with
  | Some rt, _ => (Some (rt2rs E rt pa), Some rt)
  | None, Some rs => (Some rs, Some (rs2rt E rs pa))
  | None, None => (None, None)
  end.

(** Lines 692-704: current rotator angle.  UnboundLocalError when a start
    position is given while tracking without a start rotation; TypeError when the
    last slew recorded no rotator angle. *)
Definition current_rot (s : kin) (a : slew_args) (start_pa : option R) : res R :=
  match a_start_rot a with
  | Some r => Ok r
  | None =>
      match k_rotsky s with
      | None => match k_rottel s with Some r => Ok r | None => Raise TypeError end
      | Some rs => match start_pa with Some pa => Ok (rs2rt E rs pa) | None => Raise UnboundLocalError end
      end
  end.

(** Lines 510-513. *)
Definition band_ok (s : kin) (a : slew_args) : bool :=
  match a_band a with None => true | Some b => existsb (String.eqb b) (k_mounted s) end.
Definition band_of (s : kin) (a : slew_args) : string :=
  match a_band a with None => k_band s | Some b => b end.

(** Lines 515-523: destination (alt, az, pa, ra, dec). *)
Definition dest (a : slew_args) : R * R * R * R * R :=
  match a_altaz a with
  | None => let '(alt, az, pa) := radec2altaz E (a_ra a) (a_dec a) (a_mjd a) in (alt, az, pa, a_ra a, a_dec a)
  | Some (alt, az) =>
      let pa := altaz2pa E alt az in
      if a_update a then let '(ra, dec) := altaz2radec E alt az (a_mjd a) in (alt, az, pa, ra, dec)
      else (alt, az, pa, a_ra a, a_dec a)
  end.

(** Lines 537-545: where the telescope is now (alt, az, starting_pa). *)
Definition origin (s : kin) (a : slew_args) : R * R * option R :=
  match a_start a with
  | Some (x, y) => (x, y, None)
  | None => if k_parked s then (park_alt P, park_az P, None)
            else let '(x, y, z) := radec2altaz E (k_ra s) (k_dec s) (a_mjd a) in (x, y, Some z)
  end.

(** The slew, lines 510-762. *)
Definition slew_times (s : kin) (a : slew_args) : kin * res (option R) :=
  let band := band_of s a in
  if negb (band_ok s a) then (s, Ok None)
  else
    let '(alt, az, pa, ra, dec) := dest a in
    let '(rotsky, rottel) := rotation a pa in
    let '(salt, saz, spa) := origin s a in
    let dalt := Rabs (alt - salt) in
    let daz := aztel (k_cum s) saz az in
    let t := omax (tel_time (k_overhead s) dalt daz)
                  (Some (dome_time (a_lax a) dalt (Rabs (smallest_signed_angle saz az)))) in
    let change := negb (String.eqb band (k_band s)) in
    let rot :=      (* time so far, and the current rotator angle *)
      match rottel with
      | None => Ok (t, None)
      | Some rt =>
          let t1 := if Rlt_dec rt (telrot_min P) then None
                    else if Rlt_dec (telrot_max P) rt then None else t in
          bind (current_rot s a spa) (fun cur =>
          let rtime := if change then 0 else jt (telrot P) (Rabs (smallest_signed_angle cur rt)) in
          Ok (omax t1 (Some rtime), Some (cur, rt)))
      end in
    match rot with
    | Raise e => (s, Raise e)
    | Ok (t2, cur) =>
        let t3 :=
          if k_parked s then t2
          else if change then
            let bct := match a_const a, cur with
                       | false, Some (c, rt) => better_band_changetime c rt
                       | _, _ => band_changetime P end in
            if a_while a then omax t2 (Some bct) else oadd t2 bct
          else t2 in
        let t4 := if Rle_dec (cl_limit P) dalt then oadd t3 (cl_delay P) else t3 in
        let t5 := if Rlt_dec (telalt_max P) alt then None
                  else if Rlt_dec alt (telalt_min P) then None else t4 in
        match t5 with
        | None => (s, Ok None)
        | Some x =>
            if a_update a then
              let cum := if wraps then match daz with Some d => k_cum s + d | None => k_cum s end else az in
              (mkKin false ra dec rotsky cum az alt rottel (k_overhead s) band (k_start_band s) (k_mounted s),
               Ok (Some x))
            else (s, Ok (Some x))
        end
    end.

(** A visit: RA, dec, rotSkyPos, band, exptime, nexp. *)
Record visit : Type := mkVisit {
  v_ra : R; v_dec : R; v_rotsky : R; v_band : string; v_exptime : R; v_nexp : nat }.

(** Lines 802-811. *)
Definition visit_time (v : visit) : R :=
  v_exptime v + INR (v_nexp v) * shuttertime P + INR (v_nexp v - 1) * readtime P.
(** Lines 813-820. *)
Definition shutter_stall (v : visit) : R :=
  let dt := v_exptime v / INR (v_nexp v) in
  if Rlt_dec dt (shutter_2motion P) then shutter_2motion P - dt else 0.

(** Lines 822-887. *)
Definition observe (s : kin) (v : visit) (mjd : R) (rottel : option R) (lax whl : bool)
  : kin * res (option R * R) :=
  let '(s1, r) := slew_times s
     (mkSlew (v_ra v) (v_dec v) mjd (Some (v_rotsky v)) rottel (Some (v_band v)) lax whl true None None None true) in
  match r with
  | Raise e => (s1, Raise e)
  | Ok t =>
      let s2 := match t with
                | None => s1
                | Some _ => mkKin (k_parked s1) (k_ra s1) (k_dec s1) (k_rotsky s1) (k_cum s1) (k_az s1) (k_alt s1)
                              (k_rottel s1) (Rmax (readtime P) (shutter_stall v)) (k_band s1) (k_start_band s1)
                              (k_mounted s1)
                end in
      (s2, Ok (t, visit_time v))
  end.

(** Lines 130-149: the start state for given band names. *)
Definition kin_init (start_band : string) (mounted : list string) : kin :=
  mkKin true 0 0 None 0 (park_az P) (park_alt P) (Some 0) 0 start_band start_band mounted.

(** Sequences of calls. *)
Inductive kop : Type :=
| KSlew (a : slew_args)
| KObserve (v : visit) (mjd : R) (rottel : option R) (lax whl : bool)
| KPark
| KMount (l : list string).
Definition kstep (s : kin) (o : kop) : kin :=
  match o with
  | KSlew a => fst (slew_times s a)
  | KObserve v m r l w => fst (observe s v m r l w)
  | KPark => park s
  | KMount l => fst (mount_bands s l)
  end.
Definition krun (s : kin) (l : list kop) : kin := fold_left kstep l s.

End Kin.
