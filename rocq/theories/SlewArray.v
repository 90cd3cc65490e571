(** Model of slew_times for several targets at once.
    /repo/rubin_scheduler/scheduler/model_observatory/kinem_model.py lines 397-762
    with arrays of targets and update_tracking=False.  Every step works element by
    element except those for the band: bandname is one string, so
    [np.where(bandname != self.current_band)] (lines 712 and 718) has the index 0
    alone when the bands differ and none when they do not (numpy before 2.1; later
    versions raise there).  At least one target. *)
From Coq Require Import List Reals Lra String Bool.
From Verif Require Import Base Angles Jerk Kinem.
Import ListNotations.
Open Scope list_scope.
Open Scope R_scope.

Section SlewArray.
Variable E : conv.
Variable P : cfg.

(** Which rotator angles come with the targets: none, rot_sky_pos or rot_tel_pos. *)
Inductive rots := NoRot | SkyRot | TelRot.
(** ra, dec, (alt, az) if given, rotator angle. *)
Definition place : Type := R * R * option (R * R) * R.
(** One target with the other arguments of the call. *)
Definition aim (a : slew_args) (k : rots) (p : place) : slew_args :=
  let '(ra, dec, altaz, rot) := p in
  mkSlew ra dec (a_mjd a) (match k with SkyRot => Some rot | _ => None end)
         (match k with TelRot => Some rot | _ => None end) (a_band a) (a_lax a) (a_while a) (a_const a)
         altaz (a_start a) (a_start_rot a) false.

Definition differs (s : kin) (a : slew_args) : bool := negb (String.eqb (band_of s a) (k_band s)).

(** One element of the arrays; [change] says whether the element is among the
    indices of lines 712 and 718. *)
Definition element (s : kin) (a : slew_args) (change : bool) : res (option R) :=
  let '(alt, az, pa, ra, dec) := dest E a in
  let '(rotsky, rottel) := rotation E a pa in
  let '(salt, saz, spa) := origin E P s a in
  let dalt := Rabs (alt - salt) in
  let daz := aztel P (k_cum s) saz az in
  let t := omax (tel_time P (k_overhead s) dalt daz)
                (Some (dome_time P (a_lax a) dalt (Rabs (smallest_signed_angle saz az)))) in
  let rot :=
    match rottel with
    | None => Ok (t, None)
    | Some rt =>
        let t1 := if Rlt_dec rt (telrot_min P) then None
                  else if Rlt_dec (telrot_max P) rt then None else t in
        bind (current_rot E s a spa) (fun cur =>
        let rtime := if change then 0 else jt (telrot P) (Rabs (smallest_signed_angle cur rt)) in
        Ok (omax t1 (Some rtime), Some (cur, rt)))
    end in
  bind rot (fun '(t2, cur) =>
    let t3 :=
      if k_parked s then t2
      else if change then
        let bct := match a_const a, cur with
                   | false, Some (c, rt) => better_band_changetime P c rt
                   | _, _ => band_changetime P end in
        if a_while a then omax t2 (Some bct) else oadd t2 bct
      else t2 in
    let t4 := if Rle_dec (cl_limit P) dalt then oadd t3 (cl_delay P) else t3 in
    Ok (if Rlt_dec (telalt_max P) alt then None else if Rlt_dec alt (telalt_min P) then None else t4)).

Fixpoint all_ok {A} (l : list (res A)) : res (list A) :=
  match l with [] => Ok [] | x :: r => bind x (fun a => bind (all_ok r) (fun b => Ok (a :: b))) end.

(** The times of all targets; None is the single nan for a band that is not mounted
    (line 513).  With rotator angles and a band change time that depends on them an
    array of several times is put into one element (lines 720-726): ValueError. *)
Definition slew_array (s : kin) (a : slew_args) (k : rots) (ps : list place) : res (option (list (option R))) :=
  if negb (band_ok s a) then Ok None
  else
    let broadcast := differs s a && negb (k_parked s) && negb (a_const a) &&
                     (match k with NoRot => false | _ => true end) && (1 <? List.length ps)%nat in
    match ps with
    | [] => Ok (Some [])
    | p :: rest =>
        bind (all_ok (element s (aim a k p) (differs s a) :: map (fun q => element s (aim a k q) false) rest))
          (fun ts => if broadcast then Raise ValueError else Ok (Some ts))
    end.
End SlewArray.
