(** Model of the basis functions that gate a survey on the time and on conditions.
    /repo/rubin_scheduler/scheduler/basis_functions/feasibility_funcs.py: BandLoaded (72-94), InTimeWindow (103-124), CloseToTwilight (205-252),
    NightModulo (295-308), AfterEveningTwi (339-350), EndOfEvening (353-364),
    TimeToTwilight (367-387), TimeToScheduled (390-411), NotTwilight (414-428),
    HourAngleLimit (507-533), LookAheadDdf (586-679), RisingMore (716-744).
    Altitudes are compared as they stand, in one unit.  Minutes are converted exactly. *)
From Coq Require Import List ZArith QArith Qround Qabs Bool String.
From Verif Require Import Base IntRounded Script Feat.
Import ListNotations.
Open Scope nat_scope.

Record tcond : Type := mkTc {
  tc_mjd : Q; tc_night : Z; tc_sun_alt : Q; tc_moon_alt : Q; tc_lmst : Q;
  tc_n12_set : Q; tc_n18_set : Q; tc_n18_rise : Q; tc_n12_rise : Q; tc_moonrise : Q; tc_moonset : Q;
  tc_bands : list string; tc_sched : list Q }.

Definition minutes (m : Q) : Q := (m / 60 / 24)%Q.
(** Truth of the one element an IntRounded comparison gives. *)
Definition truth (r : res (list bool)) : bool := match r with Ok [b] => b | _ => false end.
(** getattr of sun_n12_* or sun_n18_*; Conditions has no other. *)
Definition setting (alt : Z) (c : tcond) : res Q :=
  if (alt =? 12)%Z then Ok (tc_n12_set c) else if (alt =? 18)%Z then Ok (tc_n18_set c) else Raise AttributeError.
Definition rising (alt : Z) (c : tcond) : res Q :=
  if (alt =? 12)%Z then Ok (tc_n12_rise c) else if (alt =? 18)%Z then Ok (tc_n18_rise c) else Raise AttributeError.

(** The loop variable is not set for an empty list. *)
Fixpoint band_loaded_from (bands mounted : list string) (r : option bool) : res bool :=
  match bands with
  | [] => match r with Some b => Ok b | None => Raise UnboundLocalError end
  | b :: rest =>
      let x := existsb (String.eqb b) mounted in
      if negb x then Ok x else band_loaded_from rest mounted (Some x)
  end.
Definition band_loaded (bands : list string) (c : tcond) : res bool := band_loaded_from bands (tc_bands c) None.

Definition qmin_list (x : Q) (l : list Q) : Q := fold_left (fun a b => if Qltb b a then b else a) l x.
Definition qmax_list (x : Q) (l : list Q) : Q := fold_left (fun a b => if Qltb a b then b else a) l x.
Definition np_min (l : list Q) : res Q := match l with [] => Raise ValueError | x :: r => Ok (qmin_list x r) end.
Definition np_max (l : list Q) : res Q := match l with [] => Raise ValueError | x :: r => Ok (qmax_list x r) end.
Fixpoint in_windows (ws : list (list Q)) (t : Q) (r : bool) : res bool :=
  match ws with
  | [] => Ok r
  | w :: rest => bind (np_min w) (fun lo => bind (np_max w) (fun hi =>
      in_windows rest t (if Qle_bool lo t && Qle_bool t hi then true else r)))
  end.
Definition in_time_window (ws : list (list Q)) (c : tcond) : res bool := in_windows ws (tc_mjd c) false.

Definition close_to_twilight (sun_lim max_to min_left : Q) (c : tcond) : res bool :=
  if Qltb max_to min_left then Raise ValueError   (* at construction *)
  else
    let left := (tc_n12_rise c - tc_mjd c)%Q in
    let r := Qltb sun_lim (tc_sun_alt c) in
    let r1 := if Qltb left (minutes max_to) then true else r in
    Ok (if Qltb left (minutes min_left) then false else r1).

(** Python's modulo by the length of the pattern. *)
Definition night_modulo (pattern : list bool) (c : tcond) : res bool :=
  match pattern with
  | [] => Raise ZeroDivisionError
  | _ => match nth_error pattern (Z.to_nat (tc_night c mod Z.of_nat (List.length pattern))) with
         | Some b => Ok b | None => Raise IndexError end
  end.

Definition after_evening (m : Q) (alt : Z) (c : tcond) : res bool :=
  bind (setting alt c) (fun s => Ok (truth (ir_lt [(tc_mjd c - s)%Q] [minutes m]))).
Definition end_of_evening (m : Q) (alt : Z) (c : tcond) : res bool :=
  bind (rising alt c) (fun s => Ok (truth (ir_lt [(s - tc_mjd c)%Q] [minutes m]))).
Definition time_to_twilight (m : Q) (alt : Z) (c : tcond) : res bool :=
  bind (rising alt c) (fun s => Ok (Qltb (minutes m) (s - tc_mjd c))).
Definition time_to_scheduled (m : Q) (c : tcond) : res bool :=
  match tc_sched c with
  | [] => Ok true
  | _ => bind (np_min (tc_sched c)) (fun t => Ok (Qltb (minutes m) (t - tc_mjd c)))
  end.
Definition not_twilight (alt : Z) (c : tcond) : res bool :=
  bind (setting alt c) (fun s => bind (rising alt c) (fun r =>
    Ok (if Qltb r (tc_mjd c) then false else if Qltb (tc_mjd c) s then false else true))).

Definition target_ha (ra : Q) (c : tcond) : Q := Qmod (tc_lmst c - ra / 360 * 24) 24.
Definition ha_limit (ra : Q) (limits : list (Q * Q)) (c : tcond) : bool :=
  existsb (fun l => Qle_bool (fst l) (target_ha ra c) && Qltb (target_ha ra c) (snd l)) limits.

Definition rising_more (ra pad : Q) (c : tcond) : bool :=
  let p := (pad / 60)%Q in
  let ha := (tc_lmst c - ra * 24 / 360)%Q in
  let twi := ((tc_n18_rise c - tc_mjd c) * 24)%Q in
  negb (Qltb ha (- p) && Qltb (Qabs ha) (twi - p)).

(** LookAheadDdf: [total] and [mine] are its two counts.  The attribute frac_total is never read.
    sun_alt_limit is -12 or -18. *)
Definition look_ahead (frac_total aggressive needed ra jump : Q) (alt : Z) (total mine : Z) (c : tcond) : res bool :=
  if Qltb frac_total aggressive then Raise ValueError   (* at construction *)
  else
    let ha := target_ha ra c in
    let jmp := minutes jump in
    let need := minutes needed in
    if (total =? 0)%Z then Raise ZeroDivisionError
    else
      let ratio := (inject_Z mine / inject_Z total)%Q in
      bind (rising alt c) (fun rise =>
        let avail := (rise - tc_mjd c)%Q in
        let r1 :=
          if truth (ir_gt [ha] [12%Q]) && truth (ir_lt [ha] [(24 - jmp)%Q]) then
            if truth (ir_gt [avail] [(need + jmp)%Q]) then
              if truth (ir_lt [tc_moon_alt c] [0%Q]) then
                if truth (ir_gt [tc_moonrise c] [tc_mjd c]) then
                  truth (ir_gt [(tc_moonrise c - tc_mjd c)%Q] [jmp])
                else false
              else false
            else true
          else true in
        let r2 :=
          if truth (ir_gt [tc_moon_alt c] [0%Q]) then
            if truth (ir_gt [tc_moonset c] [jmp]) then
              if truth (ir_gt [(rise - tc_moonset c)%Q] [need]) then false else r1
            else r1
          else r1 in
        Ok (if truth (ir_lt [ratio] [aggressive]) then true else r2)).
